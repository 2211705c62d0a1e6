(** Facts about path lookup (C46). *)
From Verif Require Import Base GoPath.

(** Total length of the elements with one separator each. *)
Definition weight (cs : list bytes) : nat := sum_list_with (λ c, S (length c)) cs.
Lemma weight_app a b : weight (a ++ b) = weight a + weight b.
Proof. apply sum_list_with_app. Qed.
Lemma weight_rev a : weight (rev a) = weight a.
Proof.
  induction a as [|c a IH]; [done|]. cbn [rev]. rewrite weight_app, IH.
  unfold weight. cbn. lia.
Qed.

Lemma split_weight p : weight (split_slash p) = S (length p).
Proof.
  induction p as [|b p IH]; cbn [split_slash]; [done|]. case_bool_decide.
  - cbn. fold (weight (split_slash p)). rewrite IH. cbn. lia.
  - destruct (split_slash p) as [|c cs] eqn:E; cbn in *; lia.
Qed.
Lemma split_ne p : split_slash p ≠ [].
Proof. destruct p; cbn; [done|]. case_bool_decide; [done|]. by destruct (split_slash p). Qed.
Lemma split_app p q : split_slash (p ++ slash :: q) = split_slash p ++ split_slash q.
Proof.
  induction p as [|b p IH]; cbn [app split_slash].
  - by rewrite bool_decide_eq_true_2.
  - case_bool_decide; [by rewrite IH|]. rewrite IH.
    pose proof (split_ne p). destruct (split_slash p); done.
Qed.
Definition noslash (c : bytes) : Prop := slash ∉ c.
Lemma split_noslash p : Forall noslash (split_slash p).
Proof.
  induction p as [|b p IH]; cbn [split_slash]; [repeat constructor; unfold noslash; set_solver|].
  case_bool_decide; [constructor; [unfold noslash; set_solver|done]|].
  destruct (split_slash p) as [|c cs]; [repeat constructor; unfold noslash; set_solver|].
  apply Forall_cons in IH as [H1 H2]. constructor; [|done]. unfold noslash in *. set_solver.
Qed.
Lemma split_single c : noslash c → split_slash c = [c].
Proof.
  induction c as [|b c IH]; intros H; cbn [split_slash]; [done|]. unfold noslash in H.
  rewrite bool_decide_eq_false_2 by set_solver. rewrite IH; [done|]. unfold noslash. set_solver.
Qed.

Lemma step_weight r st c : weight (clean_step r st c) ≤ weight st + S (length c).
Proof.
  unfold clean_step, weight. repeat case_bool_decide; subst; cbn; try lia.
  destruct st as [|t st]; [destruct r; cbn; lia|]. case_bool_decide; subst; cbn; lia.
Qed.
Lemma steps_weight r cs st : weight (foldl (clean_step r) st cs) ≤ weight st + weight cs.
Proof.
  revert st; induction cs as [|c cs IH]; intros st; cbn [foldl]; [lia|].
  pose proof (IH (clean_step r st c)). pose proof (step_weight r st c). unfold weight in *. cbn. lia.
Qed.

(** Elements on the stack are non-empty and contain no slash. *)
Definition elem_ok (c : bytes) : Prop := c ≠ [] ∧ noslash c ∧ c ≠ [dot].
Lemma steps_ok r cs st : Forall noslash cs → Forall elem_ok st → Forall elem_ok (foldl (clean_step r) st cs).
Proof.
  revert st; induction cs as [|c cs IH]; intros st Hc Hs; cbn [foldl]; [done|].
  apply Forall_cons in Hc as [Hc1 Hc]. apply IH; [done|]. unfold clean_step.
  case_bool_decide as E1; [done|]. apply Decidable.not_or in E1 as [E1 E2].
  case_bool_decide as E3; [|constructor; [split_and!; done|done]].
  destruct st as [|t st]; [destruct r; [done|constructor; [split_and!; done|done]]|].
  case_bool_decide; [constructor; [split_and!; done|done]|]. by apply Forall_cons in Hs as [_ ?].
Qed.

Lemma join_weight cs : cs ≠ [] → S (length (join_slash cs)) = weight cs.
Proof.
  induction cs as [|c cs IH]; intros H; [done|]. cbn [join_slash]. destruct cs as [|c' cs].
  - cbn. lia.
  - rewrite app_length. cbn [length]. rewrite IH by done. cbn. lia.
Qed.
Lemma join_head cs : Forall elem_ok cs → rooted (join_slash cs) = false.
Proof.
  intros H. unfold rooted. apply bool_decide_eq_false_2. destruct H as [|c cs (H1 & H2 & _) _]; [done|].
  unfold noslash in H2. destruct c as [|b c]; [done|].
  cbn [join_slash]. destruct cs; cbn; intros [= ->]; set_solver.
Qed.

Lemma drop_nonslash_spec l : drop_nonslash l = [] ∨ ∃ r, drop_nonslash l = slash :: r.
Proof. induction l as [|b l IH]; cbn; [by left|]. case_bool_decide; [right; subst; by eexists|done]. Qed.
Lemma drop_nonslash_len l : length (drop_nonslash l) ≤ length l.
Proof. induction l as [|b l IH]; cbn; [lia|]. case_bool_decide; cbn; lia. Qed.
Lemma dir_part_len p : length (dir_part p) ≤ length p.
Proof. unfold dir_part. rewrite rev_length. pose proof (drop_nonslash_len (rev p)). rewrite rev_length in *. done. Qed.
Lemma dir_part_spec p : dir_part p = [] ∨ ∃ q, dir_part p = q ++ [slash].
Proof.
  unfold dir_part. destruct (drop_nonslash_spec (rev p)) as [->|[r ->]]; [by left|right].
  exists (rev r). done.
Qed.
Lemma drop_nonslash_suffix l : ∃ k, l = k ++ drop_nonslash l.
Proof.
  induction l as [|b l [k IH]]; cbn; [by exists []|]. case_bool_decide; [by exists []|].
  exists (b :: k). by rewrite IH at 1.
Qed.
Lemma dir_part_prefix p : ∃ k, p = dir_part p ++ k.
Proof.
  destruct (drop_nonslash_suffix (rev p)) as [k E]. exists (rev k). unfold dir_part.
  by rewrite <- rev_app_distr, <- E, rev_involutive.
Qed.

Lemma dir_rel p : rooted p = false → rooted (dir p) = false ∧ (dir p = [dot] ∨ length (dir p) < length p).
Proof.
  intros Hp. unfold dir, clean.
  assert (Hr : rooted (dir_part p) = false).
  { destruct (dir_part_prefix p) as [k E]. unfold rooted in *. apply bool_decide_eq_false in Hp.
    apply bool_decide_eq_false. intros Hh. apply Hp. rewrite E. destruct (dir_part p); [done|]. done. }
  rewrite Hr. set (st := foldl _ _ _).
  assert (Hst : Forall elem_ok st) by (apply steps_ok; [apply split_noslash|constructor]).
  destruct st as [|c st'] eqn:Est; [split; [done|by left]|].
  split; [apply join_head; by apply Forall_rev|right].
  assert (Hw : weight st ≤ length (dir_part p)).
  { unfold st. destruct (dir_part_spec p) as [->|[q ->]].
    - vm_compute. lia.
    - rewrite split_app, foldl_app, app_length. cbn [split_slash foldl length].
      unfold clean_step at 1. rewrite bool_decide_eq_true_2 by (by left).
      pose proof (steps_weight false (split_slash q) []). rewrite split_weight in *. cbn in *. lia. }
  pose proof (join_weight (rev (c :: st'))) as Hj. rewrite weight_rev, <- Est in Hj.
  pose proof (dir_part_len p).
  assert (S (length (join_slash (rev st))) = weight st); [|rewrite <- Est; lia].
  apply Hj. rewrite Est. cbn [rev]. by destruct (rev st').
Qed.

Lemma dec_loop_rel f prefixes frp d : rooted d = false → length d < f → dec_loop (S f) prefixes frp d ≠ Hang.
Proof.
  revert d; induction f as [|f IH]; intros d Hd Hf; [lia|].
  change (dec_loop (S (S f)) prefixes frp d) with
    (if bool_decide (d = [dot]) then Ok None else
      match prefixes !! dir_key d with
      | Some v =>
        if bool_decide (0 < v)%Z then Ok (Some (<[dir_key d := (v - 1)%Z]> prefixes))
        else if bool_decide (v = 0)%Z && frp then Panic else dec_loop (S f) prefixes frp (dir d)
      | None => dec_loop (S f) prefixes frp (dir d)
      end).
  case_bool_decide; [done|]. destruct (dir_rel d Hd) as [Hr Hl].
  assert (Hn : dec_loop (S f) prefixes frp (dir d) ≠ Hang).
  { destruct (decide (dir d = [dot])) as [->|Hne]; [cbn; by rewrite bool_decide_eq_true_2|].
    destruct Hl as [?|Hl]; [done|]. apply IH; [done|lia]. }
  destruct (prefixes !! dir_key d) as [v|]; [|done]. repeat case_bool_decide; cbn; try done. by destruct frp.
Qed.
Lemma dec_prefix_terminates prefixes frp p : rooted p = false → dec_prefix prefixes frp p ≠ Hang.
Proof.
  intros H. unfold dec_prefix. assert (dec_loop (S (S (length p))) prefixes frp p ≠ Hang) by (apply dec_loop_rel; [done|lia]).
  destruct (prefixes !! p); [by case_bool_decide|done].
Qed.

(** First prefix of the list with a positive counter. *)
Definition hit (prefixes : gmap bytes Z) (c : bytes) : Prop := ∃ v, prefixes !! c = Some v ∧ (0 < v)%Z.
Lemma hit_dec prefixes c : Decision (hit prefixes c).
Proof.
  destruct (prefixes !! c) as [v|] eqn:E; [|right; intros (v & ? & _); congruence].
  destruct (decide (0 < v)%Z); [left; by exists v|right]. intros (v' & ? & ?). congruence.
Qed.

(** Outcome of the lookup along a list of prefixes. *)
Definition lookup_result (prefixes : gmap bytes Z) (cs : list bytes) (r : option (gmap bytes Z)) : Prop :=
  match r with
  | Some m => ∃ c v pre post, cs = pre ++ c :: post ∧ Forall (λ c, ¬ hit prefixes c) pre ∧
                prefixes !! c = Some v ∧ (0 < v)%Z ∧ m = <[c := (v - 1)%Z]> prefixes
  | None => Forall (λ c, ¬ hit prefixes c) cs
  end.
Lemma dec_loop_result f prefixes frp d r :
  dec_loop f prefixes frp d = Ok r → lookup_result prefixes (dir_keys f d) r.
Proof.
  revert d; induction f as [|f IH]; intros d; cbn [dec_loop dir_keys]; [discriminate|].
  case_bool_decide; [intros [= <-]; constructor|].
  assert (Hgo : ¬ hit prefixes (dir_key d) → dec_loop f prefixes frp (dir d) = Ok r →
     lookup_result prefixes (dir_key d :: dir_keys f (dir d)) r).
  { intros Hn H0%IH; rename H0 into H'. destruct r as [m|]; [|by constructor].
    destruct H' as (c & v & pre & post & -> & H1 & H2). exists c, v, (dir_key d :: pre), post.
    split; [done|]. split; [by constructor|done]. }
  destruct (prefixes !! dir_key d) as [v|] eqn:E.
  - case_bool_decide as Hv.
    + intros [= <-]. exists (dir_key d), v, [], (dir_keys f (dir d)). split_and!; done || constructor.
    + case_bool_decide; [destruct frp; [discriminate|]|]; cbn [andb]; (apply Hgo; intros (v' & ? & ?); congruence).
  - apply Hgo. intros (v' & ? & ?); congruence.
Qed.
Lemma dec_prefix_result prefixes frp p r :
  dec_prefix prefixes frp p = Ok r → lookup_result prefixes (lookup_keys p) r.
Proof.
  unfold dec_prefix, lookup_keys.
  assert (Hgo : ¬ hit prefixes p → dec_loop (S (S (length p))) prefixes frp p = Ok r →
     lookup_result prefixes (p :: dir_keys (S (S (length p))) p) r).
  { intros Hn H'%dec_loop_result. destruct r as [m|]; [|by constructor].
    destruct H' as (c & v & pre & post & E & H1 & H2). exists c, v, (p :: pre), post.
    split; [by rewrite E|]. split; [by constructor|done]. }
  destruct (prefixes !! p) as [v|] eqn:E.
  - case_bool_decide as Hv.
    + intros [= <-]. eexists p, v, [], _. split_and!; done || constructor.
    + apply Hgo. intros (v' & ? & ?); congruence.
  - apply Hgo. intros (v' & ? & ?); congruence.
Qed.

(** No panic unless a counter on the way is exactly zero and panics are enabled. *)
Lemma dec_loop_nopanic f prefixes frp d :
  frp = false ∨ (∀ c, c ∈ dir_keys f d → prefixes !! c ≠ Some 0%Z) → dec_loop f prefixes frp d ≠ Panic.
Proof.
  revert d; induction f as [|f IH]; intros d H; cbn [dec_loop]; [done|].
  case_bool_decide as Hd; [done|].
  assert (Hn : dec_loop f prefixes frp (dir d) ≠ Panic).
  { apply IH. destruct H as [H|H]; [by left|right]. intros c Hc. apply H. cbn [dir_keys].
    rewrite bool_decide_eq_false_2 by done. by apply elem_of_list_further. }
  destruct (prefixes !! dir_key d) as [v|] eqn:E; [|done].
  case_bool_decide; [done|]. case_bool_decide as Hv; [|done]. destruct frp; [|done]. cbn.
  destruct H as [H|H]; [done|]. exfalso. apply (H (dir_key d)); [|by rewrite E, Hv].
  cbn [dir_keys]. rewrite bool_decide_eq_false_2 by done. apply elem_of_list_here.
Qed.

(** Plain relative paths: elements that are neither empty nor "." nor "..", no slash. *)
Definition plain (c : bytes) : Prop := c ≠ [] ∧ slash ∉ c ∧ c ≠ [dot] ∧ c ≠ [dot; dot].

Lemma join_app a b : a ≠ [] → b ≠ [] → join_slash (a ++ b) = join_slash a ++ slash :: join_slash b.
Proof.
  induction a as [|c a IH]; intros Ha Hb; [done|]. destruct a as [|c' a].
  - cbn. by destruct b.
  - change (join_slash ((c :: c' :: a) ++ b)) with (c ++ slash :: join_slash ((c' :: a) ++ b)).
    rewrite IH by done. change (join_slash (c :: c' :: a)) with (c ++ slash :: join_slash (c' :: a)).
    by rewrite <- app_assoc.
Qed.
Lemma drop_nonslash_app c r : noslash c → drop_nonslash (c ++ slash :: r) = slash :: r.
Proof.
  unfold noslash. induction c as [|b c IH]; intros H; cbn; [done|].
  rewrite bool_decide_eq_false_2 by set_solver. apply IH. set_solver.
Qed.
Lemma drop_nonslash_none c : noslash c → drop_nonslash c = [].
Proof.
  unfold noslash. induction c as [|b c IH]; intros H; cbn; [done|].
  rewrite bool_decide_eq_false_2 by set_solver. apply IH. set_solver.
Qed.
Lemma noslash_rev c : noslash c → noslash (rev c).
Proof. unfold noslash. intros H Hin. apply H. by rewrite <- elem_of_reverse, <- rev_alt || (apply elem_of_list_In; apply in_rev; by apply elem_of_list_In). Qed.

Lemma dir_part_join cs c : noslash c →
  dir_part (join_slash (cs ++ [c])) = match cs with [] => [] | _ => join_slash cs ++ [slash] end.
Proof.
  intros Hc. unfold dir_part. destruct cs as [|c0 cs].
  - cbn [app join_slash]. rewrite drop_nonslash_none by (by apply noslash_rev). done.
  - rewrite join_app by done. cbn [join_slash]. rewrite rev_app_distr. cbn [rev].
    rewrite <- app_assoc. cbn [app]. rewrite drop_nonslash_app by (by apply noslash_rev).
    cbn [rev]. by rewrite rev_involutive.
Qed.

Lemma steps_plain r cs st : Forall plain cs → foldl (clean_step r) st cs = rev cs ++ st.
Proof.
  revert st; induction cs as [|c cs IH]; intros st H; cbn [foldl rev app]; [done|].
  apply Forall_cons in H as [(H1 & H2 & H3 & H4) H]. rewrite IH by done. unfold clean_step.
  rewrite bool_decide_eq_false_2 by (by intros [?|?]). rewrite bool_decide_eq_false_2 by done.
  by rewrite <- app_assoc.
Qed.
Lemma split_join cs : Forall plain cs → cs ≠ [] → split_slash (join_slash cs) = cs.
Proof.
  induction 1 as [|c cs (H1 & H2 & H3 & H4) H IH]; intros Hne; [done|]. destruct cs as [|c' cs].
  - cbn. by apply split_single.
  - change (join_slash (c :: c' :: cs)) with (c ++ slash :: join_slash (c' :: cs)).
    rewrite split_app, IH by done. by rewrite split_single.
Qed.
Lemma plain_elem cs : Forall plain cs → Forall elem_ok cs.
Proof. intros H. eapply Forall_impl; [exact H|]. intros c (? & ? & ? & ?). by split_and!. Qed.
Lemma join_ne cs : Forall plain cs → cs ≠ [] → join_slash cs ≠ [] ∧ join_slash cs ≠ [dot].
Proof.
  intros H Hne. destruct H as [|c cs (H1 & H2 & H3 & H4) H]; [done|]. cbn [join_slash].
  destruct cs as [|c' cs]; [done|]. destruct c as [|b c]; [done|]. split; [done|].
  cbn. intros [= _ E]. by destruct c.
Qed.
Lemma dir_join cs c : Forall plain (cs ++ [c]) →
  dir (join_slash (cs ++ [c])) = match cs with [] => [dot] | _ => join_slash cs end.
Proof.
  intros H. apply Forall_app in H as [Hcs Hc]. apply Forall_cons in Hc as [Hc _].
  unfold dir. rewrite dir_part_join by apply Hc. destruct cs as [|c0 cs]; [done|].
  unfold clean. set (p := join_slash (c0 :: cs)).
  assert (Hr : rooted (p ++ [slash]) = false).
  { pose proof (join_head (c0 :: cs) (plain_elem _ Hcs)) as Hr. unfold rooted in *.
    destruct (join_ne (c0 :: cs) Hcs ltac:(done)) as [Hn _]. fold p in Hr, Hn. destruct p; [done|]. done. }
  rewrite Hr. rewrite split_app. unfold p. rewrite split_join by done. rewrite foldl_app, (steps_plain false (c0 :: cs) []) by done.
  cbn [split_slash foldl]. rewrite app_nil_r. unfold clean_step. rewrite bool_decide_eq_true_2 by (by left).
  cbn [rev]. destruct (rev cs ++ [c0]) as [|x l] eqn:E; [by destruct (rev cs)|].
  rewrite <- E. change (rev cs ++ [c0]) with (rev (c0 :: cs)). by rewrite rev_involutive.
Qed.
Lemma dir_key_join cs : Forall plain cs → dir_key (join_slash cs) = join_slash cs ++ [slash].
Proof. intros H. unfold dir_key. by rewrite (join_head cs (plain_elem _ H)). Qed.

(** The non-empty prefixes of a list, longest first. *)
Definition dirs_of (cs : list bytes) : list bytes :=
  map (λ i, join_slash (take i cs) ++ [slash]) (rev (seq 1 (length cs))).
Lemma dir_keys_plain f cs : Forall plain cs → cs ≠ [] → length cs < f → dir_keys f (join_slash cs) = dirs_of cs.
Proof.
  revert cs; induction f as [|f IH]; intros cs Hcs Hne Hf; [lia|]. cbn [dir_keys].
  destruct (join_ne cs Hcs Hne) as [H1 H2]. rewrite bool_decide_eq_false_2 by done.
  rewrite dir_key_join by done.
  destruct (rev cs) as [|c rs] eqn:E; [apply (f_equal (@rev _)) in E; rewrite rev_involutive in E; done|].
  apply (f_equal (@rev _)) in E. rewrite rev_involutive in E. cbn [rev] in E. subst cs.
  generalize dependent (rev rs). clear rs. intros cs. intros. rewrite dir_join by done.
  unfold dirs_of. rewrite app_length. cbn [length]. rewrite Nat.add_1_r, seq_S, rev_app_distr. cbn [rev app map].
  rewrite firstn_all2 by (rewrite app_length; cbn; lia). f_equal.
  apply Forall_app in Hcs as [Hcs _]. destruct cs as [|c0 cs].
  - destruct f; [done|]. cbn. done.
  - rewrite IH; [|done|done|rewrite app_length in Hf; cbn in *; lia].
    unfold dirs_of. apply map_ext_in. intros i Hi. apply in_rev, in_seq in Hi.
    rewrite take_app_le by lia. done.
Qed.
Lemma join_length cs : Forall plain cs → length cs ≤ length (join_slash cs).
Proof.
  induction 1 as [|c cs (H1 & _) _ IH]; [cbn; lia|]. destruct c as [|b c]; [done|]. cbn [join_slash length].
  destruct cs; [cbn in *; lia|]. rewrite app_length. cbn [length] in *. lia.
Qed.
Lemma lookup_keys_plain cs : Forall plain cs → cs ≠ [] →
  lookup_keys (join_slash cs) = join_slash cs :: dirs_of cs.
Proof. intros H Hne. unfold lookup_keys. f_equal. apply dir_keys_plain; [done|done|]. pose proof (join_length cs H). lia. Qed.

(** Absolute paths: the loop never reaches ".". *)
Lemma dir_slash : dir [slash] = [slash].
Proof. vm_compute. reflexivity. Qed.
Lemma dec_loop_root f prefixes frp : prefixes !! [slash] = None → dec_loop f prefixes frp [slash] = Hang.
Proof.
  intros H. induction f as [|f IH]; [done|]. cbn [dec_loop].
  rewrite bool_decide_eq_false_2 by done. destruct (prefixes !! dir_key [slash]) as [v|] eqn:E.
  - change (prefixes !! ([slash] : bytes) = Some v) in E. unfold bytes in *. congruence.
  - by rewrite dir_slash.
Qed.

Lemma dec_prefix_nopanic prefixes frp p :
  (∀ c, c ∈ lookup_keys p → prefixes !! c ≠ Some 0%Z) → dec_prefix prefixes frp p ≠ Panic.
Proof.
  intros H. unfold dec_prefix.
  assert (dec_loop (S (S (length p))) prefixes frp p ≠ Panic).
  { apply dec_loop_nopanic. right. intros c Hc. apply H. unfold lookup_keys. by apply elem_of_list_further. }
  destruct (prefixes !! p); [by case_bool_decide|done].
Qed.
Lemma dec_prefix_none prefixes frp p :
  rooted p = false → (∀ c, c ∈ lookup_keys p → prefixes !! c = None) → dec_prefix prefixes frp p = Ok None.
Proof.
  intros Hr H. destruct (dec_prefix prefixes frp p) as [r| |] eqn:E.
  - apply dec_prefix_result in E. destruct r as [m|]; [|done]. exfalso.
    destruct E as (c & v & pre & post & E & _ & Hc & _). rewrite H in Hc; [done|]. rewrite E. set_solver.
  - exfalso. revert E. apply dec_prefix_nopanic. intros c Hc. by rewrite H.
  - by apply dec_prefix_terminates in E.
Qed.
Lemma dec_prefix_hit prefixes frp k p v :
  rooted k = false → p ∈ lookup_keys k → prefixes !! p = Some v → (0 < v)%Z →
  (∀ q, q ∈ lookup_keys k → q ≠ p → prefixes !! q = None) →
  dec_prefix prefixes frp k = Ok (Some (<[p := (v - 1)%Z]> prefixes)).
Proof.
  intros Hr Hp Hv Hlt Ho. destruct (dec_prefix prefixes frp k) as [r| |] eqn:E.
  - apply dec_prefix_result in E. destruct r as [m|].
    + destruct E as (c & v' & pre & post & E & _ & Hc & Hlt' & ->).
      assert (c = p) as ->.
      { destruct (decide (c = p)) as [|Hne]; [done|]. rewrite (Ho c) in Hc; [done| |done]. rewrite E. set_solver. }
      by simplify_eq.
    + exfalso. unfold lookup_result in E. rewrite Forall_forall in E. apply (E p Hp). by exists v.
  - exfalso. revert E. apply dec_prefix_nopanic. intros c Hc. destruct (decide (c = p)) as [->|Hne]; [|by rewrite Ho].
    rewrite Hv. intros [= ->]. lia.
  - by apply dec_prefix_terminates in E.
Qed.
