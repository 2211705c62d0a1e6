(** Proofs of the theorems of PropOrdering.v from the invariants. *)
From Verif Require Import Base Lru LruFacts Types Ordering SpecChain SpecExamples OrderingBase OrderingGrow.

Lemma run_wl0 cfg s0 : new_omp cfg = Ok s0 → o_wl s0 = cfg_whitelist cfg.
Proof. unfold new_omp. case_bool_decide; [discriminate|]. by intros [= <-]. Qed.

Lemma run_ok20 (G : pending_batch → Prop) T cfg s0 l s :
  (∀ b, G b → agree T b) →
  new_omp cfg = Ok s0 → orders_ok l →
  (∀ b, b ∈ batches_of l → excluded (cfg_whitelist cfg) b = false → G b) →
  omp_run s0 l = Ok s → ok20 G (Client (cfg_last_hash cfg) []) s.
Proof.
  intros HG H0 Hord Hb Hrun.
  apply (omp_run_ok20 T G HG (Client (cfg_last_hash cfg) [])) in Hrun as [Hok _]; try done.
  - by rewrite (run_wl0 _ _ H0).
  - by eapply ok20_init.
Qed.

(** The start state is empty exactly for the zero hash, and that never changes. *)
Lemma handle_empty f o s pb r s' : handle f o s pb r = Ok s' → o_empty s' = o_empty s.
Proof.
  apply (handle_rel (λ s s', o_empty s' = o_empty s)); try done.
  - intros; congruence.
  - intros s1 s2 H. apply H.
  - intros s1 new old s2 H. apply (prepare_emit_frame _ _ _ _ _ H).
Qed.

(** One-step properties lift to runs. *)
Lemma omp_run_inv (P : omp → Prop) l s s' :
  (∀ s i s', i ∈ l → P s → omp_step s i = Ok s' → P s') → P s → omp_run s l = Ok s' → P s'.
Proof. intros H. by apply foldM_inv. Qed.

Lemma run_empty l s s' : omp_run s l = Ok s' → o_empty s' = o_empty s.
Proof.
  apply (omp_run_inv (λ x, o_empty x = o_empty s)); [|done].
  intros s1 [o i] s2 _ H1. unfold omp_step. destruct i; cbn [fst snd].
  - intros H. apply handle_empty in H. congruence.
  - by intros [= <-].
Qed.

Lemma new_empty cfg s0 : new_omp cfg = Ok s0 → o_empty s0 = bool_decide (cfg_last_hash cfg = zero_hash).
Proof. unfold new_omp. case_bool_decide; [discriminate|]. by intros [= <-]. Qed.

Lemma run_accepts (G : pending_batch → Prop) T cfg s0 l s :
  (∀ b, G b → agree T b) →
  cfg_last_hash cfg ≠ zero_hash → new_omp cfg = Ok s0 → orders_ok l →
  (∀ b, b ∈ batches_of l → excluded (cfg_whitelist cfg) b = false → G b) →
  omp_run s0 l = Ok s →
  ∃ c, client_run (Client (cfg_last_hash cfg) []) (o_out s) = Some c ∧ good_client G c ∧
    Forall G (all_added (o_out s)) ∧ Forall G (all_removed (o_out s)) ∧ tip c = o_last s.
Proof.
  intros HG Hz H0 Hord Hb Hrun.
  destruct (run_ok20 G T cfg s0 l s) as (_ & c & n & (Hr & Hg & Ha & Hrm) & Ht & (_ & Hn & _)); try done.
  assert (n = 0) as ->.
  { apply Hn. rewrite (run_empty _ _ _ Hrun), (new_empty _ _ H0). by apply bool_decide_eq_false_2. }
  exists c. apply lenient_strict in Hr. done.
Qed.

Lemma updates_connect (T : tree) cfg s0 l s :
  cfg_last_hash cfg ≠ zero_hash → new_omp cfg = Ok s0 →
  orders_ok l → Forall (agree T) (batches_of l) →
  omp_run s0 l = Ok s →
  is_Some (client_run (Client (cfg_last_hash cfg) []) (o_out s)).
Proof.
  intros Hz H0 Hord Hag Hrun.
  destruct (run_accepts (agree T) T cfg s0 l s) as (c & Hc & _); try done.
  - intros b Hb _. by eapply Forall_forall in Hag.
Qed.

Definition Gg (T : tree) (b : pending_batch) : Prop := agree T b ∧ growing T (pb_hash b).

Lemma Gg_all T l (wl : gmap Z hash) :
  Forall (agree T) (batches_of l) → Forall (λ b, growing T (pb_hash b)) (batches_of l) →
  ∀ b, b ∈ batches_of l → excluded wl b = false → Gg T b.
Proof. rewrite !Forall_forall. intros H1 H2 b Hb _. split; auto. Qed.

Lemma applied_chain (T : tree) cfg s0 l s c :
  cfg_last_hash cfg ≠ zero_hash → new_omp cfg = Ok s0 →
  orders_ok l → Forall (agree T) (batches_of l) →
  Forall (λ b, growing T (pb_hash b)) (batches_of l) →
  omp_run s0 l = Ok s →
  client_run (Client (cfg_last_hash cfg) []) (o_out s) = Some c →
  NoDup (map pb_hash (cl_chain c)) ∧
  ∀ i x y, cl_chain c !! i = Some x → cl_chain c !! S i = Some y →
    pb_num x = (pb_num y + 1)%Z ∧ pb_parent x = pb_hash y.
Proof.
  intros Hz H0 Hord Hag Hgr Hrun Hc.
  destruct (run_accepts (Gg T) T cfg s0 l s) as (c' & Hc' & [Hl HGc] & _); try done.
  - by intros b [? _].
  - by apply Gg_all.
  - rewrite Hc in Hc'. injection Hc' as <-. split.
    + eapply (linked_NoDup T (Gg T)); [..|exact Hl|exact HGc]; by intros b [? ?].
    + eapply (linked_numbers T (Gg T)); [..|exact Hl|exact HGc]; by intros b [? ?].
Qed.

Lemma updates_minimal (T : tree) cfg s0 l s :
  new_omp cfg = Ok s0 → (t_wt T (cfg_last_hash cfg) <= cfg_last_weight cfg)%N →
  orders_ok l → Forall (agree T) (batches_of l) →
  Forall (λ b, growing T (pb_hash b)) (batches_of l) →
  (∀ l1 o n h l2 s1, l = l1 ++ (o, InReorg n h) :: l2 → omp_run s0 l1 = Ok s1 →
     (t_wt T h <= top_weight (cfg_last_weight cfg) (o_out s1))%N) →
  omp_run s0 l = Ok s →
  Forall (λ u, minimal_update T u.1 u.2) (updates_of (o_out s)).
Proof.
  intros H0 Hw Hord Hag Hgr Hsane Hrun.
  eapply (omp_run_grow T (Gg T)) with (nr := False) in Hrun; [apply Hrun| | |done| |done|exact Hsane|].
  - by intros b [? _].
  - by intros b [_ ?].
  - intros b Hb He. by eapply Gg_all.
  - by eapply grow_init.
Qed.

Lemma head_rises (T : tree) cfg s0 l s :
  cfg_last_hash cfg ≠ zero_hash → new_omp cfg = Ok s0 →
  t_wt T (cfg_last_hash cfg) = cfg_last_weight cfg →
  orders_ok l → no_reorgs l → Forall (agree T) (batches_of l) →
  Forall (λ b, growing T (pb_hash b)) (batches_of l) →
  omp_run s0 l = Ok s →
  rising (cfg_last_weight cfg) (o_out s).
Proof.
  intros Hz H0 Hw Hord Hnr Hag Hgr Hrun.
  eapply (omp_run_grow T (Gg T)) with (nr := True) (w0 := cfg_last_weight cfg) in Hrun;
    [by apply Hrun| | |done| |done| |].
  - by intros b [? _].
  - by intros b [_ ?].
  - intros b Hb He. by eapply Gg_all.
  - intros l1 o n h l2 s1 -> _. exfalso. unfold no_reorgs, reorgs_of in Hnr.
    rewrite omap_app in Hnr. apply app_eq_nil in Hnr as [_ Hnr]. done.
  - eapply grow_init; [done|done|lia|done].
Qed.

Lemma fin_cap_new cfg s0 : new_omp cfg = Ok s0 → lru_cap (o_fin s0) = Z.to_nat (cfg_threshold cfg * 2).
Proof.
  unfold new_omp. case_bool_decide; [discriminate|]. intros [= <-]. cbn [o_fin]. by rewrite lru_add_cap.
Qed.

(** The finished cache evolves by [fin_le]. *)
Lemma handle_fin f o s pb r s' : handle f o s pb r = Ok s' → fin_le (o_fin s) (o_fin s').
Proof.
  apply (handle_rel (λ s s', fin_le (o_fin s) (o_fin s'))); intros; try apply fin_le_refl.
  - by eapply fin_le_trans.
  - by apply sub_fin.
  - by eapply prepare_emit_frame.
Qed.

Lemma run_fin l s s' : omp_run s l = Ok s' → fin_le (o_fin s) (o_fin s').
Proof.
  apply (omp_run_inv (λ x, fin_le (o_fin s) (o_fin x))); [|apply fin_le_refl].
  intros s1 [o i] s2 _ H1. unfold omp_step. destruct i; cbn [fst snd].
  - intros H. apply handle_fin in H. by eapply fin_le_trans.
  - by intros [= <-].
Qed.

Lemma empty_start_settles (T : tree) cfg s0 l s :
  cfg_last_hash cfg = zero_hash → (5 <= cfg_threshold cfg)%Z → new_omp cfg = Ok s0 →
  orders_ok l → Forall (agree T) (batches_of l) →
  omp_run s0 l = Ok s →
  (lenient_run (Client zero_hash [], 0) (o_out s)).2 ≤ 9.
Proof.
  intros Hz Hthr H0 Hord Hag Hrun.
  destruct (run_ok20 (agree T) T cfg s0 l s) as (_ & c & n & (Hr & _) & _ & (_ & _ & Hn)); try done.
  { intros b Hb _. by eapply Forall_forall in Hag. }
  rewrite Hz in Hr. rewrite Hr. cbn. apply Hn.
  destruct (run_fin _ _ _ Hrun) as [-> _]. rewrite (fin_cap_new _ _ H0). lia.
Qed.

Lemma empty_start_first cfg s0 o pb :
  cfg_last_hash cfg = zero_hash → new_omp cfg = Ok s0 → order_ok o →
  pb_hash pb ≠ zero_hash →
  excluded (cfg_whitelist cfg) pb = false →
  ∃ s, omp_run s0 [(o, InBatch pb)] = Ok s ∧ updates_of (o_out s) = [([pb], [])].
Proof.
  intros Hz H0 Ho Hh Hex.
  assert (Hcap := fin_cap_new _ _ H0). assert (Hem := new_empty _ _ H0).
  revert H0 Hcap Hem. unfold new_omp. case_bool_decide as Hthr; [discriminate|].
  set (c := lru_new _). intros [= <-] Hcap _.
  assert (Hkeys : lru_keys (lru_add c zero_hash).1 = [zero_hash]).
  { subst c. unfold lru_add. cbn [lru_keys lru_new lru_cap].
    rewrite (bool_decide_eq_false_2 (_ ∈ [])) by apply not_elem_of_nil. rewrite bool_decide_eq_false_2; [done|]. cbn. lia. }
  unfold omp_run. cbn [foldM]. unfold omp_step. cbn [snd fst]. unfold handle_batch.
  set (s0 := Omp _ _ _ _ _ _ _ _ _ _).
  assert (Hpe : ∃ s, prepare_emit o (set_pending s0 (<[pb_hash pb:=pb]> (o_pending s0))) [pb] [] = Ok s ∧
    updates_of (o_out s) = [([pb], [])]).
  { unfold prepare_emit. cbn [last]. unfold finish_siblings. cbn [o_queued set_last set_pending s0].
    rewrite lookup_empty. ob.
    destruct (fin_add o _ (pb_hash pb)) as [s2| |] eqn:E2; ob.
    - assert (Hq : o_queued s2 = ∅).
      { apply fin_add_sub in E2 as [E2 _]. pose proof (sub_queued _ _ E2) as Hq. cbn in Hq.
        apply map_eq. intros i. rewrite lookup_empty. destruct (o_queued s2 !! i) eqn:E; [|done].
        eapply lookup_weaken in E; [|exact Hq]. by rewrite lookup_empty in E. }
      unfold qfuel. rewrite Hq. cbn [emit_loop]. unfold get_child. rewrite Hq, lookup_empty. ob.
      eexists. split; [reflexivity|]. cbn.
      apply fin_add_sub in E2 as [E2 _]. pose proof (sub_updates _ _ E2) as Hu. cbn in Hu.
      rewrite updates_of_app, Hu. done.
    - exfalso. revert E2. unfold fin_add. cbn [o_fin set_last set_pending s0].
      pose proof (lru_add_no_evict (lru_add c (cfg_last_hash cfg)).1 (pb_hash pb)) as Hne.
      destruct (lru_add _ (pb_hash pb)) as [l' ev]. cbn in Hne. rewrite Hne; [done|].
      left. rewrite Hz, Hkeys, lru_add_cap. cbn. subst c. cbn. lia.
    - exfalso. revert E2. unfold fin_add. cbn [o_fin set_last set_pending s0].
      pose proof (lru_add_no_evict (lru_add c (cfg_last_hash cfg)).1 (pb_hash pb)) as Hne.
      destruct (lru_add _ (pb_hash pb)) as [l' ev]. cbn in Hne. rewrite Hne; [done|].
      left. rewrite Hz, Hkeys, lru_add_cap. cbn. subst c. cbn. lia. }
  destruct Hpe as (s & Hpe & Hu). exists s. split; [|done].
  cbn [handle]. change (o_wl s0) with (cfg_whitelist cfg). rewrite Hex.
  rewrite bool_decide_eq_false_2 by (cbn; apply not_elem_of_empty).
  set (s1 := set_pending _ _) in *.
  assert (finished s1 (pb_hash pb) = false) as ->.
  { unfold finished, lru_contains. apply bool_decide_eq_false_2. cbn. rewrite Hz, Hkeys.
    rewrite elem_of_list_singleton. done. }
  cbn [andb]. destruct (decide (pb_parent pb = o_last s1)) as [Hp|Hp].
  { rewrite (bool_decide_eq_true_2 _ Hp). rewrite Hpe; reflexivity. }
  rewrite (bool_decide_eq_false_2 _ Hp).
  assert (finished s1 (pb_parent pb) = false) as ->.
  { unfold finished, lru_contains. apply bool_decide_eq_false_2. cbn. rewrite Hz, Hkeys.
    rewrite elem_of_list_singleton. cbn in Hp. congruence. }
  change (o_empty s1) with (bool_decide (cfg_last_hash cfg = zero_hash)).
  rewrite (bool_decide_eq_true_2 _ Hz). cbn [negb andb].
  rewrite bool_decide_eq_true_2; [rewrite Hpe; reflexivity|].
  unfold lru_len. cbn. rewrite Hz, Hkeys. cbn. lia.
Qed.

(** Ten unconnected blocks. *)
Definition jump_blocks : list pending_batch :=
  map (λ n, bare_batch (Z.of_N n) n (n + 100)%N n) [1;2;3;4;5;6;7;8;9;10]%N.

Lemma empty_start_refuted : ∃ (T : tree) cfg l s0 s,
  cfg_last_hash cfg = zero_hash ∧ new_omp cfg = Ok s0 ∧
  orders_ok l ∧ Forall (agree T) (batches_of l) ∧ omp_run s0 l = Ok s ∧
  9 < (lenient_run (Client zero_hash [], 0) (o_out s)).2.
Proof.
  exists (tree_of jump_blocks []), (Config 0 0%N 0 1 ∅), (in_batches id_order jump_blocks).
  eexists. eexists. split_and!; [done|vm_compute; reflexivity| | |vm_compute; reflexivity|vm_compute; lia].
  - apply orders_id. repeat constructor.
  - apply all_agree_ok. vm_compute. reflexivity.
Qed.

(** A notification naming a block heavier than the head: on the chain 1 <- 2 <- 3 <- 4 the
    consumer is told to continue from 4 while its head is 1; when 3 and 2 arrive the update removes and
    adds the same three blocks. *)
Definition insane : list (order * omp_input) :=
  in_batches id_order [bare_batch 10 100 99%N 1; bare_batch 13 103 3 4] ++
  [(id_order, InReorg 13 4%N)] ++
  in_batches id_order [bare_batch 12 102 2 3; bare_batch 11 101 1 2].
Definition insane_tree : tree := tree_of (batches_of insane) [(99%N, (9%Z, 99%N))].

Lemma minimal_needs_sane : ∃ (T : tree) cfg l s0 s,
  new_omp cfg = Ok s0 ∧ (t_wt T (cfg_last_hash cfg) <= cfg_last_weight cfg)%N ∧
  orders_ok l ∧ Forall (agree T) (batches_of l) ∧
  Forall (λ b, growing T (pb_hash b)) (batches_of l) ∧
  omp_run s0 l = Ok s ∧
  ¬ Forall (λ u, minimal_update T u.1 u.2) (updates_of (o_out s)).
Proof.
  exists insane_tree, (Config 10 1 100 128 ∅), insane. eexists. eexists.
  split_and!; [vm_compute; reflexivity|vm_compute; done| | | |vm_compute; reflexivity|].
  - apply orders_id. repeat constructor.
  - apply all_agree_ok. vm_compute. reflexivity.
  - apply all_growing_ok. vm_compute. reflexivity.
  - intros H. cbn in H. apply Forall_cons in H as [(base & _ & _ & _ & Hd & _) _]. cbn in Hd.
    eapply Hd; [apply elem_of_list_here|apply elem_of_list_here|]. reflexivity.
Qed.
