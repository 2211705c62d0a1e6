(** General facts about the ordering model: frame properties of eviction and
    finishing, preservation of the basic invariants, client acceptance (C20). *)
From Verif Require Import Base Lru LruFacts Types Ordering SpecChain.

Definition is_evict (e : omp_event) : Prop := match e with EvEvict _ => True | _ => False end.

(** How the cache of finished blocks may evolve. *)
Definition fin_le (a b : lru hash) : Prop :=
  lru_cap b = lru_cap a ∧
  (0 < lru_cap a → lru_wf a →
   lru_wf b ∧ lru_len a ≤ lru_len b ∧
   (lru_len a < lru_cap a → (∃ x, x ∈ lru_keys b ∧ x ∉ lru_keys a) → lru_len a < lru_len b)).

Lemma fin_le_refl a : fin_le a a.
Proof. split; [done|]. intros _ Hw. split_and!; [done..|]. intros _ (x & H1 & H2). done. Qed.
Lemma fin_le_trans a b c : fin_le a b → fin_le b c → fin_le a c.
Proof.
  intros [E1 H1] [E2 H2]. split; [congruence|]. intros Hc Hw.
  destruct (H1 Hc Hw) as (Hw1 & Hl1 & Hx1). destruct H2 as (Hw2 & Hl2 & Hx2); [lia|done|].
  split_and!; [done|lia|]. intros Hlt (x & Hxc & Hxa).
  destruct (decide (x ∈ lru_keys b)) as [Hxb|Hxb].
  - assert (lru_len a < lru_len b); [|lia]. apply Hx1; eauto.
  - destruct (decide (lru_len b < lru_cap b)); [|lia].
    assert (lru_len b < lru_len c); [|lia]. apply Hx2; eauto.
Qed.
Lemma fin_le_add a k : fin_le a (lru_add a k).1.
Proof.
  split; [apply lru_add_cap|]. intros Hc Hw. split; [by apply lru_add_wf|].
  rewrite lru_add_len by (done || apply Hw). pose proof (lwf_len _ Hw).
  case_bool_decide as Hk.
  - split; [done|]. intros _ (x & Hx & Hxa). exfalso.
    apply lru_add_elem in Hx. destruct Hx as [->|Hx]; done.
  - unfold lru_len in *. split; [lia|]. intros; lia.
Qed.

(** What eviction and finishing may do to the state. *)
Record sub (s s' : omp) : Prop := Sub {
  sub_last : o_last s' = o_last s;
  sub_lastw : o_lastw s' = o_lastw s;
  sub_thr : o_thr s' = o_thr s;
  sub_wl : o_wl s' = o_wl s;
  sub_bl : o_bl s' = o_bl s;
  sub_empty : o_empty s' = o_empty s;
  sub_pending : o_pending s' ⊆ o_pending s;
  sub_queued : o_queued s' ⊆ o_queued s;
  sub_out : ∃ evs, o_out s' = o_out s ++ evs ∧ Forall is_evict evs;
  sub_fin : fin_le (o_fin s) (o_fin s')
}.

Lemma sub_refl s : sub s s.
Proof. split; try reflexivity; [|apply fin_le_refl]. exists []. rewrite app_nil_r. by split. Qed.

Lemma sub_trans s1 s2 s3 : sub s1 s2 → sub s2 s3 → sub s1 s3.
Proof.
  intros [] []. split; try congruence; try (etrans; eassumption); [|by eapply fin_le_trans].
  destruct sub_out0 as (e1 & H1 & F1), sub_out1 as (e2 & H2 & F2).
  exists (e1 ++ e2). rewrite H2, H1, app_assoc. split; [reflexivity|].
  by apply Forall_app.
Qed.

Lemma sub_set_fin s l : fin_le (o_fin s) l → sub s (set_fin s l).
Proof. intros H. split; cbn; try reflexivity; [|done]. exists []. rewrite app_nil_r. by split. Qed.

Lemma order_elem o st n h l x : order_ok o → x ∈ o st n h l → x ∈ l.
Proof. intros Ho. by rewrite (Ho st n h l). Qed.

Lemma order_elem' o st n h l x : order_ok o → x ∈ l → x ∈ o st n h l.
Proof. intros Ho. by rewrite (Ho st n h l). Qed.

Lemma evict_sub f o s h s' : evict f o s h = Ok s' → sub s s' ∧ o_fin s' = o_fin s.
Proof.
  revert s h s'; induction f as [|f IH]; intros s h s'; cbn [evict]; [discriminate|].
  destruct (o_pending s !! h) as [pb|] eqn:Hp; [|intros [= <-]; split; [apply sub_refl|done]].
  set (s1 := send (set_pending s _) _).
  assert (H1 : sub s s1 ∧ o_fin s1 = o_fin s).
  { split; [|done]. split; cbn; try reflexivity; [apply delete_subseteq| |apply fin_le_refl].
    eexists; split; [reflexivity|]. by repeat constructor. }
  destruct (evict f o s1 (pb_parent pb)) as [s2| |] eqn:E2; ob; [|discriminate|discriminate].
  apply IH in E2 as [E2 E2f].
  assert (H2 : sub s s2 ∧ o_fin s2 = o_fin s).
  { split; [eapply sub_trans; [apply H1|done]|]. rewrite E2f. apply H1. }
  destruct (o_queued s2 !! pb_hash pb) as [cs|] eqn:Hq; [|intros [= <-]; done].
  destruct (foldM _ _ s2) as [s3| |] eqn:E3; ob; [|discriminate|discriminate].
  intros [= <-].
  assert (H3 : sub s s3 ∧ o_fin s3 = o_fin s).
  { revert E3. apply (foldM_inv (λ x, sub s x ∧ o_fin x = o_fin s)); [|exact H2].
    intros x c x' Hc [Hx Hxf]. destruct (finished x c); [intros [= <-]; done|].
    intros Hev. apply IH in Hev as [Hev1 Hev2]. split; [eapply sub_trans; eassumption|congruence]. }
  destruct H3 as [H3 H3f]. split; [|done].
  eapply sub_trans; [exact H3|]. split; cbn; try reflexivity; [apply delete_subseteq| |apply fin_le_refl].
  exists []. rewrite app_nil_r. by split.
Qed.

Lemma fin_add_sub o s h s' :
  fin_add o s h = Ok s' → sub s s' ∧ o_fin s' = fst (lru_add (o_fin s) h).
Proof.
  pose proof (fin_le_add (o_fin s) h) as Hle.
  unfold fin_add. destruct (lru_add (o_fin s) h) as [l [k|]] eqn:El.
  - intros H. apply evict_sub in H as [H Hf]. split.
    + eapply sub_trans; [by apply (sub_set_fin s l)|done].
    + rewrite Hf. reflexivity.
  - intros [= <-]. split; [by apply sub_set_fin|reflexivity].
Qed.

Lemma finish_children_sub f o s h s' : finish_children f o s h = Ok s' → sub s s'.
Proof.
  revert s h s'; induction f as [|f IH]; intros s h s'; cbn [finish_children]; [discriminate|].
  destruct (fin_add o s h) as [s1| |] eqn:E1; ob; [|discriminate|discriminate].
  apply fin_add_sub in E1 as [E1 _].
  destruct (o_queued s !! h) as [cs|]; [|intros [= <-]; done].
  apply (foldM_inv (λ x, sub s x)); [|done].
  intros x c x' _ Hx Hc. apply IH in Hc. eapply sub_trans; eassumption.
Qed.

Lemma finish_siblings_sub o s pb s' : finish_siblings o s pb = Ok s' → sub s s'.
Proof.
  unfold finish_siblings. destruct (o_queued s !! pb_parent pb) as [cs|]; [|intros [= <-]; apply sub_refl].
  apply (foldM_inv (λ x, sub s x)); [|apply sub_refl].
  intros x c x' _ Hx. case_bool_decide; [|intros [= <-]; done].
  intros Hc. apply finish_children_sub in Hc. eapply sub_trans; eassumption.
Qed.

(** * getPendingChild returns a queued child, or the zero hash. *)
Lemma get_child_none n o s h : get_child n o s h = Ok None ↔ o_queued s !! h = None.
Proof.
  unfold get_child. destruct (o_queued s !! h) as [cs|]; [|done].
  split; [|discriminate]. destruct (foldM _ _ _); discriminate.
Qed.

Lemma get_child_elem n o s h c :
  order_ok o → get_child n o s h = Ok (Some c) →
  ∃ cs, o_queued s !! h = Some cs ∧ (c ∈ cs ∨ c = zero_hash).
Proof.
  intros Ho. unfold get_child. destruct (o_queued s !! h) as [cs|]; [|discriminate].
  destruct (foldM _ _ _) as [r| |] eqn:E; cbn; [|discriminate|discriminate].
  intros [= <-]. exists cs. split; [done|].
  revert E. apply (foldM_inv (λ r : N * hash, r.2 ∈ cs ∨ r.2 = zero_hash)); [|by right].
  intros a x a' Hx Ha. destruct (difficulty _ _ _ x) as [td| |]; cbn; [|discriminate|discriminate].
  intros [= <-]. destruct (_ <? _)%N; [|exact Ha].
  left. cbn. apply order_elem in Hx; [|done]. by apply elem_of_elements.
Qed.

(** * Client lemmas that do not depend on the block tree. *)
Lemma apply_all_app c l1 l2 : apply_all c (l1 ++ l2) = (c' ← apply_all c l1; apply_all c' l2).
Proof.
  revert c; induction l1 as [|b l1 IH]; intros c; cbn; [done|].
  destruct (apply c b); cbn; [apply IH|done].
Qed.

Lemma apply_all_tip c l c' : apply_all c l = Some c' →
  tip c' = match last l with Some b => pb_hash b | None => tip c end.
Proof.
  revert c; induction l as [|b l IH]; intros c; cbn [apply_all]; [by intros [= <-]|].
  unfold apply. case_decide; [|discriminate]. cbn [mbind option_bind]. intros H1. rewrite (IH _ H1).
  destruct l as [|x l]; [done|]. destruct (last (x :: l)) eqn:E; [by rewrite last_cons, E|].
  by apply last_None in E.
Qed.

Lemma undo_all_app c l1 l2 : undo_all c (l1 ++ l2) = (c' ← undo_all c l1; undo_all c' l2).
Proof.
  revert c; induction l1 as [|b l1 IH]; intros c; cbn; [done|].
  destruct (undo c b); cbn; [apply IH|done].
Qed.

Lemma client_run_app c l1 l2 : client_run c (l1 ++ l2) = (c' ← client_run c l1; client_run c' l2).
Proof.
  revert c; induction l1 as [|b l1 IH]; intros c; cbn; [done|].
  destruct (client_step c b); cbn; [apply IH|done].
Qed.

Lemma client_run_evicts c l : Forall is_evict l → client_run c l = Some c.
Proof.
  induction 1 as [|e l He _ IH]; cbn; [done|].
  destruct e; cbn in *; [contradiction|contradiction|exact IH].
Qed.

Lemma lenient_run_app a l1 l2 : lenient_run a (l1 ++ l2) = lenient_run (lenient_run a l1) l2.
Proof. apply foldl_app. Qed.

Lemma lenient_run_evicts a l : Forall is_evict l → lenient_run a l = a.
Proof.
  intros H. revert a. induction H as [|e l He _ IH]; intros a; cbn; [done|].
  rewrite IH. destruct e; [contradiction|contradiction|]. by destruct a.
Qed.

Lemma lenient_step_le a e : a.2 ≤ (lenient_step a e).2.
Proof. unfold lenient_step. destruct (client_step a.1 e); cbn; [lia|]. destruct e; cbn; lia. Qed.
Lemma lenient_run_le a l : a.2 ≤ (lenient_run a l).2.
Proof.
  revert a; induction l as [|e l IH]; intros a; cbn; [lia|].
  etrans; [apply (lenient_step_le a e)|apply IH].
Qed.

(** Without jumps the lenient client is the strict one. *)
Lemma lenient_strict c0 l c n : lenient_run (c0, n) l = (c, n) → client_run c0 l = Some c.
Proof.
  revert c0; induction l as [|e l IH]; intros c0; cbn [client_run]; [by intros [= ->]|].
  pose proof (lenient_run_le (lenient_step (c0, n) e) l) as Hle.
  intros H. change (lenient_run (lenient_step (c0, n) e) l = (c, n)) in H. rewrite H in Hle. revert Hle H.
  unfold lenient_step; cbn [fst snd]. destruct (client_step c0 e) as [c1|] eqn:E; cbn [fst snd mbind option_bind].
  - intros _. apply IH.
  - destruct e; cbn in E; [|done|done]. cbn [snd]. lia.
Qed.

Lemma updates_of_app l1 l2 : updates_of (l1 ++ l2) = updates_of l1 ++ updates_of l2.
Proof. apply omap_app. Qed.
Lemma updates_of_evicts l : Forall is_evict l → updates_of l = [].
Proof. induction 1 as [|e l He _ IH]; [done|]. by destruct e. Qed.
Lemma all_added_app l1 l2 : all_added (l1 ++ l2) = all_added l1 ++ all_added l2.
Proof. unfold all_added. by rewrite updates_of_app, map_app, concat_app. Qed.
Lemma all_removed_app l1 l2 : all_removed (l1 ++ l2) = all_removed l1 ++ all_removed l2.
Proof. unfold all_removed. by rewrite updates_of_app, map_app, concat_app. Qed.

Fixpoint linked (base : hash) (l : list pending_batch) : Prop :=
  match l with
  | [] => True
  | b :: r => pb_parent b = (match r with [] => base | x :: _ => pb_hash x end) ∧ linked base r
  end.

Lemma sub_updates s s' : sub s s' → updates_of (o_out s') = updates_of (o_out s).
Proof.
  intros Hs. destruct (sub_out _ _ Hs) as (evs & -> & Hev).
  by rewrite updates_of_app, (updates_of_evicts evs), app_nil_r.
Qed.

Lemma emit_loop_frame f o s new s' new' : emit_loop f o s new = Ok (s', new') →
  o_empty s' = o_empty s ∧ o_wl s' = o_wl s ∧ o_bl s' = o_bl s ∧ o_thr s' = o_thr s ∧
  fin_le (o_fin s) (o_fin s') ∧
  ∃ evs, o_out s' = o_out s ++ evs ∧ Forall is_evict evs.
Proof.
  revert s new; induction f as [|f IH]; intros s new; cbn [emit_loop]; [discriminate|].
  destruct (get_child _ _ _ _) as [[h|]| |]; ob; [| |discriminate|discriminate].
  2: { intros [= <- <-]. do 4 (split; [done|]). split; [apply fin_le_refl|]. exists []. rewrite app_nil_r. by split. }
  destruct (o_pending s !! h); [|discriminate].
  destruct (finish_siblings _ _ _) as [s1| |] eqn:E1; ob; [|discriminate|discriminate].
  apply finish_siblings_sub in E1.
  destruct (fin_add _ _ _) as [s2| |] eqn:E2; ob; [|discriminate|discriminate].
  apply fin_add_sub in E2 as [E2 _].
  intros H. apply IH in H as (H1 & H2 & H3 & H4 & H7 & evs & H5 & H6).
  destruct E1 as [_ _ E1a E1b E1c E1d _ _ (v1 & E1e & E1f) E1g].
  destruct E2 as [_ _ E2a E2b E2c E2d _ _ (v2 & E2e & E2f) E2g]. cbn in *.
  do 4 (split; [congruence|]). split; [eapply fin_le_trans; [exact E1g|]; eapply fin_le_trans; [exact E2g|exact H7]|].
  exists (v1 ++ v2 ++ evs).
  rewrite H5, E2e, E1e, !app_assoc. split; [done|]. rewrite !Forall_app. done.
Qed.

(** [prepareEmit] finishes the new head: a head that was not finished makes the cache
    longer, unless it is full. *)
Lemma prepare_emit_frame o s new old s' : prepare_emit o s new old = Ok s' →
  o_empty s' = o_empty s ∧ o_wl s' = o_wl s ∧ o_bl s' = o_bl s ∧ o_thr s' = o_thr s ∧
  fin_le (o_fin s) (o_fin s') ∧
  (∀ b, last new = Some b → finished s (pb_hash b) = false →
     0 < lru_cap (o_fin s) → lru_wf (o_fin s) → lru_len (o_fin s) < lru_cap (o_fin s) →
     lru_len (o_fin s) < lru_len (o_fin s')).
Proof.
  unfold prepare_emit. destruct (last new) as [b|]; ob.
  - destruct (finish_siblings _ _ _) as [s1| |] eqn:E1; ob; [|discriminate|discriminate].
    apply finish_siblings_sub in E1.
    destruct (fin_add _ _ _) as [s2| |] eqn:E2; ob; [|discriminate|discriminate].
    apply fin_add_sub in E2 as [E2 E2n].
    destruct (emit_loop _ _ _ _) as [[s3 n]| |] eqn:E3; ob; [|discriminate|discriminate].
    intros [= <-]. cbn. apply emit_loop_frame in E3 as (A1 & A2 & A3 & A4 & A5 & _).
    destruct E1 as [_ _ E1a E1b E1c E1d _ _ _ E1g].
    destruct E2 as [_ _ E2a E2b E2c E2d _ _ _ E2g]. cbn in *.
    do 4 (split; [congruence|]).
    assert (E12 : fin_le (o_fin s) (o_fin s2)) by (by eapply fin_le_trans).
    split; [by eapply fin_le_trans|].
    intros ? [= <-] Hb Hc Hw Hl. destruct E12 as [Ec E12]. destruct (E12 Hc Hw) as (Hw2 & _ & Hlt).
    destruct A5 as [_ A5]. destruct A5 as (_ & Hle & _); [lia|done|].
    eapply Nat.lt_le_trans; [apply Hlt|exact Hle]; [done|].
    exists (pb_hash b). split.
    + rewrite E2n. apply lru_add_self. destruct E1g as [-> _]. exact Hc.
    + intros Hin. unfold finished, lru_contains in Hb. by rewrite bool_decide_eq_false in Hb.
  - destruct (emit_loop _ _ _ _) as [[s3 n]| |] eqn:E3; ob; [|discriminate|discriminate].
    intros [= <-]. cbn. apply emit_loop_frame in E3 as (A1 & A2 & A3 & A4 & A5 & _). done.
Qed.

(** Everything below is relative to a predicate [G] on blocks (implying agreement with the
    tree) that holds of all received blocks that pass the whitelist. *)
Section client_ok.
Context (T : tree) (G : pending_batch → Prop) (HG : ∀ b, G b → agree T b).

(** * Basic invariant: everything stored agrees with the tree. *)
Record stored (s : omp) : Prop := Stored {
  st_pending : ∀ h pb, o_pending s !! h = Some pb → pb_hash pb = h ∧ G pb;
  st_queued : ∀ p cs c, o_queued s !! p = Some cs → c ∈ cs →
    ∃ b, G b ∧ pb_hash b = c ∧ pb_parent b = p;
  st_nonempty : ∀ p cs, o_queued s !! p = Some cs → cs ≠ ∅
}.

Lemma st_queued_par s p cs c :
  stored s → o_queued s !! p = Some cs → c ∈ cs → c ≠ zero_hash ∧ t_par T c = p.
Proof.
  intros Hs H1 H2. destruct (st_queued s Hs p cs c H1 H2) as (b & Hb & <- & <-).
  apply HG in Hb as (Hz & Hp & _). done.
Qed.

Lemma stored_sub s s' : stored s → sub s s' → stored s'.
Proof.
  intros [Hp Hq Hn] []. split.
  - intros h pb H. apply Hp. by eapply lookup_weaken.
  - intros p cs c H. apply Hq. by eapply lookup_weaken.
  - intros p cs H. eapply Hn. by eapply lookup_weaken.
Qed.

Lemma stored_queue s pb : stored s → G pb → stored (queue s pb).
Proof using G.
  clear HG.
  intros [Hp Hq Hn] Hpb. split; cbn; [exact Hp| |].
  - intros p cs c. destruct (decide (p = pb_parent pb)) as [->|Hne].
    + rewrite lookup_insert. intros [= <-] [Hc|Hc]%elem_of_union.
      * apply elem_of_singleton in Hc as ->. by exists pb.
      * destruct (o_queued s !! pb_parent pb) as [cs|] eqn:E; cbn in Hc; [|set_solver].
        by eapply Hq.
    + rewrite lookup_insert_ne by done. apply Hq.
  - intros p cs. destruct (decide (p = pb_parent pb)) as [->|Hne].
    + rewrite lookup_insert. intros [= <-]. set_solver.
    + rewrite lookup_insert_ne by done. apply Hn.
Qed.

Lemma stored_pending s pb :
  stored s → G pb → stored (set_pending s (<[pb_hash pb := pb]> (o_pending s))).
Proof.
  intros [Hp Hq Hn] Ha. split; cbn; [|exact Hq|exact Hn].
  intros h b. destruct (decide (h = pb_hash pb)) as [->|Hne].
  - rewrite lookup_insert. intros [= <-]. done.
  - rewrite lookup_insert_ne by done. apply Hp.
Qed.

Lemma stored_delete s h : stored s → stored (set_pending s (delete h (o_pending s))).
Proof.
  intros [Hp Hq Hn]. split; cbn; [|exact Hq|exact Hn].
  intros h' b Hb. apply Hp. by eapply lookup_weaken, delete_subseteq.
Qed.

Lemma stored_ext s s' :
  o_pending s' = o_pending s → o_queued s' = o_queued s → stored s → stored s'.
Proof. intros E1 E2 [Hp Hq Hn]. split; rewrite ?E1, ?E2; assumption. Qed.

Lemma stored_init cfg s0 : new_omp cfg = Ok s0 → stored s0.
Proof.
  unfold new_omp. case_bool_decide; [discriminate|]. intros [= <-].
  split; cbn; intros *; by rewrite lookup_empty.
Qed.

(** The child chosen by the loop of [prepareEmit] is a child of the head. *)
Lemma emit_child_parent f o s h pb :
  order_ok o → stored s → get_child f o s (o_last s) = Ok (Some h) →
  o_pending s !! h = Some pb → pb_parent pb = o_last s ∧ G pb ∧ pb_hash pb = h.
Proof.
  intros Ho Hst Eg Ep.
  apply (st_pending s Hst) in Ep as [Eh Ha].
  apply get_child_elem in Eg as (cs & Hcs & Hin); [|done].
  split; [|done]. destruct (HG _ Ha) as (Hz & Hpar & _). destruct Hin as [Hin|Hin].
  - destruct (st_queued_par s _ _ _ Hst Hcs Hin) as [_ <-]. by rewrite Hpar, Eh.
  - congruence.
Qed.

(** * The client accepts the events. *)
Record good_client (c : client) : Prop := {
  gc_linked : linked (cl_base c) (cl_chain c);
  gc_agree : Forall G (cl_chain c)
}.

Lemma apply_good c b c' : good_client c → G b → apply c b = Some c' → good_client c' ∧ tip c' = pb_hash b.
Proof.
  intros [Hl Ha] Hb. unfold apply. case_decide as E; [|discriminate].
  intros [= <-]. split; [|done]. split; cbn; [|by constructor].
  split; [|done]. exact E.
Qed.

(** Undoing a block the client stands on leaves it on that block's parent. *)
Lemma undo_tip c b :
  good_client c → agree T b → pb_hash b = tip c →
  ∃ c', undo c b = Some c' ∧ good_client c' ∧ tip c' = pb_parent b.
Proof.
  intros [Hl Ha] Hb E. unfold undo. rewrite decide_True by done.
  destruct c as [base [|x r]]; cbn in *.
  - eexists. split; [reflexivity|]. split; [|done]. split; cbn; [done|constructor].
  - eexists. split; [reflexivity|].
    apply Forall_cons in Ha as [Hx Hr]. split; [split; cbn; [apply Hl|done]|].
    destruct Hl as [Hl _].
    assert (pb_parent b = pb_parent x) as ->.
    { apply HG in Hx. destruct Hb as (_ & -> & _), Hx as (_ & -> & _). by rewrite E. }
    rewrite Hl. unfold tip; cbn. by destruct r.
Qed.

(** [accepts]: the client digests everything published so far, with [n] jumps. *)
Definition accepts (c0 : client) (s : omp) (c : client) (n : nat) : Prop :=
  lenient_run (c0, 0) (o_out s) = (c, n) ∧ good_client c ∧
  Forall G (all_added (o_out s)) ∧ Forall G (all_removed (o_out s)).

Lemma accepts_sub c0 s s' c n : accepts c0 s c n → sub s s' → accepts c0 s' c n.
Proof.
  intros (H1 & H2 & H3 & H4) Hs. split; [|split; [done|]].
  - destruct (sub_out _ _ Hs) as (evs & E & Hev). rewrite E, lenient_run_app, H1.
    by apply lenient_run_evicts.
  - unfold all_added, all_removed in *. by rewrite (sub_updates _ _ Hs).
Qed.
Lemma accepts_ext c0 s s' c n : o_out s' = o_out s → accepts c0 s c n → accepts c0 s' c n.
Proof. intros E H. unfold accepts. by rewrite E. Qed.

Lemma emit_loop_accepts c0 c n c' o f s new s' new' :
  order_ok o → stored s →
  accepts c0 s c n → good_client c' → tip c' = o_last s → Forall G new →
  emit_loop f o s new = Ok (s', new') →
  ∃ ext c'', new' = new ++ ext ∧ apply_all c' ext = Some c'' ∧ good_client c'' ∧
    tip c'' = o_last s' ∧ stored s' ∧ accepts c0 s' c n ∧ Forall G new'.
Proof.
  intros Ho. revert s new c'; induction f as [|f IH]; intros s new c' Hst Hacc Hgc Htip Hnew;
    cbn [emit_loop]; [discriminate|].
  destruct (get_child f o s (o_last s)) as [[h|]| |] eqn:Eg; ob; [| |discriminate|discriminate].
  2: { intros [= <- <-]. exists [], c'. rewrite app_nil_r. done. }
  destruct (o_pending s !! h) as [pb|] eqn:Ep; [|discriminate].
  destruct (emit_child_parent _ _ _ _ _ Ho Hst Eg Ep) as (Hpar & Ha & Eh).
  destruct (finish_siblings o s pb) as [s1| |] eqn:E1; ob; [|discriminate|discriminate].
  apply finish_siblings_sub in E1.
  destruct (fin_add _ _ _) as [s2| |] eqn:E2; ob; [|discriminate|discriminate].
  apply fin_add_sub in E2 as [E2 _].
  assert (Hst1 : stored s2).
  { eapply stored_sub; [|exact E2]. eapply stored_ext; [..|eapply stored_sub; [exact Hst|exact E1]]; done. }
  assert (Hacc1 : accepts c0 s2 c n).
  { eapply accepts_sub; [|exact E2]. eapply accepts_ext; [|eapply accepts_sub; [exact Hacc|exact E1]]; done. }
  assert (Hap : ∃ c1, apply c' pb = Some c1).
  { unfold apply. rewrite decide_True; [by eexists|]. congruence. }
  destruct Hap as [c1 Hc1].
  destruct (apply_good c' pb c1 Hgc Ha Hc1) as [Hg1 Ht1].
  intros Hrec. destruct (IH s2 (new ++ [pb]) c1) as (ext & c'' & -> & Happ & Hrest); try done.
  { rewrite Ht1, (sub_last _ _ E2). done. }
  { apply Forall_app. split; [done|]. by repeat constructor. }
  exists (pb :: ext), c''. rewrite <- app_assoc. split; [done|].
  rewrite <- app_assoc in Hrest. cbn. rewrite Hc1. cbn. done.
Qed.

(** [prepareEmit] with lists that the client can digest. *)
Lemma prepare_emit_accepts c0 c n c1 c2 o s new old s' :
  order_ok o → stored s → accepts c0 s c n → Forall G new → Forall G old →
  undo_all c (rev old) = Some c1 → apply_all c1 new = Some c2 →
  good_client c2 → (∃ b, last new = Some b ∧ tip c2 = pb_hash b) →
  prepare_emit o s new old = Ok s' →
  stored s' ∧ ∃ c', accepts c0 s' c' n ∧ tip c' = o_last s'.
Proof.
  intros Ho Hst Hacc HGn HGo Hu Ha Hg (b & Hb & Ht). unfold prepare_emit. rewrite Hb.
  destruct (finish_siblings o _ b) as [s1| |] eqn:E1; ob; [|discriminate|discriminate].
  apply finish_siblings_sub in E1.
  destruct (fin_add o s1 _) as [s2| |] eqn:E2; ob; [|discriminate|discriminate].
  apply fin_add_sub in E2 as [E2 _].
  assert (Hst2 : stored s2).
  { eapply stored_sub; [|exact E2]. eapply stored_sub; [|exact E1].
    eapply stored_ext; [..|exact Hst]; done. }
  assert (Hacc2 : accepts c0 s2 c n).
  { eapply accepts_sub; [|exact E2]. eapply accepts_sub; [|exact E1].
    eapply accepts_ext; [|exact Hacc]; done. }
  destruct (emit_loop _ o s2 new) as [[s3 new']| |] eqn:E3; ob; [|discriminate|discriminate].
  intros [= <-].
  eapply emit_loop_accepts in E3 as (ext & c'' & -> & Happ & Hg'' & Ht'' & Hst3 & Hacc3 & HGn');
    [|done|done|done|exact Hg| |exact HGn].
  2: { rewrite (sub_last _ _ E2), (sub_last _ _ E1). exact Ht. }
  split; [eapply stored_ext; [..|exact Hst3]; done|].
  exists c''. split; [|done]. destruct Hacc3 as (Hr3 & _ & Hu1 & Hu2).
  split; [|split; [done|]].
  - cbn [send o_out fst snd]. rewrite lenient_run_app, Hr3. cbn. unfold lenient_step. cbn.
    rewrite Hu. cbn. rewrite apply_all_app, Ha. cbn. rewrite Happ. done.
  - cbn [send o_out fst snd]. rewrite all_added_app, all_removed_app, !Forall_app.
    cbn. rewrite !app_nil_r. done.
Qed.

(** [prepareReorg]: the removed blocks lead from the old head down to the parent of the
    first added block, the added ones lead up from there. *)
Lemma reorg_walk_spec p f :
  (∀ h pb, p !! h = Some pb → pb_hash pb = h ∧ G pb) →
  ∀ nh oh newb rev0 removed added c cn,
  G nh → G oh → Forall G newb → Forall G rev0 →
  (∃ r, newb = nh :: r) →
  reorg_walk f p nh oh newb rev0 = Ok (RgOk removed added) →
  good_client c → undo_all c (rev rev0) = Some cn → good_client cn → tip cn = pb_hash oh →
  (∀ c', good_client c' → tip c' = pb_parent nh → ∃ c2, apply_all c' newb = Some c2 ∧ good_client c2 ∧
     ∃ b, last newb = Some b ∧ tip c2 = pb_hash b) →
  Forall G removed ∧ Forall G added ∧
  ∃ c1 c2, undo_all c (rev removed) = Some c1 ∧ apply_all c1 added = Some c2 ∧ good_client c2 ∧
     (∃ b, last added = Some b ∧ tip c2 = pb_hash b).
Proof.
  intros Hp. induction f as [|f IH]; intros nh oh newb rev0 removed added c cn Hnh Hoh Hnew Hrev Hhd;
    cbn [reorg_walk]; [discriminate|].
  case_bool_decide as Hnum.
  - destruct (p !! pb_parent nh) as [nh'|] eqn:E; [|discriminate].
    apply Hp in E as [Eh Ha]. intros Hw Hc Hu Hcn Htip Happ.
    eapply IH; [..|exact Hw|exact Hc|exact Hu|exact Hcn|exact Htip|]; try done.
    + by constructor.
    + by eexists.
    + intros c' Hc' Htip'. cbn [apply_all].
      assert (apply c' nh' = Some (Client (cl_base c') (nh' :: cl_chain c'))) as E1.
      { unfold apply. by rewrite decide_True. }
      rewrite E1. cbn. destruct (apply_good _ _ _ Hc' Ha E1) as [Hg1 Ht1].
      destruct (Happ _ Hg1) as (c2 & H2 & Hg2 & b & Hb & Htb); [congruence|].
      exists c2. split; [done|]. split; [done|]. exists b. split; [|done].
      destruct newb; [done|]. exact Hb.
  - case_bool_decide as Hpar.
    + intros [= <- <-] Hc Hu Hcn Htip Happ. split; [done|]. split; [done|].
      exists cn. destruct (Happ cn) as (c2 & H2 & Hg2 & Hb); [done|congruence|].
      exists c2. done.
    + destruct (p !! pb_parent oh) as [oh'|] eqn:E; [|discriminate].
      apply Hp in E as [Eh Ha]. intros Hw Hc Hu Hcn Htip Happ.
      destruct (undo_tip cn oh Hcn (HG _ Hoh)) as (cn' & Hu' & Hg' & Ht'); [done|].
      eapply IH; [..|exact Hw|exact Hc| |exact Hg'| |exact Happ]; try done.
      * by constructor.
      * cbn [rev]. rewrite undo_all_app, Hu. cbn. rewrite Hu'. done.
      * congruence.
Qed.

Lemma prepare_reorg_accepts c s pb lb removed added :
  stored s → G pb → G lb → good_client c → tip c = pb_hash lb →
  prepare_reorg s pb lb = Ok (RgOk removed added) →
  Forall G removed ∧ Forall G added ∧
  ∃ c1 c2, undo_all c (rev removed) = Some c1 ∧ apply_all c1 added = Some c2 ∧ good_client c2 ∧
     (∃ b, last added = Some b ∧ tip c2 = pb_hash b).
Proof.
  intros Hst Hpb Hlb Hc Ht H. unfold prepare_reorg in H.
  eapply reorg_walk_spec with (cn := c) in H; try done.
  - intros h b. apply (st_pending _ Hst).
  - by repeat constructor.
  - by eexists.
  - intros c' Hc' Htip'. cbn. unfold apply. rewrite decide_True by done. cbn.
    eexists. split; [reflexivity|]. split; [|by eexists].
    split; cbn; [split; [|apply Hc']|constructor; [done|apply Hc']].
    rewrite <- Htip'. done.
Qed.

(** * handle preserves everything. *)
Definition jumps_ok (s : omp) (n : nat) : Prop :=
  0 < lru_cap (o_fin s) ∧
  (o_empty s = false → n = 0) ∧
  (10 ≤ lru_cap (o_fin s) → lru_wf (o_fin s) ∧ n < lru_len (o_fin s) ∧ n ≤ 9).

Lemma jumps_mono s s' n :
  o_empty s' = o_empty s → fin_le (o_fin s) (o_fin s') → jumps_ok s n → jumps_ok s' n.
Proof.
  intros E [Ec Hf] (H0 & H1 & H2). split; [by rewrite Ec|]. split; [by rewrite E|]. rewrite Ec. intros Hc.
  destruct (H2 Hc) as (Hw & Hn & Hn9). destruct Hf as (Hw' & Hl & _); [lia|done|].
  split_and!; [done|lia|done].
Qed.

Definition ok20 (c0 : client) (s : omp) : Prop :=
  stored s ∧ ∃ c n, accepts c0 s c n ∧ tip c = o_last s ∧ jumps_ok s n.

Lemma ok20_sub c0 s s' : ok20 c0 s → sub s s' → ok20 c0 s'.
Proof.
  intros (Hst & c & n & Ha & Ht & Hj) Hs. split; [by eapply stored_sub|].
  exists c, n. split; [by eapply accepts_sub|]. split; [by rewrite (sub_last _ _ Hs)|].
  eapply jumps_mono; [apply Hs|apply Hs|done].
Qed.

Lemma ok20_queue c0 s pb : ok20 c0 s → G pb → ok20 c0 (queue s pb).
Proof.
  intros (Hst & c & n & Ha & Ht & Hj) Hs. split; [by eapply stored_queue|].
  exists c, n. done.
Qed.

Lemma ok20_emit c0 o s new old s' c n c1 c2 :
  order_ok o → stored s → accepts c0 s c n → tip c = o_last s → jumps_ok s n → Forall G new → Forall G old →
  undo_all c (rev old) = Some c1 → apply_all c1 new = Some c2 →
  good_client c2 → (∃ b, last new = Some b ∧ tip c2 = pb_hash b) →
  prepare_emit o s new old = Ok s' → ok20 c0 s'.
Proof.
  intros Ho Hst Ha Ht Hj Hn Hol Hu Hap Hg Hb H.
  destruct (prepare_emit_accepts c0 c n c1 c2 o s new old s') as (Hst' & c' & Hc' & Ht'); try done.
  split; [done|]. exists c', n. split; [done|]. split; [done|].
  apply prepare_emit_frame in H as (H & _ & _ & _ & Hf & _). by eapply jumps_mono.
Qed.

(** An emission that does not connect: only from an empty start and while fewer than ten
    blocks are finished. *)
Lemma ok20_jump c0 o s pb s' :
  order_ok o → ok20 c0 s → G pb → finished s (pb_hash pb) = false → pb_parent pb ≠ o_last s →
  o_empty s = true → lru_len (o_fin s) < 10 →
  prepare_emit o s [pb] [] = Ok s' → ok20 c0 s'.
Proof.
  intros Ho (Hst & c & n & Hacc & Ht & Hj) Hpb Hf Hne He Hlen H.
  pose proof (prepare_emit_frame _ _ _ _ _ H) as (Hem & _ & _ & _ & [Hcap _] & Hgrow).
  revert H. unfold prepare_emit. cbn [last].
  destruct (finish_siblings o _ pb) as [s1| |] eqn:E1; ob; [|discriminate|discriminate].
  apply finish_siblings_sub in E1.
  destruct (fin_add o s1 _) as [s2| |] eqn:E2; ob; [|discriminate|discriminate].
  apply fin_add_sub in E2 as [E2 _].
  assert (Hst2 : stored s2).
  { eapply stored_sub; [|exact E2]. eapply stored_sub; [|exact E1].
    eapply stored_ext; [..|exact Hst]; done. }
  assert (Hacc2 : accepts c0 s2 c n).
  { eapply accepts_sub; [|exact E2]. eapply accepts_sub; [|exact E1].
    eapply accepts_ext; [|exact Hacc]; done. }
  destruct (emit_loop _ o s2 [pb]) as [[s3 new']| |] eqn:E3; ob; [|discriminate|discriminate].
  pose proof (emit_loop_frame _ _ _ _ _ _ E3) as (_ & _ & _ & _ & Hf3 & _).
  eapply (emit_loop_accepts c0 c n (Client (pb_hash pb) [])) in E3
    as (ext & c'' & -> & Happ & Hg'' & Ht'' & Hst3 & Hacc3 & HGn');
    [|done|done|done|split; cbn; [done|constructor]| |by repeat constructor].
  2: { cbn. rewrite (sub_last _ _ E2), (sub_last _ _ E1). done. }
  intros [= <-]. split; [eapply stored_ext; [..|exact Hst3]; done|].
  destruct Hacc3 as (Hr3 & _ & Hu1 & Hu2).
  exists (Client (o_last s3) []), (S n). split; [split; [|split; [split; cbn; [done|constructor]|]]|split; [done|]].
  - cbn [send o_out fst snd]. rewrite lenient_run_app, Hr3. cbn. unfold lenient_step. cbn -[last app].
    unfold apply. rewrite decide_False by congruence. cbn -[last app]. f_equal. f_equal.
    rewrite <- Ht'', (apply_all_tip _ _ _ Happ). change (pb :: ext) with ([pb] ++ ext).
    rewrite last_app. by destruct (last ext).
  - cbn [send o_out fst snd]. rewrite all_added_app, all_removed_app, !Forall_app.
    cbn. rewrite ?app_nil_r. split_and!; try done.
  - destruct Hj as (Hj0 & Hj1 & Hj2). split; [by rewrite Hcap|]. split; [cbn in *; intros; congruence|].
    rewrite Hcap. intros Hc. destruct (Hj2 Hc) as (Hw & Hn & Hn9).
    assert (lru_len (o_fin s) < lru_len (o_fin (send s3 (EvUpdate ([pb] ++ ext) [])))).
    { apply (Hgrow pb); try done; lia. }
    destruct (fin_le_trans _ _ _ (fin_le_trans _ _ _ (sub_fin _ _ E1) (sub_fin _ _ E2)) Hf3) as [_ Hle].
    destruct Hle as (Hw' & _); [cbn; lia|done|].
    cbn [send o_fin fst snd] in *. split_and!; [done|lia|lia].
Qed.

(** [handle] after the whitelist and blacklist checks, used with [G] of the block. *)
Lemma handle_ok20 c0 f o s pb r s' :
  order_ok o → ok20 c0 s → (excluded (o_wl s) pb = false → pb_parent pb ∉ o_bl s → G pb) →
  (r = true → finished s (pb_parent pb) = true) →
  handle f o s pb r = Ok s' → ok20 c0 s' ∧ o_wl s' = o_wl s.
Proof.
  intros Ho. revert s pb r s'; induction f as [|f IH]; intros s pb r s' Hok Hpb0 Hr; cbn [handle]; [discriminate|].
  assert (Hok0 := Hok). destruct Hok as (Hst & c & n & Hacc & Htip & Hj).
  destruct (excluded (o_wl s) pb) eqn:Hexcl.
  { intros [= <-]. split; [|done]. split; [eapply stored_ext; [..|exact Hst]; done|].
    exists c, n. done. }
  case_bool_decide as Hbl.
  { intros [= <-]. split; [|done]. split; [eapply stored_ext; [..|exact Hst]; done|].
    exists c, n. done. }
  assert (Hpb := Hpb0 eq_refl Hbl).
  set (s1 := set_pending s _).
  assert (Hok1 : ok20 c0 s1).
  { split; [by apply stored_pending|]. exists c, n. done. }
  assert (Hacc1 : accepts c0 s1 c n) by done.
  assert (Hst1 := proj1 Hok1).
  destruct (finished s1 (pb_hash pb) && negb r) eqn:Hfr; [by intros [= <-]|].
  case_bool_decide as Hlast.
  { intros H. assert (apply c pb = Some (Client (cl_base c) (pb :: cl_chain c))) as Eap.
    { unfold apply. rewrite decide_True; [done|]. cbn in Hlast. congruence. }
    destruct Hacc as (Hrun & Hgc & _).
    destruct (apply_good c pb _ Hgc Hpb Eap) as [Hg2 Ht2].
    split; [|by apply prepare_emit_frame in H as (_ & H & _)].
    eapply (ok20_emit c0 o s1 [pb] [] s' c n c); try done.
    - by repeat constructor.
    - cbn. by rewrite Eap.
    - by eexists. }
  destruct (o_empty s1 && _ && _) eqn:Hemp.
  { apply andb_true_iff in Hemp as [[He Hlen]%andb_true_iff Hnf]. rewrite bool_decide_eq_true in Hlen.
    intros H. split; [|by apply prepare_emit_frame in H as (_ & H & _)].
    eapply ok20_jump; try done.
    rewrite andb_false_iff in Hfr. destruct Hfr as [Hfr|Hfr]; [done|].
    exfalso. apply negb_false_iff in Hfr. subst r. specialize (Hr eq_refl).
    unfold finished in *. cbn in *. by rewrite Hr in Hnf. }
  destruct (finished s1 (pb_parent pb)).
  - (* parent finished *)
    assert (Hlight : ∀ s',
      (s ← fin_add o s1 (pb_hash pb);
        c ← get_child 0 o s (pb_hash pb);
        match c with
        | Some child =>
          s ← match o_pending s !! child with
              | Some cpb => handle f o s cpb true
              | None => Ok s
              end;
          Ok (queue s pb)
        | None => Ok (queue s pb)
        end) = Ok s' → ok20 c0 s' ∧ o_wl s' = o_wl s).
    { intros s2. destruct (fin_add o s1 _) as [s3| |] eqn:E3; ob; [|discriminate|discriminate].
      apply fin_add_sub in E3 as [E3 E3f]. assert (Hok3 := ok20_sub _ _ _ Hok1 E3).
      assert (Hwl3 : o_wl s3 = o_wl s) by (rewrite (sub_wl _ _ E3); done).
      destruct (get_child _ _ _ _) as [[child|]| |] eqn:Eg; ob; [| |discriminate|discriminate].
      - destruct (o_pending s3 !! child) as [cpb|] eqn:Ec.
        + destruct (handle f o s3 cpb true) as [s4| |] eqn:E4; ob; [|discriminate|discriminate].
          intros [= <-]. apply IH in E4 as [E4 Ewl]; [|exact Hok3| |].
          * split; [by apply ok20_queue|]. cbn. congruence.
          * intros _ _. by apply (st_pending _ (proj1 Hok3)) in Ec as [_ ?].
          * intros _. apply (st_pending _ (proj1 Hok3)) in Ec as [Ech HGc].
            destruct (get_child_elem _ _ _ _ _ Ho Eg) as (cs & Hcs & [Hin| ->]).
            -- destruct (st_queued_par _ _ _ _ (proj1 Hok3) Hcs Hin) as [_ Hpar].
               destruct (HG _ HGc) as (_ & -> & _). rewrite Ech, Hpar.
               unfold finished, lru_contains. apply bool_decide_eq_true. rewrite E3f.
               apply lru_add_self. apply Hj.
            -- destruct (HG _ HGc) as (Hz & _). done.
        + cbn. intros [= <-]. split; [by apply ok20_queue|done].
      - intros [= <-]. split; [by apply ok20_queue|done]. }
    destruct (o_pending s1 !! o_last s1) as [lb|] eqn:El; [|exact (Hlight s')].
    destruct (_ <? _)%N; [|exact (Hlight s')].
    destruct (st_pending _ Hst1 _ _ El) as [Elh Hlb].
    destruct (prepare_reorg s1 pb lb) as [[removed added| |]| |] eqn:Er; ob; try discriminate.
    + intros H.
      destruct (prepare_reorg_accepts c s1 pb lb removed added) as (HGr & HGa & c1 & c2 & Hu & Hap & Hg & Hb); try done.
      { apply Hacc. } { rewrite Elh. exact Htip. }
      split; [|by apply prepare_emit_frame in H as (_ & H & _)].
      eapply (ok20_emit c0 o s1 added removed s' c n c1 c2); done.
    + intros [= <-]. split; [by apply ok20_queue|done].
    + by intros [= <-].
  - (* parent unknown *)
    destruct (_ <? _)%N.
    + match goal with |- (if ?b then _ else _) = _ → _ => destruct b end.
      * intros [= <-]. split; [|done]. split; [by apply stored_delete|]. exists c, n. done.
      * destruct (fin_add o s1 _) as [s3| |] eqn:E3; ob; [|discriminate|discriminate].
        apply fin_add_sub in E3 as [E3 _].
        intros [= <-]. split; [|cbn; rewrite (sub_wl _ _ E3); done].
        apply ok20_queue; [|done]. by eapply ok20_sub.
    + intros [= <-]. split; [by apply ok20_queue|done].
Qed.

Lemma ok20_init cfg s0 :
  new_omp cfg = Ok s0 → ok20 (Client (cfg_last_hash cfg) []) s0.
Proof.
  intros H. split; [by eapply stored_init|]. revert H.
  unfold new_omp. case_bool_decide as Hthr; [discriminate|]. intros [= <-].
  eexists. exists 0. split; [split; [reflexivity|]|]. 2: split; [done|].
  - cbn. split; [|split; constructor]. split; cbn; [done|constructor].
  - assert (0 < Z.to_nat (cfg_threshold cfg * 2)) by lia.
    assert (Hwf : lru_wf (lru_new (K:=hash) (Z.to_nat (cfg_threshold cfg * 2)))).
    { split; cbn; [constructor|lia]. }
    split; [cbn [o_fin]; by rewrite lru_add_cap|]. split; [done|]. intros _. cbn [o_fin].
    split_and!; [by apply lru_add_wf| |lia].
    rewrite lru_add_len; [|done|cbn; lia|done]. rewrite bool_decide_eq_false_2 by (cbn; apply not_elem_of_nil). cbn [lru_cap lru_new]. lia.
Qed.

Lemma omp_run_ok20 c0 l s s' :
  orders_ok l → (∀ b, b ∈ batches_of l → excluded (o_wl s) b = false → G b) →
  ok20 c0 s → omp_run s l = Ok s' → ok20 c0 s' ∧ o_wl s' = o_wl s.
Proof.
  revert s; induction l as [|[o i] l IH]; intros s Hord Hag Hok; unfold omp_run; cbn [foldM]; [by intros [= <-]|].
  apply Forall_cons in Hord as [Ho Hord]. cbn in Ho.
  assert (Hag2 : ∀ b, b ∈ batches_of l → excluded (o_wl s) b = false → G b).
  { intros b Hb. apply Hag. unfold batches_of. destruct i; cbn; [by apply elem_of_list_further|done]. }
  destruct (omp_step s (o, i)) as [s1| |] eqn:E; ob; [|discriminate|discriminate].
  intros Hrun. destruct i as [pb|n h]; unfold omp_step in E; cbn [fst snd] in *.
  - unfold handle_batch in E. apply (handle_ok20 c0) in E as [E1 E2]; try done.
    + apply IH in Hrun; [|done|by rewrite E2|done]. by rewrite <- E2.
    + intros He _. apply Hag; [apply elem_of_list_here|done].
  - injection E as <-. destruct Hok as (Hst & c & k & (Hcr & Hg & Hf1 & Hf2) & Ht & Hj).
    apply IH in Hrun; [done|done|done|].
    split; [eapply stored_ext; [..|exact Hst]; done|].
    exists (Client h []), k. split; [|done].
    split; [|split; [split; cbn; [done|constructor]|]].
    + unfold handle_reorg; cbn. rewrite lenient_run_app, Hcr. done.
    + unfold handle_reorg. cbn [send set_last_hash set_last o_out].
      rewrite all_added_app, all_removed_app. cbn. by rewrite !app_nil_r.
Qed.
End client_ok.

(** Relations between the state before and after that hold for every elementary change
    hold for [handle]. *)
Lemma handle_rel (P : omp → omp → Prop) f o s pb r s' :
  (∀ s, P s s) → (∀ s1 s2 s3, P s1 s2 → P s2 s3 → P s1 s3) →
  (∀ s b, P s (set_bl s b)) → (∀ s p, P s (set_pending s p)) → (∀ s q, P s (set_queued s q)) →
  (∀ s s', sub s s' → P s s') →
  (∀ s new old s', prepare_emit o s new old = Ok s' → P s s') →
  handle f o s pb r = Ok s' → P s s'.
Proof.
  intros Hrefl Htrans Hbl Hpend Hq Hsub Hemit.
  revert s pb r s'; induction f as [|f IH]; intros s pb r s'; cbn [handle]; [discriminate|].
  destruct (excluded (o_wl s) pb); [by intros [= <-]|].
  case_bool_decide; [by intros [= <-]|].
  set (s1 := set_pending s _). assert (P s s1) as H1 by apply Hpend.
  destruct (finished s1 (pb_hash pb) && negb r); [by intros [= <-]|].
  case_bool_decide; [intros Hx; eapply Htrans; [exact H1|by eapply Hemit]|].
  destruct (_ && _ && _); [intros Hx; eapply Htrans; [exact H1|by eapply Hemit]|].
  destruct (finished s1 (pb_parent pb)).
  - assert (Hlight : ∀ s',
      (s ← fin_add o s1 (pb_hash pb);
        c ← get_child 0 o s (pb_hash pb);
        match c with
        | Some child =>
          s ← match o_pending s !! child with
              | Some cpb => handle f o s cpb true
              | None => Ok s
              end;
          Ok (queue s pb)
        | None => Ok (queue s pb)
        end) = Ok s' → P s s').
    { intros s2. destruct (fin_add _ _ _) as [s3| |] eqn:E3; ob; [|discriminate|discriminate].
      apply fin_add_sub in E3 as [E3 _]. assert (P s s3) as H3 by (eapply Htrans; [exact H1|by apply Hsub]).
      destruct (get_child _ _ _ _) as [[child|]| |]; ob; [| |discriminate|discriminate].
      - destruct (o_pending s3 !! child).
        + destruct (handle _ _ _ _ _) as [s4| |] eqn:E4; ob; [|discriminate|discriminate].
          intros [= <-]. apply IH in E4. eapply Htrans; [exact H3|]. eapply Htrans; [exact E4|apply Hq].
        + cbn. intros [= <-]. eapply Htrans; [exact H3|apply Hq].
      - intros [= <-]. eapply Htrans; [exact H3|apply Hq]. }
    destruct (o_pending s1 !! o_last s1) as [lb|] eqn:El; [|exact (Hlight s')].
    destruct (_ <? _)%N eqn:Hw; [|exact (Hlight s')].
    destruct (prepare_reorg _ _ _) as [[]| |]; ob; try discriminate.
    + intros Hx; eapply Htrans; [exact H1|by eapply Hemit].
    + intros [= <-]. eapply Htrans; [exact H1|apply Hq].
    + by intros [= <-].
  - destruct (_ <? _)%N; [|intros [= <-]; eapply Htrans; [exact H1|apply Hq]].
    match goal with |- (if ?b then _ else _) = _ → _ => destruct b end.
    { intros [= <-]. eapply Htrans; [exact H1|apply Hpend]. }
    destruct (fin_add _ _ _) as [s3| |] eqn:E3; ob; [|discriminate|discriminate].
    apply fin_add_sub in E3 as [E3 _]. intros [= <-].
    eapply Htrans; [exact H1|]. eapply Htrans; [by apply Hsub|apply Hq].
Qed.

(** Reorg announcements published. *)
Definition reorgs_out (l : list omp_event) : list (Z * hash) :=
  omap (λ e, match e with EvReorg n h => Some (n, h) | _ => None end) l.
Lemma reorgs_out_app l1 l2 : reorgs_out (l1 ++ l2) = reorgs_out l1 ++ reorgs_out l2.
Proof. apply omap_app. Qed.
Lemma reorgs_out_evicts l : Forall is_evict l → reorgs_out l = [].
Proof. induction 1 as [|e l He _ IH]; [done|]. by destruct e. Qed.

Lemma prepare_emit_out o s new old s' : prepare_emit o s new old = Ok s' →
  ∃ evs new', o_out s' = o_out s ++ evs ++ [EvUpdate new' old] ∧ Forall is_evict evs.
Proof.
  unfold prepare_emit. destruct (last new) as [b|]; ob.
  - destruct (finish_siblings _ _ _) as [s1| |] eqn:E1; ob; [|discriminate|discriminate].
    apply finish_siblings_sub in E1.
    destruct (fin_add _ _ _) as [s2| |] eqn:E2; ob; [|discriminate|discriminate].
    apply fin_add_sub in E2 as [E2 _].
    destruct (emit_loop _ _ _ _) as [[s3 n]| |] eqn:E3; ob; [|discriminate|discriminate].
    intros [= <-]. cbn. apply emit_loop_frame in E3 as (_ & _ & _ & _ & _ & e3 & H3 & F3).
    destruct (sub_out _ _ E1) as (e1 & H1 & F1), (sub_out _ _ E2) as (e2 & H2 & F2). cbn in H1.
    exists (e1 ++ e2 ++ e3), n. rewrite H3, H2, H1, !app_assoc. split; [done|]. by rewrite !Forall_app.
  - destruct (emit_loop _ _ _ _) as [[s3 n]| |] eqn:E3; ob; [|discriminate|discriminate].
    intros [= <-]. cbn. apply emit_loop_frame in E3 as (_ & _ & _ & _ & _ & e3 & H3 & F3).
    exists e3, n. by rewrite H3, app_assoc.
Qed.

Lemma handle_reorgs_out f o s pb r s' :
  handle f o s pb r = Ok s' → reorgs_out (o_out s') = reorgs_out (o_out s).
Proof.
  apply (handle_rel (λ s s', reorgs_out (o_out s') = reorgs_out (o_out s))); try done.
  - intros; congruence.
  - intros s1 s2 H. destruct (sub_out _ _ H) as (evs & -> & Hev).
    by rewrite reorgs_out_app, (reorgs_out_evicts evs), app_nil_r.
  - intros s1 new old s2 H. apply prepare_emit_out in H as (evs & new' & -> & Hev).
    rewrite !reorgs_out_app, (reorgs_out_evicts evs) by done. by rewrite app_nil_r.
Qed.
