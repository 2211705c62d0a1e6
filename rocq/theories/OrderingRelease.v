(** C29, continued: child lists of released blocks, and blocks that come too late. *)
From Coq Require Import Strings.String.
From Verif Require Import Base Lru LruFacts Types Ordering SpecChain OrderingBase OrderingFacts OrderingMisc.

Section rel.
(** [X]: blocks that may be (re-)queued by the running call. *)
Context (X : hash → Prop).

Record qrel (s s' : omp) : Prop := {
  qr_gone : ∀ y, is_Some (o_pending s !! y) → o_pending s' !! y = None →
    ∀ cs c, o_queued s' !! y = Some cs → c ∈ cs → X c;
  qr_old : ∀ y cs c, o_queued s' !! y = Some cs → c ∈ cs →
    X c ∨ ∃ cs0, o_queued s !! y = Some cs0 ∧ c ∈ cs0
}.

Lemma qrel_refl s : qrel s s.
Proof. split; [intros y [b Hb]; congruence|]. intros y cs c Hq Hc. right. eauto. Qed.
Lemma qrel_trans s1 s2 s3 : qrel s1 s2 → qrel s2 s3 → qrel s1 s3.
Proof.
  intros [A1 A2] [B1 B2]. split.
  - intros y Hy Hn cs c Hq Hc. destruct (o_pending s2 !! y) as [b|] eqn:E; [by eapply B1|].
    destruct (B2 y cs c Hq Hc) as [?|(cs2 & Hq2 & Hc2)]; [done|]. by eapply A1.
  - intros y cs c Hq Hc. destruct (B2 y cs c Hq Hc) as [?|(cs2 & Hq2 & Hc2)]; [by left|]. by eapply A2.
Qed.
Lemma qrel_ext s s' : o_pending s' = o_pending s → o_queued s' = o_queued s → qrel s s'.
Proof.
  intros E1 E2. split.
  - intros y [b Hb]. rewrite E1. congruence.
  - intros y cs c. rewrite E2. eauto.
Qed.

Lemma evict_qrel f o s h s' : keyed s → evict f o s h = Ok s' → qrel s s' ∧ keyed s'.
Proof.
  revert s h s'; induction f as [|f IH]; intros s h s' Hk; cbn [evict]; [discriminate|].
  destruct (o_pending s !! h) as [pb|] eqn:Hp; [|intros [= <-]; split; [apply qrel_refl|done]].
  assert (Hh := Hk _ _ Hp). rewrite Hh.
  set (s1 := send (set_pending s _) _).
  assert (Hk1 : keyed s1) by (eapply keyed_mono; [|exact Hk]; apply delete_subseteq).
  destruct (evict f o s1 (pb_parent pb)) as [s2| |] eqn:E2; ob; [|discriminate|discriminate].
  apply IH in E2 as [E2 Hk2]; [|done].
  (* everything except [h] itself *)
  set (P := λ x, (∀ y, y ≠ h → is_Some (o_pending s !! y) → o_pending x !! y = None →
      ∀ cs c, o_queued x !! y = Some cs → c ∈ cs → X c) ∧
    (∀ y cs c, o_queued x !! y = Some cs → c ∈ cs → X c ∨ ∃ cs0, o_queued s !! y = Some cs0 ∧ c ∈ cs0) ∧ keyed x).
  assert (HP2 : P s2).
  { split; [|split; [|done]].
    - intros y Hne Hy. apply (qr_gone _ _ E2). cbn. by rewrite lookup_delete_ne.
    - apply (qr_old _ _ E2). }
  assert (Hfin : ∀ x, P x → o_queued x !! h = None → qrel s x ∧ keyed x).
  { intros x (P1 & P2 & P3) Hn. split; [|done]. split; [|done].
    intros y Hy Hyn cs c Hq. destruct (decide (y = h)) as [->|]; [congruence|]. by eapply P1. }
  destruct (o_queued s2 !! h) as [cs|] eqn:Hq; [|intros [= <-]; by apply Hfin].
  destruct (foldM _ _ s2) as [s3| |] eqn:E3; ob; [|discriminate|discriminate].
  intros [= <-].
  assert (HP3 : P s3).
  { revert E3. apply (foldM_inv P); [|done].
    intros x c x' Hc (P1 & P2 & P3). destruct (finished x c); [by intros [= <-]|].
    intros Hev. apply IH in Hev as [[V1 V2] Vk]; [|done]. split; [|split; [|done]].
    - intros y Hne Hy Hn cs' c' Hq' Hc'. destruct (o_pending x !! y) eqn:E; [by eapply V1|].
      destruct (V2 _ _ _ Hq' Hc') as [?|(cs2 & Hq2 & Hc2)]; [done|]. by eapply P1.
    - intros y cs' c' Hq' Hc'. destruct (V2 _ _ _ Hq' Hc') as [?|(cs2 & Hq2 & Hc2)]; [by left|]. by eapply P2. }
  apply Hfin; [|cbn; apply lookup_delete].
  destruct HP3 as (P1 & P2 & P3). split; [|split; [|done]].
  - intros y Hne Hy Hn cs' c'. cbn. rewrite lookup_delete_ne by done. by eapply P1.
  - intros y cs' c'. cbn. rewrite lookup_delete_Some. intros [_ Hq']. by eapply P2.
Qed.

Lemma fin_add_qrel o s h s' : keyed s → fin_add o s h = Ok s' → qrel s s' ∧ keyed s'.
Proof.
  intros Hk. unfold fin_add. destruct (lru_add (o_fin s) h) as [l [k|]].
  - intros H. apply evict_qrel in H as [H Hk']; [|exact Hk]. split; [|done].
    eapply qrel_trans; [|exact H]. by apply qrel_ext.
  - intros [= <-]. split; [by apply qrel_ext|exact Hk].
Qed.
Lemma finish_children_qrel f o s h s' : keyed s → finish_children f o s h = Ok s' → qrel s s' ∧ keyed s'.
Proof.
  revert s h s'; induction f as [|f IH]; intros s h s' Hk; cbn [finish_children]; [discriminate|].
  destruct (fin_add o s h) as [s1| |] eqn:E1; ob; [|discriminate|discriminate].
  apply fin_add_qrel in E1 as [E1 Hk1]; [|done].
  destruct (o_queued s !! h) as [cs|]; [|by intros [= <-]].
  apply (foldM_inv (λ x, qrel s x ∧ keyed x)); [|done].
  intros x c x' _ [Hx Hxk] Hc. apply IH in Hc as [Hc Hck]; [|done]. split; [by eapply qrel_trans|done].
Qed.
Lemma finish_siblings_qrel o s pb s' : keyed s → finish_siblings o s pb = Ok s' → qrel s s' ∧ keyed s'.
Proof.
  intros Hk. unfold finish_siblings. destruct (o_queued s !! pb_parent pb) as [cs|].
  2: { intros [= <-]. split; [apply qrel_refl|done]. }
  apply (foldM_inv (λ x, qrel s x ∧ keyed x)); [|split; [apply qrel_refl|done]].
  intros x c x' _ [Hx Hxk]. case_bool_decide; [|by intros [= <-]].
  intros Hc. apply finish_children_qrel in Hc as [Hc Hck]; [|done]. split; [by eapply qrel_trans|done].
Qed.
Lemma emit_loop_qrel f o s new s' new' : keyed s → emit_loop f o s new = Ok (s', new') → qrel s s' ∧ keyed s'.
Proof.
  revert s new; induction f as [|f IH]; intros s new Hk; cbn [emit_loop]; [discriminate|].
  destruct (get_child _ _ _ _) as [[h|]| |]; ob; [| |discriminate|discriminate].
  2: { intros [= <- <-]. split; [apply qrel_refl|done]. }
  destruct (o_pending s !! h) as [pb|]; [|discriminate].
  destruct (finish_siblings _ _ _) as [s1| |] eqn:E1; ob; [|discriminate|discriminate].
  apply finish_siblings_qrel in E1 as [E1 Hk1]; [|done].
  destruct (fin_add _ _ _) as [s2| |] eqn:E2; ob; [|discriminate|discriminate].
  apply fin_add_qrel in E2 as [E2 Hk2]; [|exact Hk1].
  intros H. apply IH in H as [H Hk']; [|done]. split; [|done].
  eapply qrel_trans; [exact E1|]. eapply qrel_trans; [|exact H]. eapply qrel_trans; [|exact E2]. by apply qrel_ext.
Qed.
Lemma prepare_emit_qrel o s new old s' : keyed s → prepare_emit o s new old = Ok s' → qrel s s'.
Proof.
  intros Hk. unfold prepare_emit. destruct (last new) as [b|]; ob.
  - destruct (finish_siblings _ _ _) as [s1| |] eqn:E1; ob; [|discriminate|discriminate].
    apply finish_siblings_qrel in E1 as [E1 Hk1]; [|exact Hk].
    destruct (fin_add _ _ _) as [s2| |] eqn:E2; ob; [|discriminate|discriminate].
    apply fin_add_qrel in E2 as [E2 Hk2]; [|exact Hk1].
    destruct (emit_loop _ _ _ _) as [[s3 n]| |] eqn:E3; ob; [|discriminate|discriminate].
    apply emit_loop_qrel in E3 as [E3 _]; [|done]. intros [= <-].
    eapply qrel_trans; [by apply (qrel_ext s (set_last s (pb_hash b) (pb_weight b)))|].
    eapply qrel_trans; [exact E1|]. eapply qrel_trans; [exact E2|]. eapply qrel_trans; [exact E3|]. by apply qrel_ext.
  - destruct (emit_loop _ _ _ _) as [[s3 n]| |] eqn:E3; ob; [|discriminate|discriminate].
    apply emit_loop_qrel in E3 as [E3 _]; [|done]. intros [= <-]. eapply qrel_trans; [exact E3|]. by apply qrel_ext.
Qed.
Lemma queue_qrel s pb : X (pb_hash pb) → qrel s (queue s pb).
Proof.
  intros Hx. split; [intros y [b Hb]; cbn; congruence|].
  intros y cs c. cbn. rewrite lookup_insert_Some. intros [[<- <-]|[Hne Hq]] Hc; [|eauto].
  apply elem_of_union in Hc as [->%elem_of_singleton|Hc]; [by left|right].
  destruct (o_queued s !! pb_parent pb); [eauto|]. by apply not_elem_of_empty in Hc.
Qed.

Lemma handle_qrel (T : tree) f o s pb r s' :
  (∀ c, X (t_par T c) → X c) →
  order_ok o → stored (agree T) s → agree T pb → X (pb_hash pb) →
  handle f o s pb r = Ok s' → qrel s s'.
Proof.
  intros HX Ho. revert s pb r s'; induction f as [|f IH]; intros s pb r s' Hst Hpb Hx; cbn [handle]; [discriminate|].
  destruct (excluded (o_wl s) pb); [intros [= <-]; by apply qrel_ext|].
  case_bool_decide; [intros [= <-]; by apply qrel_ext|].
  set (s1 := set_pending s _).
  assert (Hst1 : stored (agree T) s1) by (by apply stored_pending).
  assert (Hk1 : keyed s1).
  { intros h b Hb. by apply (st_pending _ _ Hst1) in Hb as [? _]. }
  assert (Q1 : qrel s s1).
  { split; [|intros; right; eauto]. intros y [b Hb] Hn. exfalso. unfold s1 in Hn. cbn in Hn.
    apply lookup_insert_None in Hn as [Hn _]. congruence. }
  assert (Hcont : ∀ x, qrel s1 x → qrel s x) by (intros x; by apply qrel_trans).
  destruct (finished s1 (pb_hash pb) && negb r); [by intros [= <-]|].
  case_bool_decide; [intros He; by eapply Hcont, prepare_emit_qrel|].
  destruct (_ && _ && _); [intros He; by eapply Hcont, prepare_emit_qrel|].
  destruct (finished s1 (pb_parent pb)) eqn:Hfp.
  - assert (Hlight : ∀ s',
      (s ← fin_add o s1 (pb_hash pb);
        c ← get_child 0 o s (pb_hash pb);
        match c with
        | Some child =>
          s ← match o_pending s !! child with
              | Some cpb => handle f o s cpb true
              | None => Ok s
              end;
          Ok (queue s pb)
        | None => Ok (queue s pb)
        end) = Ok s' → qrel s1 s').
    { intros s2. destruct (fin_add _ _ _) as [s3| |] eqn:E3; ob; [|discriminate|discriminate].
      assert (E3' := E3). apply fin_add_sub in E3' as [E3' _].
      apply fin_add_qrel in E3 as [E3 Hk3]; [|done].
      assert (Hst3 : stored (agree T) s3) by (by eapply stored_sub).
      destruct (get_child _ _ _ _) as [[child|]| |] eqn:Eg; ob; [| |discriminate|discriminate].
      - destruct (o_pending s3 !! child) as [cpb|] eqn:Ec.
        + destruct (handle _ _ _ _ _) as [s4| |] eqn:E4; ob; [|discriminate|discriminate].
          intros [= <-]. destruct (st_pending _ _ Hst3 _ _ Ec) as [Ech Hag].
          apply IH in E4; [|done|done|].
          2: { destruct (get_child_elem _ _ _ _ _ Ho Eg) as (cs & Hcs & [Hin| ->]).
               - destruct (st_queued_par T (agree T) (λ b H, H) _ _ _ _ Hst3 Hcs Hin) as [_ Hpar].
                 rewrite Ech. apply HX. by rewrite Hpar.
               - by destruct Hag as (Hz & _). }
          eapply qrel_trans; [exact E3|]. eapply qrel_trans; [exact E4|by apply queue_qrel].
        + cbn. intros [= <-]. eapply qrel_trans; [exact E3|by apply queue_qrel].
      - intros [= <-]. eapply qrel_trans; [exact E3|by apply queue_qrel]. }
    intros Hrest. apply Hcont. revert Hrest.
    destruct (o_pending s1 !! o_last s1) as [lb|] eqn:El; [|exact (Hlight s')].
    destruct (_ <? _)%N eqn:Hw; [|exact (Hlight s')].
    destruct (prepare_reorg _ _ _) as [[]| |]; ob; try discriminate.
    + intros He. by eapply prepare_emit_qrel.
    + intros [= <-]. by apply queue_qrel.
    + intros [= <-]. apply qrel_refl.
  - destruct (_ <? _)%N; [|intros [= <-]; by apply Hcont, queue_qrel].
    match goal with |- (if ?b then _ else _) = _ → _ => destruct b end.
    { intros [= <-]. apply Hcont. split; [|intros; right; eauto].
      intros y [b Hb] Hn cs c Hq Hc. cbn in Hn. apply lookup_delete_None in Hn as [<-|Hn];
        [|unfold s1 in Hb; cbn in Hb; congruence].
      apply HX. destruct (st_queued_par T (agree T) (λ b H, H) _ _ _ _ Hst1 Hq Hc) as [_ ->]. done. }
    destruct (fin_add _ _ _) as [s3| |] eqn:E3; ob; [|discriminate|discriminate].
    apply fin_add_qrel in E3 as [E3 _]; [|done]. intros [= <-]. apply Hcont.
    eapply qrel_trans; [exact E3|by apply queue_qrel].
Qed.
End rel.

(** Children of released blocks are forgotten too, unless they are the block being handled
    or descend from it. *)
Lemma released_children (T : tree) cfg s0 l s o pb s' y cs c :
  new_omp cfg = Ok s0 → orders_ok l → Forall (agree T) (batches_of l) → omp_run s0 l = Ok s →
  order_ok o → agree T pb → omp_step s (o, InBatch pb) = Ok s' →
  is_Some (o_pending s !! y) → o_pending s' !! y = None →
  o_queued s' !! y = Some cs → c ∈ cs → ancestor T (pb_hash pb) c.
Proof.
  intros H0 Hord Hag Hrun Ho Hpb Hstep.
  assert (Hst := run_stored T _ _ _ _ H0 Hord Hag Hrun).
  apply (handle_qrel (ancestor T (pb_hash pb)) T) in Hstep; try done.
  - intros Hy Hn Hq Hc. by eapply (qr_gone _ _ _ Hstep).
  - intros x. apply anc_step.
  - constructor.
Qed.

Lemma handle_frame f o s pb r s' :
  handle f o s pb r = Ok s' → o_wl s' = o_wl s ∧ o_thr s' = o_thr s.
Proof.
  apply (handle_rel (λ s s', o_wl s' = o_wl s ∧ o_thr s' = o_thr s)); try done.
  - intros s1 s2 s3 [] []. split; congruence.
  - intros s1 s2 H. split; [apply (sub_wl _ _ H)|apply (sub_thr _ _ H)].
  - intros s1 new old s2 H. apply prepare_emit_frame in H. split; apply H.
Qed.

(** A lighter block with an unknown parent is kept only near the head. *)
Lemma late_block cfg s0 l s o pb lb s' :
  new_omp cfg = Ok s0 → cfg_last_hash cfg ≠ zero_hash → omp_run s0 l = Ok s →
  o_pending s !! o_last s = Some lb → o_last s ≠ pb_hash pb →
  excluded (cfg_whitelist cfg) pb = false → pb_parent pb ∉ o_bl s →
  omp_why s (pb_hash pb) ≠ Some (str "done, not evicted"%string) →
  omp_why s (pb_parent pb) ≠ Some (str "done, not evicted"%string) → pb_parent pb ≠ o_last s →
  (pb_weight pb < o_lastw s)%N →
  omp_step s (o, InBatch pb) = Ok s' →
  if bool_decide (cfg_threshold cfg < pb_num lb - pb_num pb)%Z
  then omp_why s' (pb_hash pb) = None ∧ o_out s' = o_out s ∧ o_fin s' = o_fin s ∧ o_queued s' = o_queued s ∧
       o_pending s' = delete (pb_hash pb) (o_pending s)
  else omp_why s' (pb_hash pb) = Some (str "done, not evicted"%string) ∧
       ∃ cs, o_queued s' !! pb_parent pb = Some cs ∧ pb_hash pb ∈ cs.
Proof.
  intros H0 Hz Hrun Hlb Hne Hex Hbl. rewrite !done_finished. intros Hf Hfp Hpl Hw.
  apply not_true_is_false in Hf, Hfp.
  assert (Hcst : o_wl s = cfg_whitelist cfg ∧ o_thr s = cfg_threshold cfg).
  { apply (omp_run_inv (λ x, o_wl x = cfg_whitelist cfg ∧ o_thr x = cfg_threshold cfg)) in Hrun; [done| |].
    - intros s1 [o1 [b|n h]] s2 _ [E1 E2]; unfold omp_step; cbn [fst snd].
      + intros H. apply handle_frame in H as [F1 F2]. split; congruence.
      + by intros [= <-].
    - revert H0. unfold new_omp. case_bool_decide; [discriminate|]. by intros [= <-]. }
  destruct Hcst as [Ewl Ethr].
  assert (Hem : o_empty s = false).
  { rewrite (run_empty _ _ _ Hrun), (new_empty _ _ H0). by apply bool_decide_eq_false_2. }
  destruct (run_cap _ _ _ _ H0 Hrun) as (_ & Hc & _).
  unfold omp_step. cbn [fst snd]. unfold handle_batch. generalize (qfuel s). intros f. cbn [handle].
  rewrite Ewl, Hex. rewrite bool_decide_eq_false_2 by done.
  set (s1 := set_pending s _).
  change (finished s1 (pb_hash pb)) with (finished s (pb_hash pb)). rewrite Hf. cbn [andb].
  rewrite bool_decide_eq_false_2 by done.
  change (o_empty s1) with (o_empty s). rewrite Hem. cbn [andb].
  change (finished s1 (pb_parent pb)) with (finished s (pb_parent pb)). rewrite Hfp.
  change (o_lastw s1) with (o_lastw s). rewrite (proj2 (N.ltb_lt _ _) Hw).
  change (o_last s1) with (o_last s). change (o_thr s1) with (o_thr s).
  assert (o_pending s1 !! o_last s = Some lb) as -> by (cbn; by rewrite lookup_insert_ne).
  rewrite Ethr. case_bool_decide.
  - intros [= <-]. split_and!; try done.
    + unfold omp_why. change (finished _ (pb_hash pb)) with (finished s (pb_hash pb)). rewrite Hf.
      cbn. by rewrite lookup_delete.
    + cbn. by rewrite delete_insert_delete.
  - destruct (fin_add o s1 (pb_hash pb)) as [s2| |] eqn:E2; ob; [|discriminate|discriminate].
    intros [= <-]. split.
    + apply done_finished. apply fin_add_self in E2; [exact E2|exact Hc].
    + cbn. rewrite lookup_insert. eexists; split; [done|]. set_solver.
Qed.
