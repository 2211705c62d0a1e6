(** Every block in a chain update was received before, without any condition on the input. *)
From Verif Require Import Base Lru Types Ordering SpecChain OrderingBase.

Section from.
Context (L : pending_batch → Prop).

Definition from (s : omp) : Prop :=
  map_Forall (λ _ b, L b) (o_pending s) ∧ Forall L (all_added (o_out s)) ∧ Forall L (all_removed (o_out s)).

Lemma from_sub s s' : sub s s' → from s → from s'.
Proof.
  intros Hs (H1 & H2 & H3). split; [|].
  - intros h b Hb. eapply H1. eapply lookup_weaken; [exact Hb|]. apply Hs.
  - destruct (sub_out _ _ Hs) as (evs & -> & Hev). rewrite all_added_app, all_removed_app.
    assert (all_added evs = [] ∧ all_removed evs = []) as [-> ->].
    { clear -Hev. induction Hev as [|x l Hx _ [IH1 IH2]]; [done|]. destruct x; try done. }
    by rewrite !app_nil_r.
Qed.
Lemma from_last s h w : from s → from (set_last s h w).
Proof. done. Qed.

Lemma emit_loop_from f o s new s' new' :
  from s → Forall L new → emit_loop f o s new = Ok (s', new') → from s' ∧ Forall L new'.
Proof.
  revert s new; induction f as [|f IH]; intros s new Hf Hn; cbn [emit_loop]; [discriminate|].
  destruct (get_child _ _ _ _) as [[h|]| |]; ob; [| |discriminate|discriminate].
  2: { by intros [= <- <-]. }
  destruct (o_pending s !! h) as [pb|] eqn:Ep; [|discriminate].
  destruct (finish_siblings _ _ _) as [s1| |] eqn:E1; ob; [|discriminate|discriminate].
  destruct (fin_add _ _ _) as [s2| |] eqn:E2; ob; [|discriminate|discriminate].
  apply finish_siblings_sub in E1. apply fin_add_sub in E2 as [E2 _]. apply IH.
  - eapply from_sub; [exact E2|]. apply from_last. by eapply from_sub.
  - apply Forall_app. split; [done|]. apply Forall_singleton. by apply (proj1 Hf h).
Qed.
Lemma from_send s added removed : from s → Forall L added → Forall L removed → from (send s (EvUpdate added removed)).
Proof.
  intros (H1 & H2 & H3) Ha Hr. split; [done|]. unfold send; cbn [o_out]. rewrite all_added_app, all_removed_app.
  split; apply Forall_app; (split; [done|]); cbn; by rewrite app_nil_r.
Qed.
Lemma prepare_emit_from o s new old s' :
  from s → Forall L new → Forall L old → prepare_emit o s new old = Ok s' → from s'.
Proof.
  intros Hf Hn Ho. unfold prepare_emit. destruct (last new) as [b|]; ob.
  - destruct (finish_siblings _ _ _) as [s1| |] eqn:E1; ob; [|discriminate|discriminate].
    destruct (fin_add _ _ _) as [s2| |] eqn:E2; ob; [|discriminate|discriminate].
    apply finish_siblings_sub in E1. apply fin_add_sub in E2 as [E2 _].
    destruct (emit_loop _ _ _ _) as [[s3 new']| |] eqn:E3; ob; [|discriminate|discriminate].
    intros [= <-]. apply emit_loop_from in E3 as [E3 E4]; [by apply from_send| |done].
    eapply from_sub; [exact E2|]. eapply from_sub; [exact E1|]. by apply from_last.
  - destruct (emit_loop _ _ _ _) as [[s3 new']| |] eqn:E3; ob; [|discriminate|discriminate].
    intros [= <-]. apply emit_loop_from in E3 as [E3 E4]; [by apply from_send|done|done].
Qed.
Lemma reorg_walk_from f p nh oh newb rv removed added :
  map_Forall (λ _ b, L b) p → L nh → L oh → Forall L newb → Forall L rv →
  reorg_walk f p nh oh newb rv = Ok (RgOk removed added) → Forall L removed ∧ Forall L added.
Proof.
  intros Hp. revert nh oh newb rv; induction f as [|f IH]; intros nh oh newb rv H1 H2 H3 H4; cbn [reorg_walk]; [discriminate|].
  case_bool_decide.
  - destruct (p !! pb_parent nh) as [nh'|] eqn:E; [|discriminate].
    apply IH; [by eapply Hp|done|apply Forall_cons_2; [by eapply Hp|done]|done].
  - case_bool_decide; [by intros [= <- <-]|].
    destruct (p !! pb_parent oh) as [oh'|] eqn:E; [|discriminate].
    apply IH; [done|by eapply Hp|done|by apply Forall_cons_2].
Qed.

Lemma handle_from f o s pb r s' : from s → L pb → handle f o s pb r = Ok s' → from s'.
Proof.
  revert s pb r s'; induction f as [|f IH]; intros s pb r s' Hf Hpb; cbn [handle]; [discriminate|].
  destruct (excluded (o_wl s) pb); [by intros [= <-]|].
  case_bool_decide; [by intros [= <-]|].
  set (s1 := set_pending s _).
  assert (H1 : from s1).
  { destruct Hf as (F1 & F2). split; [|done]. by apply map_Forall_insert_2. }
  destruct (finished s1 (pb_hash pb) && negb r); [by intros [= <-]|].
  case_bool_decide; [apply prepare_emit_from; [done|by apply Forall_singleton|done]|].
  destruct (_ && _ && _); [apply prepare_emit_from; [done|by apply Forall_singleton|done]|].
  destruct (finished s1 (pb_parent pb)).
  - assert (Hlight : ∀ s',
      (s ← fin_add o s1 (pb_hash pb);
        c ← get_child 0 o s (pb_hash pb);
        match c with
        | Some child =>
          s ← match o_pending s !! child with
              | Some cpb => handle f o s cpb true
              | None => Ok s
              end;
          Ok (queue s pb)
        | None => Ok (queue s pb)
        end) = Ok s' → from s').
    { intros s2. destruct (fin_add _ _ _) as [s3| |] eqn:E3; ob; [|discriminate|discriminate].
      apply fin_add_sub in E3 as [E3 _]. assert (from s3) as H3 by by eapply from_sub.
      destruct (get_child _ _ _ _) as [[child|]| |]; ob; [| |discriminate|discriminate].
      - destruct (o_pending s3 !! child) as [cpb|] eqn:Ec.
        + destruct (handle _ _ _ _ _) as [s4| |] eqn:E4; ob; [|discriminate|discriminate].
          intros [= <-]. apply IH in E4; [exact E4|done|by apply (proj1 H3 child)].
        + cbn. by intros [= <-].
      - by intros [= <-]. }
    destruct (o_pending s1 !! o_last s1) as [lb|] eqn:El; [|exact (Hlight s')].
    destruct (_ <? _)%N eqn:Hw; [|exact (Hlight s')].
    destruct (prepare_reorg _ _ _) as [[]| |] eqn:Er; ob; try discriminate.
    + apply reorg_walk_from in Er as [R1 R2]; [|by destruct H1|done|by apply (proj1 H1 (o_last s1))|by apply Forall_singleton|done].
      by apply prepare_emit_from.
    + by intros [= <-].
    + by intros [= <-].
  - destruct (_ <? _)%N; [|by intros [= <-]].
    match goal with |- (if ?b then _ else _) = _ → _ => destruct b end.
    { intros [= <-]. destruct H1 as (F1 & F2). split; [|done]. by apply map_Forall_delete. }
    destruct (fin_add _ _ _) as [s3| |] eqn:E3; ob; [|discriminate|discriminate].
    apply fin_add_sub in E3 as [E3 _]. intros [= <-]. exact (from_sub _ _ E3 H1).
Qed.

Lemma omp_run_from l s s' : Forall L (batches_of l) → from s → omp_run s l = Ok s' → from s'.
Proof.
  revert s; induction l as [|[o i] l IH]; intros s Hl Hf; unfold omp_run; cbn [foldM]; [by intros [= <-]|].
  destruct (omp_step s (o, i)) as [s1| |] eqn:E; ob; [|discriminate|discriminate].
  intros Hrun. destruct i as [pb|n h]; unfold omp_step in E; cbn [fst snd] in *.
  - apply Forall_cons in Hl as [Hpb Hl]. apply handle_from in E; [|done|done].
    by apply (IH s1).
  - injection E as <-. apply (IH (handle_reorg s n h)); [done| |done].
    destruct Hf as (F1 & F2 & F3). split; [done|]. unfold handle_reorg, send; cbn [o_out set_last_hash set_last].
    rewrite all_added_app, all_removed_app. cbn. by rewrite !app_nil_r.
Qed.
End from.

Lemma new_from L cfg s : new_omp cfg = Ok s → from L s.
Proof.
  unfold new_omp. case_bool_decide; [discriminate|]. intros [= <-]. split; [apply map_Forall_empty|]. split; constructor.
Qed.

(** Nothing is delivered that was not received. *)
Lemma delivered_received cfg s0 l s b : new_omp cfg = Ok s0 → omp_run s0 l = Ok s →
  b ∈ all_added (o_out s) ∨ b ∈ all_removed (o_out s) → b ∈ batches_of l.
Proof.
  intros H0 Hr Hb. destruct (omp_run_from (λ b, b ∈ batches_of l) l s0 s) as (_ & F1 & F2); [by apply Forall_forall|by eapply new_from|done|].
  rewrite !Forall_forall in F1, F2. naive_solver.
Qed.
