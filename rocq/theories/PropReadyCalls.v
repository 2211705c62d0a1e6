(** Property C65: who hears that a consumer is ready. *)
From Verif Require Import Base ReadyCalls SpecShutdown SpecReadyCalls ReadyCallsFacts.

(** C65.  A call of Ready is answered only if some member has caught up. *)
Theorem C65_truthful : ∀ ms s i j, rc_run ms s → rw_calls s !! j = Some (RTold i) → ∃ m, rw_members s !! i = Some m ∧ caught_up m.
Proof. exact ready_truthful. Qed.
Print Assumptions C65_truthful.

(** C65.  Who asks when some member tells everybody is told, however many calls there are. *)
Theorem C65_told : ∀ ms s j l, rc_run ms s → has tells_all s → rw_calls s !! j = Some (RCollect l) → l = [] → will_be_told s j.
Proof. exact ready_told. Qed.
Print Assumptions C65_told.

(** C65.  A single call is told as soon as some member has caught up. *)
Theorem C65_single_partial : ∀ ms s, rc_run ms s → has caught_up s → length (rw_calls s) = 1 → will_be_told s 0.
Proof. exact ready_told_single. Qed.
Print Assumptions C65_single_partial.

(** C65.  Who waits for Kafka consumers only, and whose signals others have got, waits for ever. *)
Theorem C65_missed : ∀ s s' j l, rw_calls s !! j = Some (RSelect l) → missed (rw_members s) l → rtc rc_step s s' → rw_calls s' !! j = Some (RSelect l).
Proof. exact ready_missed. Qed.
Print Assumptions C65_missed.

(** * Cases *)
Ltac frsh := repeat (apply Forall_cons; split; [unfold fresh; tauto|]); apply Forall_nil; exact I.
Tactic Notation "og" uconstr(c) := eapply rtc_l; [left; eapply c; reflexivity|]; cbn.
Tactic Notation "ig" uconstr(c) := eapply rtc_l; [right; eapply c; reflexivity|]; cbn.

(** Every call is told once a member has caught up: false for two calls of one Kafka consumer. *)
Theorem C65_twice_refuted : ∃ s, rc_run [MNot] s ∧ has caught_up s ∧ length (rw_calls s) = 2 ∧ ∀ s', rtc rc_step s s' → ¬ told s' 1.
Proof.
  assert (R : rc_run [MNot] (RW [MTaken] [RSend 0; RSelect [ChShared]])).
  { split; [frsh|]. og RcCall. og RcCall. ig (RcCollect _ _ 0). ig (RcCollect _ _ 1). ig (RcSelect _ _ 0). ig (RcSelect _ _ 1).
    og (RcCaughtUp _ _ 0). ig (RcShared _ _ 0 _ 0). apply rtc_refl. }
  eexists. split; [exact R|]. split; [apply Exists_cons; left; split; discriminate|]. split; [reflexivity|].
  intros s' Hs [i Hi]. eapply (C65_missed _ _ 1 [ChShared]) in Hs; [rewrite Hi in Hs; discriminate Hs|reflexivity|].
  split; [reflexivity|]. intros [|k] c Hk; [|discriminate Hk]. injection Hk as <-. split; [reflexivity|left; reflexivity].
Qed.
Print Assumptions C65_twice_refuted.
(** A call is told only when all members have caught up: false. *)
Theorem C65_all_refuted : ∃ s, rc_run [MNot; MNot] s ∧ told s 0 ∧ rw_members s !! 0 = Some MNot.
Proof.
  exists (RW [MNot; MTaken] [RTold 1]). split.
  { split; [frsh|]. og RcCall. ig (RcCollect _ _ 0). ig (RcCollect _ _ 0). ig (RcSelect _ _ 0). og (RcCaughtUp _ _ 1). ig (RcShared _ _ 0 _ 1). ig (RcTold _ _ 0). apply rtc_refl. }
  split; [exists 1; reflexivity|reflexivity].
Qed.
Print Assumptions C65_all_refuted.
(** A call that got the Kafka consumer's shared channel just before it was cleared waits for ever, too:
    it is not enough that the consumer tells everybody who asks later. *)
Theorem C65_early_refuted : ∃ s, rc_run [MNot] s ∧ has tells_all s ∧ ∀ s', rtc rc_step s s' → ¬ told s' 1.
Proof.
  assert (R : rc_run [MNot] (RW [MNil] [RTold 0; RSelect [ChShared]])).
  { split; [frsh|]. og RcCall. ig (RcCollect _ _ 0). ig (RcSelect _ _ 0). og (RcCaughtUp _ _ 0). ig (RcShared _ _ 0 _ 0). ig (RcTold _ _ 0).
    og RcCall. ig (RcCollect _ _ 1). ig (RcClear _ _ 0). ig (RcSelect _ _ 1). apply rtc_refl. }
  eexists. split; [exact R|]. split; [apply Exists_cons; left; left; reflexivity|].
  intros s' Hs [i Hi]. eapply (C65_missed _ _ 1 [ChShared]) in Hs; [rewrite Hi in Hs; discriminate Hs|reflexivity|].
  split; [reflexivity|]. intros [|k] c Hk; [|discriminate Hk]. injection Hk as <-. split; [reflexivity|right; reflexivity].
Qed.
Print Assumptions C65_early_refuted.

(** A Kafka and a websocket consumer, two calls.  The first is told by the Kafka consumer; the second, made
    after that, is told by the Kafka consumer or by the websocket one. *)
Example C65_case : ∃ s, rc_run [MNot; MWs false] s ∧ told s 0 ∧ has tells_all s ∧ rw_calls s !! 1 = Some (RCollect []) ∧ will_be_told s 1 ∧
  (∃ s', rtc rc_inner s s' ∧ rw_calls s' !! 1 = Some (RTold 0)) ∧ (∃ s', rtc rc_inner s s' ∧ rw_calls s' !! 1 = Some (RTold 1)).
Proof.
  assert (R : rc_run [MNot; MWs false] (RW [MNil; MWs true] [RTold 0; RCollect []])).
  { split; [frsh|]. og RcCall. ig (RcCollect _ _ 0). ig (RcCollect _ _ 0). ig (RcSelect _ _ 0). og (RcCaughtUp _ _ 0). ig (RcShared _ _ 0 _ 0). ig (RcTold _ _ 0).
    ig (RcClear _ _ 0). og (RcWsReady _ _ 1). og RcCall. apply rtc_refl. }
  eexists. split; [exact R|]. split; [exists 0; reflexivity|]. split; [apply Exists_cons; left; left; reflexivity|]. split; [reflexivity|].
  split; [eapply C65_told; [exact R|apply Exists_cons; left; left; reflexivity|reflexivity|reflexivity]|]. split.
  - eexists. split.
    + eapply rtc_l; [eapply (RcCollect _ _ 1); reflexivity|]; cbn. eapply rtc_l; [eapply (RcCollect _ _ 1); reflexivity|]; cbn.
      eapply rtc_l; [eapply (RcSelect _ _ 1); reflexivity|]; cbn. eapply rtc_l; [eapply (RcOwn _ _ 1 _ 0); reflexivity|]; cbn.
      eapply rtc_l; [eapply (RcTold _ _ 1); reflexivity|]; cbn. apply rtc_refl.
    + reflexivity.
  - eexists. split.
    + eapply rtc_l; [eapply (RcCollect _ _ 1); reflexivity|]; cbn. eapply rtc_l; [eapply (RcCollect _ _ 1); reflexivity|]; cbn.
      eapply rtc_l; [eapply (RcSelect _ _ 1); reflexivity|]; cbn. eapply rtc_l; [eapply (RcBroadcast _ _ 1 _ 1); reflexivity|]; cbn.
      eapply rtc_l; [eapply (RcTold _ _ 1); reflexivity|]; cbn. apply rtc_refl.
    + reflexivity.
Qed.
(** A single call of a consumer with a Kafka member offering its signal. *)
Example C65_single_case : ∃ s, rc_run [MNot] s ∧ has caught_up s ∧ rw_calls s = [RCollect []] ∧ will_be_told s 0.
Proof.
  assert (R : rc_run [MNot] (RW [MOffer] [RCollect []])).
  { split; [frsh|]. og (RcCaughtUp _ _ 0). og RcCall. apply rtc_refl. }
  assert (H : has caught_up (RW [MOffer] [RCollect []])) by (apply Exists_cons; left; split; discriminate).
  eexists. split; [exact R|]. split; [exact H|]. split; [reflexivity|]. eapply C65_single_partial; [exact R|exact H|reflexivity].
Qed.
