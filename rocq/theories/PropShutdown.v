(** Property C64: closing consumers. *)
From Verif Require Import Base Types Wire Kafka Feed SpecFeed Mux Shutdown SpecShutdown ShutdownFacts2.

(** C64.  Nothing is sent on the closed channel and no channel is closed twice, if Close is called once. *)
Theorem C64_no_panic : ∀ up l s, rtc goes (close_init up l) s → length (s_calls s) ≤ 1 → ¬ close_step s None.
Proof. exact close_no_panic. Qed.
Print Assumptions C64_no_panic.

(** C64.  What a partition's goroutine took is on its way to the loop or handled, in order; the loop ends only
    after it has handled everything; until Close is called nothing is left out. *)
Theorem C64_handled : ∀ up l s i x p, rtc goes (close_init up l) s → l !! i = Some x → s_parts s !! i = Some p →
  put_out i (s_done s ++ s_chan s) ++ in_hand p = g_got p ∧ g_got p `sublist_of` x.1 ∧ (s_closers s = [] → g_got p `prefix_of` x.1) ∧
  (up = true → s_loop s = false → put_out i (s_done s) = g_got p).
Proof. exact close_handled. Qed.
Print Assumptions C64_handled.

(** C64.  If the goroutines were running when Close was called, they are over when it returns. *)
Theorem C64_returned_partial : ∀ up l s0 s, rtc goes (close_init up l) s0 → begun s0 → s_calls s0 = [] → rtc goes s0 s → CaBack ∈ s_calls s →
  ended s ∧ ∀ s', rtc goes s s' → map g_got (s_parts s') = map g_got (s_parts s).
Proof. exact close_returned. Qed.
Print Assumptions C64_returned_partial.

(** C64.  Close returns and the loop ends, whatever the order of events, if no partition is waited for. *)
Theorem C64_ends_partial : ∀ l s, rtc goes (close_init true l) s → none_awaited s → length (s_calls s) = 1 →
  comes_to quietly s (λ s', s_calls s' = [CaBack] ∧ s_loop s' = false).
Proof. exact close_ends. Qed.
Print Assumptions C64_ends_partial.

(** C64.  A partition that waits for one that has nothing keeps Close from returning for ever. *)
Theorem C64_in_vain : ∀ s s', waits_in_vain s → s_closed s = false → CaBack ∉ s_calls s → rtc goes s s' →
  CaBack ∉ s_calls s' ∧ s_loop s' = s_loop s.
Proof. exact close_vain. Qed.
Print Assumptions C64_in_vain.

(** C64.  Close never returns if Start has failed, nor once the loop is over. *)
Theorem C64_failed_start : ∀ l s, rtc goes (close_init false l) s → Forall (λ c, c = CaQuit) (s_calls s).
Proof. exact close_failed. Qed.
Print Assumptions C64_failed_start.
Theorem C64_second_call : ∀ s s' j, s_loop s = false → s_calls s !! j = Some CaQuit → rtc goes s s' → s_calls s' !! j = Some CaQuit.
Proof. exact close_late. Qed.
Print Assumptions C64_second_call.

(** C64, websocket.  If Close is called while a connection is read, there is no panic and no other
    connection; when it has returned, only frames that have arrived are still processed and the goroutine ends. *)
Theorem C64_ws_partial : ∀ s s', rtc wgoes wlife_init s → l_phase s = LRead → l_quit s = true → 0 < l_half s → rtc wgoes s s' →
  ¬ wlife_step s' None ∧ l_phase s' ≠ LDial ∧
  (l_half s' = 0 → comes_to wquietly s' (λ s'', l_phase s'' = LOver) ∧
     ∀ s'', rtc wquietly s' s'' → l_read s'' ≤ l_read s' + l_buf s').
Proof. exact ws_close. Qed.
Print Assumptions C64_ws_partial.

(** * Cases *)
Definition m64 (n : Z) : fmsg := FM n [x06] [].
Ltac idle := repeat (apply Forall_cons; split; [cbn; tauto|]); apply Forall_nil; exact I.
Ltac bar := repeat (apply Forall_cons; split; [first [left; reflexivity|right; eexists; reflexivity]|]); apply Forall_nil; exact I.
Tactic Notation "go" uconstr(c) := eapply rtc_l; [eapply c; first [reflexivity | idle | bar]|]; cbn.
Tactic Notation "qgo" uconstr(c) := eapply rtc_l; [split; [eapply c; first [reflexivity | idle | bar]|reflexivity]|]; cbn.
Ltac beg i := go (SBegin _ _ _ _ _ _ _ i _).
Ltac shutp c i := go (SClose _ _ _ _ _ _ _ c i _); go (SShut _ _ _ _ _ _ _ i _); go (SClosed _ _ _ _ _ _ _ c i _).

(** Two calls: the channel is closed twice. *)
Theorem C64_twice_refuted : ∃ l s, rtc goes (close_init true l) s ∧ length (s_calls s) = 2 ∧ close_step s None.
Proof.
  exists [([], 0%Z)]. eexists. split; [unfold close_init; cbn|split].
  { beg 0. go SCall. go SCall. go (SQuit _ _ _ _ _ _ 0). go (SQuit _ _ _ _ _ _ 1). shutp 0 0. go (SOver _ _ _ _ _ _ _ 0 _).
    go (SAll _ _ _ _ _ _ _ 0). go (SFinish _ _ _ _ _ _ 0).
    go (SClose _ _ _ _ _ _ _ 1 0 _). go (SClosed _ _ _ _ _ _ _ 1 0 _). go (SAll _ _ _ _ _ _ _ 1). apply rtc_refl. }
  - reflexivity.
  - eapply (SFinishAgain _ _ _ _ _ _ 1); [reflexivity|idle].
Qed.
Print Assumptions C64_twice_refuted.

(** The goroutine had not been scheduled: Close returns, and a message is handled afterwards. *)
Theorem C64_early_refuted : ∃ l s s', rtc goes (close_init true l) s ∧ CaBack ∈ s_calls s ∧ s_done s = [] ∧ rtc goes s s' ∧ s_done s' = [(0, m64 7)].
Proof.
  exists [([m64 7], 7%Z)]. eexists. eexists. split; [unfold close_init; cbn|split; [|split; [|split]]].
  { go SCall. go (SQuit _ _ _ _ _ _ 0). go (SBack _ _ _ _ _ _ _ 0). apply rtc_refl. }
  - left.
  - reflexivity.
  - beg 0. go (SRecv _ _ _ _ _ _ _ 0 _). go (SRelease _ _ _ _ _ _ _ 0 _). go (SPut _ _ _ _ _ _ 0 _). go STake. apply rtc_refl.
  - reflexivity.
Qed.
Print Assumptions C64_early_refuted.

(** Close waits for the partitions, not for the message loop, which may handle messages after it returned. *)
Theorem C64_loop_refuted : ∃ l s0 s s', rtc goes (close_init true l) s0 ∧ begun s0 ∧ s_calls s0 = [] ∧ rtc goes s0 s ∧ CaBack ∈ s_calls s ∧ s_done s = [] ∧
  rtc goes s s' ∧ s_done s' = [(0, m64 7)].
Proof.
  exists [([m64 7], 7%Z)]. eexists. eexists. eexists. split; [unfold close_init; cbn|split; [|split; [|split; [|split; [|split; [|split]]]]]].
  { beg 0. apply rtc_refl. }
  - apply Forall_singleton. cbn. discriminate.
  - reflexivity.
  - go (SRecv _ _ _ _ _ _ _ 0 _). go (SRelease _ _ _ _ _ _ _ 0 _). go (SPut _ _ _ _ _ _ 0 _). go SCall. go (SQuit _ _ _ _ _ _ 0). shutp 0 0.
    go (SOver _ _ _ _ _ _ _ 0 _). go (SBack _ _ _ _ _ _ _ 0). apply rtc_refl.
  - left.
  - reflexivity.
  - go STake. apply rtc_refl.
  - reflexivity.
Qed.
Print Assumptions C64_loop_refuted.

(** While a partition is closed a message can be let go and the next one handled. *)
Theorem C64_gap_refuted : ∃ l s, rtc goes (close_init true l) s ∧ length (s_calls s) = 1 ∧ l = [([m64 7; m64 8], 7%Z)] ∧ s_done s = [(0, m64 8)].
Proof.
  exists [([m64 7; m64 8], 7%Z)]. eexists. split; [unfold close_init; cbn|split; [|split]].
  { beg 0. go SCall. go (SQuit _ _ _ _ _ _ 0). go (SClose _ _ _ _ _ _ _ 0 0 _). go (SDrop _ _ _ _ _ _ _ 0 _).
    go (SRecv _ _ _ _ _ _ _ 0 _). go (SRelease _ _ _ _ _ _ _ 0 _). go (SPut _ _ _ _ _ _ 0 _). go STake. apply rtc_refl. }
  all: reflexivity.
Qed.
Print Assumptions C64_gap_refuted.

(** An empty partition: Close does not return, whatever happens. *)
Theorem C64_cold_refuted : ∃ l s, rtc goes (close_init true l) s ∧ begun s ∧ s_calls s = [CaQuit] ∧
  ∀ s', rtc goes s s' → CaBack ∉ s_calls s' ∧ s_loop s' = true.
Proof.
  exists [([m64 7], 7%Z); ([], 0%Z)]. eexists. split; [unfold close_init; cbn|split; [|split]].
  { beg 0. beg 1. go (SRecv _ _ _ _ _ _ _ 0 _). go SCall. apply rtc_refl. }
  - repeat (apply Forall_cons; split; [cbn; discriminate|]). by apply Forall_nil.
  - reflexivity.
  - intros s' Hr. eapply C64_in_vain in Hr; [exact Hr| |reflexivity|].
    + eexists 0, 1, _, _, _. split; [reflexivity|]. split; [reflexivity|]. split; [reflexivity|]. split; [reflexivity|]. split; [intros x; cbn; discriminate|]. by apply Forall_nil.
    + cbn. by intros ?%elem_of_list_singleton.
Qed.
Print Assumptions C64_cold_refuted.

(** Several brokers: Start reports success although one member failed to start, and then Close hangs. *)
Theorem C64_mux_refuted : ∃ ups : list bool,
  (mux_start (λ u : bool, (u, if u then None else Some tt)) ups).2 = false ∧ mux_close (map (λ u : bool, if u then Returns else Never) ups) = Never.
Proof. exists [true; false]. done. Qed.
Print Assumptions C64_mux_refuted.

(** Websocket: the connection was lost and dialling has failed; Close uses a nil pointer. *)
Theorem C64_ws_nil_refuted : ∃ s, rtc wgoes wlife_init s ∧ l_read s = 1 ∧ l_half s = 1 ∧ wlife_step s None.
Proof.
  eexists. split; [|split; [|split]].
  { unfold wlife_init. eapply rtc_l; [apply LAgain|]. eapply rtc_l; [apply LConnect|]. eapply rtc_l; [apply LArrive|]. eapply rtc_l; [apply LFrame|].
    eapply rtc_l; [apply LError|]. eapply rtc_l; [apply LAgain|]. eapply rtc_l; [apply LFail|]. eapply rtc_l; [apply LCloseQuit|]. apply rtc_refl. }
  - reflexivity.
  - reflexivity.
  - apply LCloseNil.
Qed.
Print Assumptions C64_ws_nil_refuted.
(** Websocket: Close is called and returns while the consumer dials; it then goes on for as long as it likes. *)
Theorem C64_ws_dial_refuted : ∃ s, rtc wgoes wlife_init s ∧ l_quit s = true ∧ l_half s = 0 ∧ ∀ n, ∃ s', rtc wquietly s s' ∧ l_read s' = l_read s + n.
Proof.
  exists (WL LRead ConnCur true 0 0 true 0). split; [|split; [done|split; [done|]]].
  { unfold wlife_init. eapply rtc_l; [apply LAgain|]. eapply rtc_l; [apply LConnect|]. eapply rtc_l; [apply LError|]. eapply rtc_l; [apply LAgain|].
    eapply rtc_l; [apply LCloseQuit|]. eapply rtc_l; [by apply LCloseConn|]. eapply rtc_l; [apply LConnect|]. apply rtc_refl. }
  intros n. exists (WL LRead ConnCur true 0 n true 0). split; [|done]. induction n as [|n IH]; [apply rtc_refl|].
  eapply rtc_transitive; [exact IH|]. eapply rtc_l; [split; [apply LArrive|done]|]. eapply rtc_l; [split; [apply LFrame|done]|]. apply rtc_refl.
Qed.
Print Assumptions C64_ws_dial_refuted.

(** Two partitions with messages, all under way, one call of Close: the hypotheses of [C64_ends_partial]
    and [C64_returned_partial]. *)
Example C64_case : ∃ l s0 s s', rtc goes (close_init true l) s0 ∧ begun s0 ∧ s_calls s0 = [] ∧ none_awaited s0 ∧
  rtc goes s0 s ∧ none_awaited s ∧ length (s_calls s) = 1 ∧ rtc quietly s s' ∧ s_calls s' = [CaBack] ∧ s_loop s' = false ∧ s_done s' = [(1, m64 3); (0, m64 7)].
Proof.
  exists [([m64 7], 7%Z); ([m64 3; m64 4], 3%Z)]. eexists. eexists. eexists. split; [unfold close_init; cbn|].
  { beg 0. beg 1. go (SRecv _ _ _ _ _ _ _ 0 _). go (SRecv _ _ _ _ _ _ _ 1 _). go (SRelease _ _ _ _ _ _ _ 1 _). go (SPut _ _ _ _ _ _ 1 _). apply rtc_refl. }
  split; [repeat (apply Forall_cons; split; [cbn; discriminate|]); by apply Forall_nil|]. split; [reflexivity|].
  split; [left; bar|]. split; [go SCall; apply rtc_refl|]. split; [left; bar|]. split; [reflexivity|].
  split; [|split; [|split]].
  { qgo (SQuit _ _ _ _ _ _ 0). qgo (SRelease _ _ _ _ _ _ _ 0 _). qgo STake. qgo (SClose _ _ _ _ _ _ _ 0 0 _). qgo (SShut _ _ _ _ _ _ _ 0 _).
  qgo (SClosed _ _ _ _ _ _ _ 0 0 _). qgo (SClose _ _ _ _ _ _ _ 0 1 _). qgo (SDrop _ _ _ _ _ _ _ 1 _). qgo (SShut _ _ _ _ _ _ _ 1 _). qgo (SClosed _ _ _ _ _ _ _ 0 1 _).
  qgo (SAll _ _ _ _ _ _ _ 0). qgo (SPut _ _ _ _ _ _ 0 _). qgo (SOver _ _ _ _ _ _ _ 0 _). qgo (SOver _ _ _ _ _ _ _ 1 _). qgo (SBack _ _ _ _ _ _ _ 0).
  qgo (SFinish _ _ _ _ _ _ 0). qgo STake. qgo SLoopEnd. apply rtc_refl. }
  all: reflexivity.
Qed.
Example C64_ws_case : ∃ s s', rtc wgoes wlife_init s ∧ l_phase s = LRead ∧ l_quit s = true ∧ 0 < l_half s ∧ l_buf s = 2 ∧
  rtc wgoes s s' ∧ l_half s' = 0 ∧ ∃ s'', rtc wquietly s' s'' ∧ l_phase s'' = LOver ∧ l_read s'' = 2.
Proof.
  exists (WL LRead ConnCur true 2 0 true 1), (WL LRead ConnCur false 1 1 true 0). split.
  { unfold wlife_init. eapply rtc_l; [apply LAgain|]. eapply rtc_l; [apply LConnect|]. eapply rtc_l; [apply LArrive|]. eapply rtc_l; [apply LArrive|].
    eapply rtc_l; [apply LCloseQuit|]. apply rtc_refl. }
  do 3 (split; [done || (cbn; lia)|]). split; [done|]. split.
  { eapply rtc_l; [apply LFrame|]. eapply rtc_l; [by apply LCloseConn|]. apply rtc_refl. }
  split; [done|]. exists (WL LOver ConnOld false 0 2 true 0). split; [|done].
  eapply rtc_l; [split; [apply LFrame|done]|]. eapply rtc_l; [split; [apply LError|done]|]. eapply rtc_l; [split; [apply LQuit|done]|]. apply rtc_refl.
Qed.
