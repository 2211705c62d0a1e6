(** C74: the consumer of all partitions of a topic. *)
From Coq Require Import Strings.String.
From Verif Require Import Base Types SpecPipeline TopicConsumer SpecTopic TopicFacts.

(** C74.  Starting a consumer panics exactly for a negative buffer size, and otherwise succeeds exactly if every partition can be
    opened; then there is one goroutine per partition. *)
Theorem C74_new : ∀ b l,
  (new_topic_consumer b (Some l) = Panic ↔ (b < 0)%Z) ∧
  (∀ e s, new_topic_consumer b (Some l) = Ok (e, s) → (e = false ↔ Forall (λ x, x = true) l) ∧ (e = false → length (tc_parts s) = length l)).
Proof. intros b l. split; [apply topic_new|apply topic_new_parts]. Qed.
Print Assumptions C74_new.

(** C74.  In every execution the messages the user received of a partition are, in order, among those the broker delivered for it,
    none twice; before Close is called they are the first of these. *)
Theorem C74_exactly : ∀ b ps e s0 l s i, new_topic_consumer b ps = Ok (e, s0) → t_run s0 l = Some s →
  of_part i (tc_got s) `sublist_of` came i l ∧ (tc_close s = NotClosing → of_part i (tc_got s) `prefix_of` came i l).
Proof. exact topic_exact. Qed.
Print Assumptions C74_exactly.

(** C74.  At most the size of the buffer and one message for each partition are on their way. *)
Theorem C74_bounded : ∀ b ps e s0 l s, new_topic_consumer b ps = Ok (e, s0) → t_run s0 l = Some s →
  in_flight s ≤ Z.to_nat b + length (tc_parts s).
Proof. exact topic_bounded. Qed.
Print Assumptions C74_bounded.

(** C74.  Before Close, a user who keeps receiving inevitably receives every message delivered so far. *)
Theorem C74_delivered : ∀ b ps e s0 l s, new_topic_consumer b ps = Ok (e, s0) → t_run s0 l = Some s → tc_close s = NotClosing →
  inevitably work (λ s', ∀ i, of_part i (tc_got s') = came i l) s.
Proof. exact topic_delivered. Qed.
Print Assumptions C74_delivered.

(** C74.  If Close closed every partition without an error and the user keeps receiving, every goroutine inevitably ends. *)
Theorem C74_ends : ∀ b ps e s0 l s err, new_topic_consumer b ps = Ok (e, s0) → t_run s0 l = Some s → tc_close s = Returned err → TClosePart true ∉ l →
  inevitably work_or_drop (λ s', tc_buf s' = [] ∧ Forall (λ p, tp_run p = false ∧ tp_hand p = None) (tc_parts s')) s.
Proof. exact topic_ends. Qed.
Print Assumptions C74_ends.

(** * Runs of the model *)
Definition tm (k : string) : msg := Msg (str k) [] [] 0%Z.
Definition two (b : Z) : tcons := TC [tp_new; tp_new] (Z.to_nat b) [] [] NotClosing.
Definition stuck_run : list tact := [TIn 0 (tm "a"); TIn 0 (tm "b"); TTake 0; TPut 0; TTake 0; TCloseBegin; TClosePart false; TClosePart false; TCloseEnd false].

(** C74, refuted: a user who stops receiving and calls Close, which reports no error, may leave a goroutine behind that never ends. *)
Theorem C74_leak_refuted : ∃ b s0 l s, new_topic_consumer b (Some [true; true]) = Ok (false, s0) ∧ t_run s0 l = Some s ∧ tc_close s = Returned false ∧
  ∀ s', rtc unreceived s s' → ∃ p, tc_parts s' !! 0 = Some p ∧ tp_run p = true.
Proof.
  destruct (t_run (two 1) stuck_run) as [s|] eqn:E; [|vm_compute in E; discriminate]. exists 1%Z, (two 1), stuck_run, s.
  split; [done|]. split; [done|]. vm_compute in E. injection E as <-. split; [done|]. intros s' R.
  eapply (topic_stuck 0 (tm "b")) in R as (p & Hp & _ & Hr); [by exists p| |done]. eexists. done.
Qed.
Print Assumptions C74_leak_refuted.

(** C74, refuted: messages of different partitions are received in the order the broker delivered them. *)
Definition swapped : list tact := [TIn 0 (tm "a"); TIn 1 (tm "b"); TTake 1; TPut 1; TTake 0; TPut 0; TGet; TGet].
Theorem C74_order_refuted : ∃ b s0 l s, new_topic_consumer b (Some [true; true]) = Ok (false, s0) ∧ t_run s0 l = Some s ∧
  came 0 l = [tm "a"] ∧ came 1 l = [tm "b"] ∧ take 2 l = [TIn 0 (tm "a"); TIn 1 (tm "b")] ∧ tc_got s = [(1, tm "b"); (0, tm "a")].
Proof.
  destruct (t_run (two 2) swapped) as [s|] eqn:E; [|vm_compute in E; discriminate]. exists 2%Z, (two 2), swapped, s. vm_compute in E. injection E as <-.
  repeat split.
Qed.
Print Assumptions C74_order_refuted.

(** C74, refuted: after an error when starting, nothing is left running.  The partitions opened before the one that failed stay
    open, and nobody holds a reference to close them. *)
Theorem C74_failed_start_refuted : ∃ b l s, new_topic_consumer b (Some l) = Ok (true, s) ∧ ∃ p, tc_parts s !! 0 = Some p ∧ tp_run p = true ∧ tp_open p = true.
Proof. exists 4%Z, [true; false]. eexists. split; [reflexivity|]. exists tp_new. done. Qed.
Print Assumptions C74_failed_start_refuted.

(** C74, refuted: Close closes every partition.  It returns at the first error; the remaining ones go on and can still fill the
    channel. *)
Definition failed_close : list tact := [TCloseBegin; TClosePart true; TIn 1 (tm "c"); TTake 1; TPut 1; TGet].
Theorem C74_close_refuted : ∃ b s0 l s, new_topic_consumer b (Some [true; true]) = Ok (false, s0) ∧ t_run s0 l = Some s ∧ tc_close s = Returned true ∧
  (∃ p, tc_parts s !! 1 = Some p ∧ tp_open p = true ∧ tp_run p = true) ∧ tc_got s = [(1, tm "c")].
Proof.
  destruct (t_run (two 2) failed_close) as [s|] eqn:E; [|vm_compute in E; discriminate]. exists 2%Z, (two 2), failed_close, s. vm_compute in E. injection E as <-.
  split; [done|]. split; [done|]. split; [done|]. split; [|done]. eexists. done.
Qed.
Print Assumptions C74_close_refuted.

(** C74: two partitions and no buffer; each message is handed over. *)
Definition handed : list tact := [TIn 0 (tm "a"); TIn 1 (tm "b"); TIn 0 (tm "c"); TTake 0; TTake 1; TPass 1; TPass 0].
Example C74_case : ∃ s, t_run (two 0) handed = Some s ∧ tc_got s = [(1, tm "b"); (0, tm "a")] ∧ of_part 0 (tc_got s) = [tm "a"] ∧
  came 0 handed = [tm "a"; tm "c"] ∧ in_flight s = 0 ∧ inevitably work (λ s', ∀ i, of_part i (tc_got s') = came i handed) s.
Proof.
  destruct (t_run (two 0) handed) as [s|] eqn:E; [|vm_compute in E; discriminate].
  assert (G : inevitably work (λ s', ∀ i, of_part i (tc_got s') = came i handed) s).
  { eapply (C74_delivered 0 (Some [true; true]) false (two 0)); [done|done|]. vm_compute in E. by injection E as <-. }
  exists s. vm_compute in E. injection E as <-. split; [done|]. split; [done|]. split; [done|]. split; [done|]. split; [done|]. exact G.
Qed.
(** C74: closed while a message waits; its goroutine ends once the user receives. *)
Example C74_case_ends : ∃ s, t_run (two 1) stuck_run = Some s ∧ in_flight s = 2 ∧
  inevitably work_or_drop (λ s', tc_buf s' = [] ∧ Forall (λ p, tp_run p = false ∧ tp_hand p = None) (tc_parts s')) s.
Proof.
  destruct (t_run (two 1) stuck_run) as [s|] eqn:E; [|vm_compute in E; discriminate]. exists s. split; [done|].
  assert (G : tc_close s = Returned false ∧ in_flight s = 2) by (vm_compute in E; injection E as <-; done). destruct G as [G1 G2]. split; [done|].
  eapply (C74_ends 1 (Some [true; true]) false (two 1)); [done|done|done|].
  unfold stuck_run. repeat (apply not_elem_of_cons; split; [done|]). apply not_elem_of_nil.
Qed.
