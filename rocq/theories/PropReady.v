(** C59: ready means caught up.  C60: the blocks of a large reorganisation are read from their topic before the feed goes on. *)
From Verif Require Import Base Lru Types Wire Consumer Kafka SpecKafka Feed SpecFeed Ready SpecReady FeedFacts2 ReadyFacts.

(** * C59 *)
(** The loop handles the messages of a partition in their order, none twice, none left out. *)
Theorem C59_order : ∀ prompt r (os : list opened) s i o, rtc (ready_step prompt r) (ready_init os) s → os !! i = Some o →
  handled s i `prefix_of` op_msgs o.
Proof. exact ready_order. Qed.
Print Assumptions C59_order.
(** The counter of reorganisations is that of the message loop in [Kafka.v]. *)
Theorem C59_counter : ∀ c r topic st now m e st' eff, kc_message c r topic st now m e = Ok (st', eff) →
  wg_after r (kc_wg st) (FM (m_off m) (m_key m) (m_val m)) = Some (kc_wg st').
Proof. exact wg_agrees. Qed.
Print Assumptions C59_counter.
(** When the consumer says that it is ready, the loop has handled every message that was there when the partitions
    were opened, provided that no goroutine sits on a message for as long as the timer of the loop. *)
Theorem C59_caught_up_partial : ∀ r (os : list opened) s, Forall opened_from os → rtc (ready_step true r) (ready_init os) s → sent s →
  ∀ i o x, os !! i = Some o → x ∈ op_msgs o → (fm_off x < op_newest o)%Z → x ∈ handled s i.
Proof.
  intros r os s Hos H Hs i o x Ho Hx Hlt. rewrite Forall_lookup in Hos. eapply ready_caught_up; [exact H|done|done| |done|cbv iota; lia]. by apply opened_from_ok, (Hos i).
Qed.
Print Assumptions C59_caught_up_partial.
(** Whatever the scheduler does, at most the last of them is missing in each partition. *)
Theorem C59_but_last : ∀ r (os : list opened) s, Forall opened_from os → rtc (ready_step false r) (ready_init os) s → sent s →
  ∀ i o x, os !! i = Some o → x ∈ op_msgs o → (fm_off x < op_newest o - 1)%Z → x ∈ handled s i.
Proof.
  intros r os s Hos H Hs i o x Ho Hx Hlt. rewrite Forall_lookup in Hos. eapply ready_caught_up; [exact H|done|done| |done|cbv iota; lia]. by apply opened_from_ok, (Hos i).
Qed.
Print Assumptions C59_but_last.
(** If the last message of each partition is the one before its end, the signal comes: there
    is a step until it has come, and only so many. *)
Theorem C59_signalled_partial : ∀ prompt (os : list opened) n s,
  Forall (λ o, opened_from o ∧ ends_held o ∧ Forall no_reorg_done (op_msgs o)) os → nsteps (ready_step prompt false) n (ready_init os) s →
  n ≤ 4 * sum_list_with (λ o, length (op_msgs o)) os + 3 ∧ (¬ sent s → ∃ s', ready_step prompt false s s').
Proof.
  intros prompt os n s Hos H. split; [by eapply ready_bounded|]. eapply ready_progress; [|by eapply rtc_nsteps_2].
  eapply Forall_impl; [exact Hos|]. intros o (Ho & ? & ?). split; [by apply opened_from_ok|done].
Qed.
Print Assumptions C59_signalled_partial.
(** A partition that delivers nothing from its newest offset - 1 on keeps the consumer from ever being ready: an empty partition,
    or one whose last messages have been removed, or are markers that are not delivered. *)
Theorem C59_never : ∀ prompt r (os : list opened) s i o, rtc (ready_step prompt r) (ready_init os) s → os !! i = Some o →
  Forall (λ m, fm_off m < op_newest o - 1)%Z (op_msgs o) → ¬ sent s.
Proof. intros prompt r os s i o H Ho Hm Hs. unfold sent in Hs. by rewrite (ready_never _ _ _ _ _ _ H Ho Hm) in Hs. Qed.
Print Assumptions C59_never.

(** Two partitions, one with a message that comes later *)
Definition ry_m (k : list byte) (off : Z) : fmsg := FM off k [].
Definition ry_l0 : flog := FL (Prt 2 5) [ry_m [x00] 2; ry_m [x00] 3; ry_m [] 4].
Definition ry_l1 : flog := FL (Prt 0 2) [ry_m [x01] 1].
Definition ry_o0 : opened := Op [ry_m [x00] 3; ry_m [] 4; ry_m [x02] 5] 3 5 6.
Definition ry_o1 : opened := Op [ry_m [x01] 1] 0 2 2.
Lemma ry_open : open_part (Some 4%Z) 1 1%N true ry_l0 [ry_m [x02] 5] 6 = Some ry_o0 ∧ open_part (Some 1%Z) 1 1%N true ry_l1 [] 2 = Some ry_o1.
Proof. split; reflexivity. Qed.
Ltac ry_sorted := try lia; repeat (constructor; cbn; try lia).
Lemma ry_from : Forall opened_from [ry_o0; ry_o1].
Proof.
  constructor; [|constructor; [|constructor]].
  - exists (Some 4%Z), 1%Z, 1%N, true, ry_l0, [ry_m [x02] 5], 6%Z. split; [|split; [|reflexivity]]; unfold log_ok, arrives, partition_ok, held; cbn; repeat split; ry_sorted.
  - exists (Some 1%Z), 1%Z, 1%N, true, ry_l1, [], 2%Z. split; [|split; [|reflexivity]]; unfold log_ok, arrives, partition_ok, held; cbn; repeat split; ry_sorted.
Qed.
Ltac ry_warm := cbn; repeat first [apply Forall_nil_2 | apply Forall_cons_2; [first [by left|right; by eexists]|]].
(** The consumer is ready when it has seen the message at offset 4 of the first partition; that at 5 comes later. *)
Example C59_case : Forall (λ o, opened_from o ∧ ends_held o ∧ Forall no_reorg_done (op_msgs o)) [ry_o0; ry_o1] ∧
  ∃ s, rtc (ready_step true false) (ready_init [ry_o0; ry_o1]) s ∧ sent s ∧
    handled s 0 = [ry_m [x00] 3; ry_m [] 4] ∧ handled s 1 = [ry_m [x01] 1].
Proof.
  split.
  { assert (H := ry_from). rewrite Forall_lookup in H. constructor; [|constructor; [|constructor]].
    - split; [by apply (H 0)|]. split; [by eexists|]. repeat constructor; done.
    - split; [by apply (H 1)|]. split; [by eexists|]. repeat constructor; done. }
  eexists. split.
  - eapply rtc_l. { eapply (RArrive _ _ _ _ _ _ _ 0); [reflexivity|cbn; lia]. }
    eapply rtc_l. { eapply (RArrive _ _ _ _ _ _ _ 1); [reflexivity|cbn; lia]. }
    eapply rtc_l. { eapply (RRelease _ _ _ _ _ _ _ 1 _ _ _ _ 2); [reflexivity|ry_warm|cbn; lia|cbn; lia]. }
    eapply rtc_l. { eapply (RPut _ _ _ _ _ _ _ 1); reflexivity. }
    eapply rtc_l. { eapply (RRelease _ _ _ _ _ _ _ 0 _ _ _ _ 5); [reflexivity|ry_warm|cbn; lia|cbn; lia]. }
    eapply rtc_l. { eapply (RPut _ _ _ _ _ _ _ 0); reflexivity. }
    eapply rtc_l. { eapply (RPass _ _ _ _ _ _ _ 0 _ _ _ _ _ 5); [reflexivity|by left|cbn; lia|cbn; lia]. }
    eapply rtc_l. { eapply (RPut _ _ _ _ _ _ _ 0); reflexivity. }
    eapply rtc_l. { eapply RTake; reflexivity. }
    eapply rtc_l. { eapply RTake; reflexivity. }
    eapply rtc_l. { eapply RParts; by repeat constructor. }
    eapply rtc_l. { eapply RTake; reflexivity. }
    eapply rtc_l. { eapply RTimer. intros _. by repeat constructor. }
    eapply rtc_l. { eapply RReady. }
    apply rtc_refl.
  - split; [done|]. split; reflexivity.
Qed.
(** The goroutine of a partition says that it is ready before it hands over the message (609 before 613). *)
Theorem C59_last_message_refuted : ∃ (os : list opened) s i o x, Forall (λ o, opened_from o ∧ ends_held o ∧ Forall no_reorg_done (op_msgs o)) os ∧
  rtc (ready_step false false) (ready_init os) s ∧ sent s ∧ os !! i = Some o ∧ x ∈ op_msgs o ∧ (fm_off x < op_newest o)%Z ∧ x ∉ handled s i.
Proof.
  exists [ry_o1]. eexists. exists 0, ry_o1, (ry_m [x01] 1). split; [|split].
  - assert (H := ry_from). rewrite Forall_lookup in H. constructor; [|constructor]. split; [by apply (H 1)|]. split; [by eexists|]. repeat constructor; done.
  - eapply rtc_l. { eapply (RArrive _ _ _ _ _ _ _ 0); [reflexivity|cbn; lia]. }
    eapply rtc_l. { eapply (RRelease _ _ _ _ _ _ _ 0 _ _ _ _ 2); [reflexivity|ry_warm|cbn; lia|cbn; lia]. }
    eapply rtc_l. { eapply RParts; by repeat constructor. }
    eapply rtc_l. { eapply RTimer. done. }
    eapply rtc_l. { eapply RReady. }
    apply rtc_refl.
  - split; [done|]. split; [done|]. split; [apply elem_of_list_here|]. split; [cbn; lia|]. by apply not_elem_of_nil.
Qed.
Print Assumptions C59_last_message_refuted.
(** A new topic, or one with an idle partition: the consumer never says that it is ready. *)
Theorem C59_empty_refuted : ∃ (os : list opened), Forall opened_from os ∧ os ≠ [] ∧ ∀ prompt r s, rtc (ready_step prompt r) (ready_init os) s → ¬ sent s.
Proof.
  exists [ry_o1; Op [] (-1) 0 0]. split; [|split; [done|]].
  - assert (H := ry_from). rewrite Forall_lookup in H. constructor; [by apply (H 1)|]. constructor; [|constructor].
    exists None, 0%Z, zero_hash, true, (FL (Prt 0 0) []), [], 0%Z. split; [|split; [|reflexivity]]; unfold log_ok, arrives, partition_ok, held; cbn; repeat split; ry_sorted.
  - intros prompt r s H. by eapply (C59_never prompt r _ s 1 _ H eq_refl), Forall_nil.
Qed.
Print Assumptions C59_empty_refuted.

(** * C60 *)
(** A reorganisation whose topic is opened before its second message: when the second consumer is ready, it has handled the topic from
    beginning to end; if the last message is the one before the end, that comes. *)
Theorem C60_early_partial : ∀ (l : flog) (new : list fmsg) fin get o n s, log_ok l → arrives l new fin → opened_early l → get = true ∨ fl_msgs l = [] →
  open_reorg get l new fin = Some o → reorg_topic (fl_msgs l ++ new) → nsteps (ready_step true true) n (ready_init [o]) s →
  (sent s → (rs_done s).*2 = fl_msgs l ++ new) ∧
  (ends_held o → n ≤ 4 * length (fl_msgs l ++ new) + 3 ∧ (¬ sent s → ∃ s', ready_step true true s s')).
Proof.
  intros l new fin get o n s Hok Ha He Hg Ho Hr H. assert (H' := rtc_nsteps_2 _ _ _ H). split; [by eapply reorg_early_complete|]. intros Hend. split.
  - assert (Hb := ready_bounded _ _ _ _ _ H). cbn in Hb. rewrite (open_early _ _ _ _ _ Hok He Hg Ho) in Hb. lia.
  - eapply reorg_early_progress; [exact Hok|exact He|exact Hg|exact Ho|exact Hr| |done|done]. by eapply open_ok.
Qed.
Print Assumptions C60_early_partial.
(** If the topic is complete when the second consumer comes to it, nothing of it is ever handled, and the only thing that can happen
    to the message loop is a panic, which does happen in some executions (a WaitGroup below zero). *)
Theorem C60_late_lost : ∀ prompt (l : flog) (new : list fmsg) fin o s, log_ok l → opened_late l → open_reorg true l new fin = Some o →
  rtc (ready_step prompt true) (ready_init [o]) s → rs_done s = [].
Proof. exact reorg_late_lost. Qed.
Print Assumptions C60_late_lost.
Theorem C60_late_panic : ∀ prompt (l : flog) (new : list fmsg) fin o, log_ok l → opened_late l → (pt_newest (fl_part l) ≤ fin)%Z →
  open_reorg true l new fin = Some o →
  ∃ s i m ch, rtc (ready_step prompt true) (ready_init [o]) s ∧ rs_chan s = (i, m) :: ch ∧ wg_after true (rs_wg s) m = None.
Proof. exact reorg_late_panic. Qed.
Print Assumptions C60_late_panic.

(** The beginning, two blocks, the end *)
Definition rg_topic : list fmsg := [ry_m [ReorgType; x11] 0; ry_m [x00; x01] 1; ry_m [x00; x02] 2; ry_m [ReorgCompleteType; x11] 3].
Definition rg_early : flog := FL (Prt 0 1) (take 1 rg_topic).
Definition rg_late : flog := FL (Prt 0 4) rg_topic.
Lemma rg_ok : log_ok rg_early ∧ log_ok rg_late ∧ arrives rg_early (drop 1 rg_topic) 4 ∧ reorg_topic rg_topic.
Proof.
  split; [|split; [|split]]; unfold log_ok, arrives, partition_ok, held; cbn; try (repeat split; ry_sorted).
  eexists _, [_; _], _. split; [reflexivity|]. split; [reflexivity|]. split; [reflexivity|]. by repeat constructor.
Qed.
Example C60_case : ∃ o, open_reorg true rg_early (drop 1 rg_topic) 4 = Some o ∧ opened_early rg_early ∧ ends_held o ∧
  ∃ s, rtc (ready_step true true) (ready_init [o]) s ∧ sent s ∧ (rs_done s).*2 = rg_topic.
Proof.
  eexists. split; [reflexivity|]. split; [right; by eexists|]. split; [by eexists|]. eexists. split.
  - eapply rtc_l. { eapply (RArrive _ _ _ _ _ _ _ 0); [reflexivity|cbn; lia]. }
    eapply rtc_l. { eapply (RRelease _ _ _ _ _ _ _ 0 _ _ _ _ 1); [reflexivity|ry_warm|cbn; lia|cbn; lia]. }
    eapply rtc_l. { eapply (RPut _ _ _ _ _ _ _ 0); reflexivity. }
    eapply rtc_l. { eapply RTake; reflexivity. }
    eapply rtc_l. { eapply RParts; by repeat constructor. }
    eapply rtc_l. { eapply RTimer. intros _. by repeat constructor. }
    eapply rtc_l. { eapply (RPass _ _ _ _ _ _ _ 0 _ _ _ _ _ 2); [reflexivity|by left|cbn; lia|cbn; lia]. }
    eapply rtc_l. { eapply (RPut _ _ _ _ _ _ _ 0); reflexivity. }
    eapply rtc_l. { eapply RTake; reflexivity. }
    eapply rtc_l. { eapply (RPass _ _ _ _ _ _ _ 0 _ _ _ _ _ 4); [reflexivity|by left|cbn; lia|cbn; lia]. }
    eapply rtc_l. { eapply (RPut _ _ _ _ _ _ _ 0); reflexivity. }
    eapply rtc_l. { eapply RTake; reflexivity. }
    eapply rtc_l. { eapply (RPass _ _ _ _ _ _ _ 0 _ _ _ _ _ 4); [reflexivity|by left|cbn; lia|cbn; lia]. }
    eapply rtc_l. { eapply (RPut _ _ _ _ _ _ _ 0); reflexivity. }
    eapply rtc_l. { eapply RTake; reflexivity. }
    eapply rtc_l. { eapply RReady. }
    apply rtc_refl.
  - split; reflexivity.
Qed.
(** The same topic, complete when it is opened: the second consumer reads its last message only, and nothing is handled. *)
Theorem C60_late_refuted : ∃ (l : flog) fin o, log_ok l ∧ arrives l [] fin ∧ open_reorg true l [] fin = Some o ∧ reorg_topic (fl_msgs l) ∧ ends_held o ∧
  (∀ prompt s, rtc (ready_step prompt true) (ready_init [o]) s → rs_done s = []) ∧
  ∃ s i m ch, rtc (ready_step true true) (ready_init [o]) s ∧ rs_chan s = (i, m) :: ch ∧ wg_after true (rs_wg s) m = None.
Proof.
  assert (Hl : opened_late rg_late) by (by eexists). destruct rg_ok as (_ & Hok & _ & Hr).
  exists rg_late, 4%Z. eexists. split; [exact Hok|]. split; [unfold arrives; cbn; split; [constructor|]; split; [constructor|lia]|]. split; [reflexivity|].
  split; [exact Hr|]. split; [by eexists|]. split.
  - intros prompt s. by apply (reorg_late_lost prompt rg_late [] 4).
  - apply (reorg_late_panic true rg_late [] 4); [exact Hok|exact Hl|cbn; lia|reflexivity].
Qed.
Print Assumptions C60_late_refuted.
(** Even if it is opened early the second consumer can be ready at once, when its goroutine is slower than the timer. *)
Theorem C60_hasty_refuted : ∃ (l : flog) (new : list fmsg) fin o s, log_ok l ∧ arrives l new fin ∧ opened_early l ∧ open_reorg true l new fin = Some o ∧
  reorg_topic (fl_msgs l ++ new) ∧ rtc (ready_step false true) (ready_init [o]) s ∧ sent s ∧ rs_done s = [].
Proof.
  destruct rg_ok as (Hok & _ & Ha & Hr). exists rg_early, (drop 1 rg_topic), 4%Z. do 2 eexists. split; [exact Hok|]. split; [exact Ha|].
  split; [right; by eexists|]. split; [reflexivity|]. split; [exact Hr|]. split.
  - eapply rtc_l. { eapply (RArrive _ _ _ _ _ _ _ 0); [reflexivity|cbn; lia]. }
    eapply rtc_l. { eapply (RRelease _ _ _ _ _ _ _ 0 _ _ _ _ 1); [reflexivity|ry_warm|cbn; lia|cbn; lia]. }
    eapply rtc_l. { eapply RParts; by repeat constructor. }
    eapply rtc_l. { eapply RTimer. done. }
    eapply rtc_l. { eapply RReady. }
    apply rtc_refl.
  - split; reflexivity.
Qed.
Print Assumptions C60_hasty_refuted.
