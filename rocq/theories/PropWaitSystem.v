(** Property C63: a consumer with its waiter. *)
From Coq Require Import Strings.String.
From Verif Require Import Base Lru Types Avro Wire SpecWire GoPath Producer SpecBlock Consumer SpecCollect Ordering SpecChain
  System SpecSystem SystemFacts2 PublishFacts SpecToken WsSystem Websocket Waiter SpecWaiter WaiterFacts4 WaitSystem SpecWaitSystem OrderingFrom WaitSystemFacts WaitSystemFacts2
  ExampleBlock ExampleSystem PropWsSystem.

(** C63.  The ordering layer invents nothing: whatever it is given, every block of an update was
    received before. *)
Theorem C63_received : ∀ cfg s0 l s pb, new_omp cfg = Ok s0 → omp_run s0 l = Ok s →
  pb ∈ all_added (o_out s) ∨ pb ∈ all_removed (o_out s) → pb ∈ batches_of l.
Proof. exact delivered_received. Qed.
Print Assumptions C63_received.

(** C63.  Whatever arrives, the waiter never panics, and a wait that returned Success was for a block
    (by hash or by number) that was in a delivered update and on which the application called Done. *)
Theorem C63_success : ∀ c cfg j, sys_joint c cfg j → ∃ w, wrun (j_tr j) w_init = Ok w ∧
  ∀ q k, w_qs w !! q = Some (QDone k Success) →
  ∃ pb, pb ∈ j_done j ∧ (pb ∈ all_added (sys_upd (j_y j)) ∨ pb ∈ all_removed (sys_upd (j_y j))) ∧
    match k with KHash h => pb_hash pb = h | KNum n => pb_num pb = n end.
Proof. exact sys_truthful. Qed.
Print Assumptions C63_success.
Theorem C63_ws_success : ∀ c cfg j, ws_joint c cfg j → ∃ w, wrun (j_tr j) w_init = Ok w ∧
  ∀ q k, w_qs w !! q = Some (QDone k Success) →
  ∃ pb, pb ∈ j_done j ∧ (pb ∈ all_added (ws_upd (j_y j)) ∨ pb ∈ all_removed (ws_upd (j_y j))) ∧
    match k with KHash h => pb_hash pb = h | KNum n => pb_num pb = n end.
Proof. exact ws_truthful. Qed.
Print Assumptions C63_ws_success.

(** C63.  After the application called Done on a block that was announced under one channel only,
    nobody is left waiting for its hash, and a new wait ends at once with Success, or with NotFound if
    the waiter has not got the announcement or the block's number was completed a minute ago. *)
Theorem C63_answered_partial : ∀ c cfg j w pb, sys_joint c cfg j → pb ∈ j_done j →
  (∀ p n ch p' n' ch', EWaiter (pb_hash pb) p n ch ∈ sys_out (j_y j) → EWaiter (pb_hash pb) p' n' ch' ∈ sys_out (j_y j) → ch' = ch) →
  wrun (j_tr j) w_init = Ok w → settled_wait (j_tr j) (j_done j) w pb.
Proof. exact sys_answered. Qed.
Print Assumptions C63_answered_partial.
Theorem C63_ws_answered_partial : ∀ c cfg j w pb, ws_joint c cfg j → pb ∈ j_done j →
  (∀ p n ch p' n' ch', EWaiter (pb_hash pb) p n ch ∈ ws_out (j_y j) → EWaiter (pb_hash pb) p' n' ch' ∈ ws_out (j_y j) → ch' = ch) →
  wrun (j_tr j) w_init = Ok w → settled_wait (j_tr j) (j_done j) w pb.
Proof. exact ws_answered. Qed.
Print Assumptions C63_ws_answered_partial.

(** C63.  A consumer of messages announces a block again only after a reorg message or after it has
    handed over 2*ReorgThreshold other blocks. *)
Theorem C63_announced_apart : ∀ c ins st, consumer_run c ins st → (∀ m, m ∈ messages ins → ¬ reorg_type m) →
  apart (Z.to_nat (2 * mc_thr c)) (mp_out st).
Proof. exact announced_apart. Qed.
Print Assumptions C63_announced_apart.

(** C63, from the producer to the waiter.  A chain of at most 2*ReorgThreshold blocks (as in C44), all of
    whose messages were delivered and taken; the application called Done on what was added: every block
    of the chain is there with its data, and every wait for it is answered. *)
Theorem C63_chain : ∀ mt base num w old new c cfg,
  let bs := old ++ new in
  chain_from base num w bs → NoDup (base :: map bk_hash bs) → (∀ b, b ∈ bs → wf_block mt b) →
  cfg_last_hash cfg = end_hash base old → cfg_last_weight cfg = end_weight w old → cfg_last_hash cfg ≠ zero_hash →
  (∀ b, b ∈ bs → (0 ≤ ba_num (bk_args b))%Z ∧
     ∀ h, cfg_whitelist cfg !! ba_num (bk_args b) = Some h → h = bk_hash b) →
  (Z.of_nat (length bs) ≤ 2 * mc_thr c)%Z →
  ∀ j, sys_joint c cfg j → only_from mt bs (messages (y_ins (j_y j))) →
  (∀ b kd, b ∈ new → needed mt b (mc_tracked c) kd → delivered (messages (y_ins (j_y j))) kd) →
  batches_of (y_taken (j_y j)) = sent_batches (mp_out (y_mp (j_y j))) →
  (∀ pb, pb ∈ all_added (o_out (y_omp (j_y j))) → pb ∈ j_done j) →
  ∃ ws, wrun (j_tr j) w_init = Ok ws ∧
  ∀ b, b ∈ new → ∃ pb, pb ∈ all_added (o_out (y_omp (j_y j))) ∧ exact mt b (mc_tracked c) pb ∧
    settled_wait (j_tr j) (j_done j) ws pb.
Proof. exact chain_answered. Qed.
Print Assumptions C63_chain.

(** * Cases *)
(** With two websocket upstreams every block is announced twice; the second announcement replaces the
    channel of the first, and is never completed.  The block is delivered and the application
    calls Done, but a wait for its hash that begins afterwards runs into its timeout; a wait for its
    number succeeds. *)
Definition two63 : list wact := [XFrame 0 (FNote (IBatch wx1)); XFrame 1 (FNote (IBatch wx1)); XTake; XTake].
Definition before63 : list waction := [AAnnounce 101 1 0; AAnnounce 101 1 1; ARecv; ARecv].
Definition after63 : list waction := [AWakeHash 1; ALookup 0 (KHash 101) 50; ASelect 0 false; ALookup 1 (KNum 1) 50; ASelect 1 false; ATick 50; ATimer 0].
Theorem C63_two_upstreams_refuted : ∃ c cfg j w pb, ws_joint c cfg j ∧ batches_of (w_taken (j_y j)) = sent_batches (ws_out (j_y j)) ∧
  all_added (ws_upd (j_y j)) = [pb] ∧ pb_hash pb = 101%N ∧ j_done j = [pb] ∧
  j_tr j = before63 ++ [ADone 0] ++ after63 ∧ wrun (j_tr j) w_init = Ok w ∧
  w_qs w !! 0%N = Some (QDone (KHash 101) Timeout) ∧ w_qs w !! 1%N = Some (QDone (KNum 1) Success).
Proof.
  destruct (exec_with (λ y, ((announcements (ws_out y), (λ pb, (pb_hash pb, pb_wait pb)) <$> all_added (ws_upd y)),
      bool_decide (length (batches_of (w_taken y)) = length (sent_batches (mp_out (w_mp y))))))
    (([AAnnounce 101 1 0; AAnnounce 101 1 1], [(101%N, Some 0%N)]), true) mc57 cfg57 2 two63) as (y & Hrun & E); [done|vm_compute; reflexivity|].
  apply pair_eq in E as [E E3]. apply pair_eq in E as [E1 E2].
  destruct (all_added (ws_upd y)) as [|pb [|]] eqn:Ea; try discriminate E2. cbn in E2. injection E2 as Eh Ew.
  exists mc57, cfg57. destruct (run_exists (before63 ++ [ADone 0] ++ after63) (λ w, w_qs w !! 0%N = Some (QDone (KHash 101) Timeout) ∧ w_qs w !! 1%N = Some (QDone (KNum 1) Success)))
    as (w & Hw & Hq); [by vm_compute|].
  exists (Joint y (before63 ++ [ADone 0] ++ after63) [pb]), w, pb. cbn [j_y j_tr j_done].
  split; [|split; [|split; [exact Ea|split; [exact Eh|split; [reflexivity|split; [reflexivity|split; [exact Hw|exact Hq]]]]]]].
  - clear Hw Hq. destruct Hrun as (y0 & H0 & Hr). exists y0. split; [exists y0; split; [done|apply rtc_refl]|].
    assert (Hn : ws_out y0 = []).
    { destruct H0 as (_ & Hn & _). unfold ws_out. revert Hn. unfold mp_new. case_bool_decide; [|discriminate]. by intros [= <-]. }
    eapply rtc_transitive; [eapply (joint_lift ws_step ws_out ws_upd (ws_run mc57 cfg57)); [apply ws_reach| | |exact Hr]|].
    + intros a b _ Hs. by apply ws_grows.
    + exists y0. split; [done|apply rtc_refl].
    + rewrite Hn. cbn [length app]. rewrite drop_0, E1.
      eapply rtc_transitive; [apply (joint_internal _ _ _ _ _ _ [ARecv; ARecv]); by repeat constructor|].
      eapply rtc_l; [apply (JDone ws_step ws_out ws_upd y _ _ pb); left; rewrite Ea; apply elem_of_list_here|].
      unfold done_action. rewrite Ew.
      exact (joint_internal ws_step ws_out ws_upd y (before63 ++ [ADone 0]) [pb] after63 ltac:(repeat constructor)).
  - clear Hw Hq. destruct (WsSystemFacts.ws_run_inv _ _ _ Hrun) as [_ (evs & Hc & _)]. destruct (WsSystemFacts.co_prefix _ _ _ _ _ Hc) as (r & Er).
    apply (bool_decide_eq_true_1 _) in E3. unfold ws_out. rewrite Er in E3 |- *. rewrite app_length in E3. destruct r; [by rewrite app_nil_r|cbn in E3; lia].
Qed.
Print Assumptions C63_two_upstreams_refuted.

(** The two blocks of C44's case.  The waits 0 (by hash) and 1 (by number) begin before the
    application is done, the wait 2 after that; all succeed, and so do all hypotheses of [C63_chain]. *)
Definition early63 : list waction := [ARecv; ARecv; ALookup 0 (KHash 3) 50; ASelect 0 false; ALookup 1 (KNum 7) 50; ASelect 1 false; ATick 20].
Definition late63 : list waction := [AWakeHash 3; ALookup 2 (KHash 1) 50; ASelect 2 true].
Definition trace63 : list waction := [AAnnounce 3 8 0; AAnnounce 1 7 1] ++ early63 ++ [ADone 1; ADone 0] ++ late63.
Example C63_case : ∃ j w, sys_joint ex_all sx_cfg j ∧ j_tr j = trace63 ∧
  only_from ex_mt ([] ++ [sx_b1; sx_b2]) (messages (y_ins (j_y j))) ∧
  (∀ b kd, b ∈ [sx_b1; sx_b2] → needed ex_mt b (mc_tracked ex_all) kd → delivered (messages (y_ins (j_y j))) kd) ∧
  batches_of (y_taken (j_y j)) = sent_batches (mp_out (y_mp (j_y j))) ∧
  (∀ pb, pb ∈ all_added (o_out (y_omp (j_y j))) → pb ∈ j_done j) ∧
  (Z.of_nat (length ([] ++ [sx_b1; sx_b2])) ≤ 2 * mc_thr ex_all)%Z ∧
  wrun (j_tr j) w_init = Ok w ∧
  w_qs w !! 0%N = Some (QDone (KHash 3) Success) ∧ w_qs w !! 1%N = Some (QDone (KNum 7) Success) ∧ w_qs w !! 2%N = Some (QDone (KHash 1) Success).
Proof.
  destruct sx_sys as (st & s & l & Hx & Hrun & Hall).
  assert (Hv : match sx_run with Ok (st, s, l) => announcements (mp_out st) = [AAnnounce 3 8 0; AAnnounce 1 7 1] ∧
     (λ pb, (pb_hash pb, pb_wait pb)) <$> all_added (o_out s) = [(1%N, Some 1%N); (3%N, Some 0%N)] | _ => False end) by (vm_compute; split; reflexivity).
  rewrite Hx in Hv. clear Hx. destruct Hv as [E1 E2].
  destruct (all_added (o_out s)) as [|pb1 [|pb2 [|]]] eqn:Ea; try discriminate E2. cbn in E2. injection E2 as Eh1 Ew1 Eh2 Ew2.
  destruct (run_exists trace63 (λ w, w_qs w !! 0%N = Some (QDone (KHash 3) Success) ∧ w_qs w !! 1%N = Some (QDone (KNum 7) Success) ∧
     w_qs w !! 2%N = Some (QDone (KHash 1) Success))) as (w & Hw & Hq); [by vm_compute|].
  set (y := Sys st s (ex_inputs sx_msgs) l) in *.
  exists (Joint y trace63 [pb1; pb2]), w. cbn [j_y j_tr j_done y y_ins y_taken y_mp y_omp].
  assert (E : messages (ex_inputs sx_msgs) = sx_msgs).
  { unfold ex_inputs. generalize sx_msgs as ms. induction ms as [|m ms IH]; [done|]. cbn. by rewrite <- IH at 2. }
  assert (Hof : only_from ex_mt ([] ++ [sx_b1; sx_b2]) sx_msgs) by (apply (copies_only ex_mt _ sx_replicas); [exact sx_wf|exact sx_replica|exact sx_copies]).
  split; [|split; [reflexivity|split; [by rewrite E|split; [|split; [exact Hall|split; [by rewrite Ea|split; [by vm_compute|split; [exact Hw|exact Hq]]]]]]]].
  - clear Hw Hq E Hof. destruct Hrun as (y0 & H0 & Hr). exists y0. split; [exists y0; split; [done|apply rtc_refl]|].
    assert (Hn : sys_out y0 = []).
    { destruct H0 as (_ & Hn & _). unfold sys_out. revert Hn. unfold mp_new. case_bool_decide; [|discriminate]. by intros [= <-]. }
    eapply rtc_transitive; [eapply (joint_lift (sys_step ex_all) sys_out sys_upd (sys_run ex_all sx_cfg)); [apply sys_reach|apply sys_out_grows| |exact Hr]|].
    + exists y0. split; [done|apply rtc_refl].
    + rewrite Hn. cbn [length app]. rewrite drop_0. change (sys_out y) with (mp_out st). rewrite E1.
      eapply rtc_transitive; [apply (joint_internal _ _ _ _ _ _ early63); repeat constructor|].
      eapply rtc_l; [apply (JDone (sys_step ex_all) sys_out sys_upd y _ _ pb1); left; unfold sys_upd; cbn [y y_omp]; rewrite Ea; apply elem_of_list_here|].
      eapply rtc_l; [apply (JDone (sys_step ex_all) sys_out sys_upd y _ _ pb2); left; unfold sys_upd; cbn [y y_omp]; rewrite Ea; apply elem_of_list_further, elem_of_list_here|].
      unfold done_action. rewrite Ew1, Ew2.
      exact (joint_internal (sys_step ex_all) sys_out sys_upd y ([AAnnounce 3 8 0; AAnnounce 1 7 1] ++ early63 ++ [ADone 1; ADone 0]) [pb1; pb2] late63 ltac:(repeat constructor)).
  - rewrite E. intros b kd Hb Hk. eapply (arrived_needed ex_mt ([] ++ [sx_b1; sx_b2]) sx_replicas).
    + exact sx_wf.
    + exact sx_replica.
    + exact Hb.
    + intros b' id Hb' Ha Ha'. clear -Hb Hb' Ha Ha'. revert Hb Hb' Ha Ha'.
      intros [->|[->|?%elem_of_nil]%elem_of_cons]%elem_of_cons [->|[->|?%elem_of_nil]%elem_of_cons]%elem_of_cons; try done; intros A1 A2;
        by (apply sx_ann2 in A1 || apply sx_ann2 in A2).
    + exact (sx_arrived b Hb).
    + exact Hk.
Qed.
