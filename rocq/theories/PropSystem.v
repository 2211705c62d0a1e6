(** Property C44: a submitted chain arrives intact. *)
From Coq Require Import Strings.String.
From Verif Require Import Base Lru Types Avro Wire SpecWire GoPath Producer SpecBlock SpecProducer Consumer SpecCollect Ordering SpecChain
  System SpecSystem SpecPublish SystemFacts SystemFacts2 PublishFacts ExampleBlock ExampleSystem.

(** Replicas of the producer (any number, with their own iteration orders and histories) submit a chain [old ++ new] of blocks;
    the ordered consumer resumes at the end of [old].  Whatever copies of their messages have been delivered so far, in any
    order, any number of times and with any schedule of the two consumer goroutines: nothing was removed and the blocks added
    are the first blocks of [new], each once and with exactly the submitted data.  Once every message of the
    blocks in [new] was delivered and the ordering layer has taken what was completed, they are all of [new]. *)
Theorem C44_end_to_end : ∀ mt base num w old new c cfg y rs,
  let bs := old ++ new in
  chain_from base num w bs → NoDup (base :: map bk_hash bs) → (∀ b, b ∈ bs → wf_block mt b) →
  (∀ b b' id, b ∈ bs → b' ∈ bs → announced b id → announced b' id → b' = b) →
  cfg_last_hash cfg = end_hash base old → cfg_last_weight cfg = end_weight w old → cfg_last_hash cfg ≠ zero_hash →
  (∀ b, b ∈ bs → (0 ≤ ba_num (bk_args b))%Z ∧
     ∀ h, cfg_whitelist cfg !! ba_num (bk_args b) = Some h → h = bk_hash b) →
  (∀ r, r ∈ rs → replica mt bs r) →
  sys_run c cfg y → (∀ m, m ∈ messages (y_ins y) → copies rs m) →
  all_removed (o_out (y_omp y)) = [] ∧
  (∃ k, Forall2 (λ b pb, exact mt b (mc_tracked c) pb) (take k new) (all_added (o_out (y_omp y)))) ∧
  ((∀ b, b ∈ new → arrived rs (messages (y_ins y)) b) →
   batches_of (y_taken y) = sent_batches (mp_out (y_mp y)) →
   Forall2 (λ b pb, exact mt b (mc_tracked c) pb) new (all_added (o_out (y_omp y)))).
Proof. exact end_to_end_published. Qed.
Print Assumptions C44_end_to_end.

(** The same from the messages alone; they may come from anywhere, among messages of other types. *)
Theorem C44_from_messages : ∀ mt base num w old new c cfg,
  let bs := old ++ new in
  chain_from base num w bs → NoDup (base :: map bk_hash bs) → (∀ b, b ∈ bs → wf_block mt b) →
  cfg_last_hash cfg = end_hash base old → cfg_last_weight cfg = end_weight w old → cfg_last_hash cfg ≠ zero_hash →
  (∀ b, b ∈ bs → (0 ≤ ba_num (bk_args b))%Z ∧
     ∀ h, cfg_whitelist cfg !! ba_num (bk_args b) = Some h → h = bk_hash b) →
  ∀ y, sys_run c cfg y → only_from mt bs (messages (y_ins y)) →
  all_removed (o_out (y_omp y)) = [] ∧
  (∃ k, Forall2 (λ b pb, exact mt b (mc_tracked c) pb) (take k new) (all_added (o_out (y_omp y)))) ∧
  ((∀ b kd, b ∈ new → needed mt b (mc_tracked c) kd → delivered (messages (y_ins y)) kd) →
   batches_of (y_taken y) = sent_batches (mp_out (y_mp y)) →
   Forall2 (λ b pb, exact mt b (mc_tracked c) pb) new (all_added (o_out (y_omp y)))).
Proof. exact end_to_end. Qed.
Print Assumptions C44_from_messages.

(** Such a consumer never panics or hangs: any further message of the chain can be handled, and anything completed can be taken. *)
Theorem C44_never_fails : ∀ mt base num w old new c cfg,
  let bs := old ++ new in
  chain_from base num w bs → NoDup (base :: map bk_hash bs) → (∀ b, b ∈ bs → wf_block mt b) →
  cfg_last_hash cfg = end_hash base old → cfg_last_weight cfg = end_weight w old → cfg_last_hash cfg ≠ zero_hash →
  (∀ b, b ∈ bs → (0 ≤ ba_num (bk_args b))%Z ∧
     ∀ h, cfg_whitelist cfg !! ba_num (bk_args b) = Some h → h = bk_hash b) →
  ∀ y, sys_run c cfg y → ∀ m e i, only_from mt bs (messages (y_ins y)) →
  (only_from mt bs [m] → menv_ok e → ∃ r, process c e (y_mp y) m = Ok r) ∧
  (order_ok i.1 → consumed (y_taken y ++ [i]) (mp_out (y_mp y)) → ∃ s', omp_step (y_omp y) i = Ok s').
Proof. exact end_to_end_live. Qed.
Print Assumptions C44_never_fails.

(** Two blocks, two replicas, the messages of the second replica first, those of the first one
    backwards and then once more: the blocks are completed in the wrong order and added in the right one. *)
Example C44_case : let new := [sx_b1; sx_b2] in
  chain_from 2 6 4 ([] ++ new) ∧ NoDup (2%N :: map bk_hash ([] ++ new)) ∧ (∀ b, b ∈ [] ++ new → wf_block ex_mt b) ∧
  (∀ b b' id, b ∈ [] ++ new → b' ∈ [] ++ new → announced b id → announced b' id → b' = b) ∧
  (∀ b, b ∈ [] ++ new → (0 ≤ ba_num (bk_args b))%Z ∧
     ∀ h, cfg_whitelist sx_cfg !! ba_num (bk_args b) = Some h → h = bk_hash b) ∧
  (∀ r, r ∈ sx_replicas → replica ex_mt ([] ++ new) r) ∧
  ∃ y, sys_run ex_all sx_cfg y ∧ (∀ m, m ∈ messages (y_ins y) → copies sx_replicas m) ∧
    (∀ b, b ∈ new → arrived sx_replicas (messages (y_ins y)) b) ∧
    batches_of (y_taken y) = sent_batches (mp_out (y_mp y)).
Proof.
  cbn zeta. split; [by vm_compute|]. split; [apply (bool_decide_unpack _); by vm_compute|]. split; [exact sx_wf|]. split.
  { intros b b' id Hb Hb'. revert Hb Hb'.
    intros [->|[->|?%elem_of_nil]%elem_of_cons]%elem_of_cons [->|[->|?%elem_of_nil]%elem_of_cons]%elem_of_cons; try done; intros H1 H2;
      by (apply sx_ann2 in H1 || apply sx_ann2 in H2). }
  split. { intros b [->|[->|?%elem_of_nil]%elem_of_cons]%elem_of_cons; done. }
  split; [exact sx_replica|]. destruct sx_sys as (st & s & l & _ & H1 & H2). eexists. split; [exact H1|]. cbn [y_ins y_taken y_mp].
  assert (E : messages (ex_inputs sx_msgs) = sx_msgs).
  { unfold ex_inputs. generalize sx_msgs as ms. induction ms as [|m ms IH]; [done|]. cbn. by rewrite <- IH at 2. }
  rewrite E. split; [exact sx_copies|]. split; [exact sx_arrived|exact H2].
Qed.
