(** Property C67: a reorg notice given by another goroutine while the ordering layer is at work (delivery/ordering.go:164-276,
    transports/websockets.go:407-408). *)
From Coq Require Import Strings.String.
From Verif Require Import Base Lru Types Ordering SpecChain SpecExamples Race SpecRace RaceFacts.

(** C67.  When nothing interferes, the run is the one of the sequential model: what is proved of [omp_run] holds. *)
Theorem C67_alone : ∀ s l,
  Forall (λ i : order * noise * omp_input, i.1.2 = []) l →
  omp_run_x s l = omp_run s (map (λ i, (i.1.1, i.2)) l).
Proof. exact (λ s l, run_alone l s). Qed.
Print Assumptions C67_alone.

(** C67.  Whenever the notices come, each is published once, in the order given. *)
Theorem C67_announced : ∀ (T : tree) cfg s0 l s,
  new_omp cfg = Ok s0 → Forall (λ i, order_ok i.1.1) l → Forall (agree T) (blocks_of l) → omp_run_x s0 l = Ok s →
  published_notices (o_out s) = notices_of l.
Proof. exact (λ T cfg s0 l s H0 Ho Ha E, proj1 (race_run T cfg s0 l H0 Ho Ha s E)). Qed.
Print Assumptions C67_announced.

(** C67.  Whenever the notices come, only received blocks are added or removed. *)
Theorem C67_received : ∀ (T : tree) cfg s0 l s,
  new_omp cfg = Ok s0 → Forall (λ i, order_ok i.1.1) l → Forall (agree T) (blocks_of l) → omp_run_x s0 l = Ok s →
  ∀ b, b ∈ all_added (o_out s) ∨ b ∈ all_removed (o_out s) → b ∈ blocks_of l.
Proof. exact (λ T cfg s0 l s H0 Ho Ha E, proj1 (proj2 (race_run T cfg s0 l H0 Ho Ha s E))). Qed.
Print Assumptions C67_received.

(** C67.  The blocks an update removes are a chain.  Those it adds are a chain except at announced blocks: the parents at which the
    updates are interrupted are, in order and with multiplicity, among the hashes of the notices. *)
Theorem C67_breaks_partial : ∀ (T : tree) cfg s0 l s,
  new_omp cfg = Ok s0 → Forall (λ i, order_ok i.1.1) l → Forall (agree T) (blocks_of l) → omp_run_x s0 l = Ok s →
  all_breaks (o_out s) `sublist_of` map snd (notices_of l) ∧
  ∀ added removed, (added, removed) ∈ updates_of (o_out s) → breaks removed = [].
Proof. exact (λ T cfg s0 l s H0 Ho Ha E, proj2 (proj2 (race_run T cfg s0 l H0 Ho Ha s E))). Qed.
Print Assumptions C67_breaks_partial.

(** C67.  Notices cannot keep the ordering layer in its loops when numbers increase along the chain. *)
Theorem C67_never_hangs : ∀ (T : tree) cfg s0 l,
  new_omp cfg = Ok s0 → Forall (λ i, order_ok i.1.1) l → Forall (agree T) (blocks_of l) →
  Forall (λ b, growing T (pb_hash b)) (blocks_of l) → omp_run_x s0 l ≠ Hang.
Proof. exact race_live. Qed.
Print Assumptions C67_never_hangs.

(** Block 2 on the start block 1; block 5 on a block 4 that is only ever announced. *)
Definition rc_2 : pending_batch := bare_batch 11 101 1 2.
Definition rc_5 : pending_batch := bare_batch 12 102 4 5.
Definition rc_tree : tree := tree_of [rc_2; rc_5] [(1%N, (10%Z, 100%N)); (4%N, (11%Z, 101%N))].
Definition rc_cfg : config := Config 10 1 100 10 ∅.
Definition rc_out (l : list (order * noise * omp_input)) : option (list omp_event) :=
  match new_omp rc_cfg with
  | Ok s0 => match omp_run_x s0 l with Ok s => Some (o_out s) | _ => None end
  | _ => None
  end.
(** The notice comes after the head was moved to block 2 and before its children are looked for. *)
Definition rc_torn : list (order * noise * omp_input) :=
  [(id_order, [], InBatch rc_5); (id_order, [[]; []; [(11%Z, 4%N)]], InBatch rc_2)].
(** The notice comes after block 2 was found to follow the head and before the head is moved. *)
Definition rc_lost : list (order * noise * omp_input) :=
  [(id_order, [[]; [(11%Z, 4%N)]], InBatch rc_2); (id_order, [], InBatch rc_5)].

Example C67_case :
  Forall (λ i, order_ok i.1.1) rc_torn ∧ Forall (agree rc_tree) (blocks_of rc_torn) ∧
  Forall (λ b, growing rc_tree (pb_hash b)) (blocks_of rc_torn) ∧ notices_of rc_torn = [(11%Z, 4%N)] ∧
  Forall (λ i, order_ok i.1.1) rc_lost ∧ Forall (agree rc_tree) (blocks_of rc_lost) ∧
  Forall (λ b, growing rc_tree (pb_hash b)) (blocks_of rc_lost) ∧ notices_of rc_lost = [(11%Z, 4%N)] ∧
  rc_out rc_torn = Some [EvReorg 11 4; EvUpdate [rc_2; rc_5] []].
Proof.
  split; [by repeat (apply Forall_cons_2; [apply id_order_ok|])|]. split; [apply all_agree_ok; vm_compute; reflexivity|].
  split; [apply all_growing_ok; vm_compute; reflexivity|]. split; [done|].
  split; [by repeat (apply Forall_cons_2; [apply id_order_ok|])|]. split; [apply all_agree_ok; vm_compute; reflexivity|].
  split; [apply all_growing_ok; vm_compute; reflexivity|]. split; [done|]. vm_compute. reflexivity.
Qed.

(** C67 fails: an update may add blocks that are not a chain, and that a client which replays the events cannot apply. *)
Theorem C67_chain_refuted : ∃ (T : tree) cfg s0 l s added removed,
  new_omp cfg = Ok s0 ∧ Forall (λ i, order_ok i.1.1) l ∧ Forall (agree T) (blocks_of l) ∧
  Forall (λ b, growing T (pb_hash b)) (blocks_of l) ∧ omp_run_x s0 l = Ok s ∧
  (added, removed) ∈ updates_of (o_out s) ∧ breaks added ≠ [] ∧
  client_run (Client (cfg_last_hash cfg) []) (o_out s) = None.
Proof.
  destruct (new_omp rc_cfg) as [s0| |] eqn:E0; [|vm_compute in E0; discriminate E0..].
  destruct (omp_run_x s0 rc_torn) as [s| |] eqn:E;
    [|vm_compute in E0; injection E0 as <-; vm_compute in E; discriminate E..].
  exists rc_tree, rc_cfg, s0, rc_torn, s, [rc_2; rc_5], [].
  split; [exact E0|]. split; [apply C67_case|]. split; [apply C67_case|]. split; [apply C67_case|]. split; [exact E|].
  assert (Eo : o_out s = [EvReorg 11 4; EvUpdate [rc_2; rc_5] []]).
  { assert (H : rc_out rc_torn = Some (o_out s)) by (unfold rc_out; rewrite E0, E; reflexivity).
    assert (H' : rc_out rc_torn = Some [EvReorg 11 4; EvUpdate [rc_2; rc_5] []]) by apply C67_case.
    rewrite H' in H. by injection H. }
  rewrite Eo. split; [apply elem_of_list_here|]. split; [vm_compute; discriminate|]. vm_compute. reflexivity.
Qed.
Print Assumptions C67_chain_refuted.

(** C67 fails: the outcome need not be the one of the notice coming before the block or after it.  The notice is published, but the
    next child of the announced block is never added, although it is added in both of those orders. *)
Theorem C67_order_refuted : ∃ (T : tree) cfg s0 x n h b c s,
  new_omp cfg = Ok s0 ∧ agree T b ∧ agree T c ∧ growing T (pb_hash b) ∧ growing T (pb_hash c) ∧
  concat x = [(n, h)] ∧ pb_parent c = h ∧
  omp_run_x s0 [(id_order, x, InBatch b); (id_order, [], InBatch c)] = Ok s ∧
  (n, h) ∈ published_notices (o_out s) ∧ c ∉ all_added (o_out s) ∧
  (∃ s1, omp_run_x s0 [(id_order, [], InReorg n h); (id_order, [], InBatch b); (id_order, [], InBatch c)] = Ok s1 ∧ c ∈ all_added (o_out s1)) ∧
  (∃ s2, omp_run_x s0 [(id_order, [], InBatch b); (id_order, [], InReorg n h); (id_order, [], InBatch c)] = Ok s2 ∧ c ∈ all_added (o_out s2)).
Proof.
  destruct (new_omp rc_cfg) as [s0| |] eqn:E0; [|vm_compute in E0; discriminate E0..].
  exists rc_tree, rc_cfg, s0, [[]; [(11%Z, 4%N)]], 11%Z, 4%N, rc_2, rc_5.
  vm_compute in E0. injection E0 as <-.
  eexists. split; [vm_compute; reflexivity|].
  split; [apply agreeb_ok; vm_compute; reflexivity|]. split; [apply agreeb_ok; vm_compute; reflexivity|].
  split; [apply growingb_ok; vm_compute; reflexivity|]. split; [apply growingb_ok; vm_compute; reflexivity|].
  split; [done|]. split; [done|]. split; [vm_compute; reflexivity|].
  split; [apply (bool_decide_unpack _); vm_compute; reflexivity|].
  split.
  { intros H. vm_compute in H. apply elem_of_list_singleton in H. discriminate H. }
  split; eexists; (split; [vm_compute; reflexivity|]); vm_compute; apply elem_of_list_In; cbn; tauto.
Qed.
Print Assumptions C67_order_refuted.
