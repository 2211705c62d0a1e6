(** Properties C20-C23 and C30: the stream of chain updates. *)
From Verif Require Import Base Lru Types Ordering SpecChain SpecExamples OrderingBase OrderingGrow OrderingFacts.

(** C20.  Whatever completed blocks and large-reorg notifications arrive (any order, any
    number of copies, any forks, any eviction), a client that starts at the configured last hash can
    digest every published update. *)
Theorem C20_updates_connect : ∀ (T : tree) cfg s0 l s,
  cfg_last_hash cfg ≠ zero_hash → new_omp cfg = Ok s0 →
  orders_ok l → Forall (agree T) (batches_of l) →
  omp_run s0 l = Ok s →
  is_Some (client_run (Client (cfg_last_hash cfg) []) (o_out s)).
Proof. exact updates_connect. Qed.
Print Assumptions C20_updates_connect.

(** C21.  With numbers increasing by one, the client's chain has consecutive numbers and no
    block twice. *)
Theorem C21_applied_chain_consecutive : ∀ (T : tree) cfg s0 l s c,
  cfg_last_hash cfg ≠ zero_hash → new_omp cfg = Ok s0 →
  orders_ok l → Forall (agree T) (batches_of l) →
  Forall (λ b, growing T (pb_hash b)) (batches_of l) →
  omp_run s0 l = Ok s →
  client_run (Client (cfg_last_hash cfg) []) (o_out s) = Some c →
  NoDup (map pb_hash (cl_chain c)) ∧
  ∀ i x y, cl_chain c !! i = Some x → cl_chain c !! S i = Some y →
    pb_num x = (pb_num y + 1)%Z ∧ pb_parent x = pb_hash y.
Proof. exact applied_chain. Qed.
Print Assumptions C21_applied_chain_consecutive.

(** C22.  Every update is minimal.  Reorg notifications must name, as documented at
    delivery/producer.go:170-172, an ancestor of the published head; only that it is not
    heavier than the head is needed. *)
Theorem C22_updates_minimal : ∀ (T : tree) cfg s0 l s,
  new_omp cfg = Ok s0 → (t_wt T (cfg_last_hash cfg) <= cfg_last_weight cfg)%N →
  orders_ok l → Forall (agree T) (batches_of l) →
  Forall (λ b, growing T (pb_hash b)) (batches_of l) →
  (∀ l1 o n h l2 s1, l = l1 ++ (o, InReorg n h) :: l2 → omp_run s0 l1 = Ok s1 →
     (t_wt T h <= top_weight (cfg_last_weight cfg) (o_out s1))%N) →
  omp_run s0 l = Ok s →
  Forall (λ u, minimal_update T u.1 u.2) (updates_of (o_out s)).
Proof. exact updates_minimal. Qed.
Print Assumptions C22_updates_minimal.

(** The hypothesis on reorg notifications is needed. *)
Theorem C22_needs_sane_reorgs : ∃ (T : tree) cfg l s0 s,
  new_omp cfg = Ok s0 ∧ (t_wt T (cfg_last_hash cfg) <= cfg_last_weight cfg)%N ∧
  orders_ok l ∧ Forall (agree T) (batches_of l) ∧
  Forall (λ b, growing T (pb_hash b)) (batches_of l) ∧
  omp_run s0 l = Ok s ∧
  ¬ Forall (λ u, minimal_update T u.1 u.2) (updates_of (o_out s)).
Proof. exact minimal_needs_sane. Qed.
Print Assumptions C22_needs_sane_reorgs.

(** C23.  Every update ends on a strictly heavier block than the previous one (the
    first: than the configured last block). *)
Theorem C23_head_gets_heavier : ∀ (T : tree) cfg s0 l s,
  cfg_last_hash cfg ≠ zero_hash → new_omp cfg = Ok s0 →
  t_wt T (cfg_last_hash cfg) = cfg_last_weight cfg →
  orders_ok l → no_reorgs l → Forall (agree T) (batches_of l) →
  Forall (λ b, growing T (pb_hash b)) (batches_of l) →
  omp_run s0 l = Ok s →
  rising (cfg_last_weight cfg) (o_out s).
Proof. exact head_rises. Qed.
Print Assumptions C23_head_gets_heavier.

(** C30.  From an empty start at most nine published updates fail to connect, when
    ReorgThreshold is at least 5. *)
Theorem C30_settles_partial : ∀ (T : tree) cfg s0 l s,
  cfg_last_hash cfg = zero_hash → (5 <= cfg_threshold cfg)%Z → new_omp cfg = Ok s0 →
  orders_ok l → Forall (agree T) (batches_of l) →
  omp_run s0 l = Ok s →
  (lenient_run (Client zero_hash [], 0) (o_out s)).2 ≤ 9.
Proof. exact empty_start_settles. Qed.
Print Assumptions C30_settles_partial.

(** C30, first sentence: the first (not excluded) block is emitted at once. *)
Theorem C30_first_block_emitted : ∀ cfg s0 o pb,
  cfg_last_hash cfg = zero_hash → new_omp cfg = Ok s0 → order_ok o →
  pb_hash pb ≠ zero_hash →
  excluded (cfg_whitelist cfg) pb = false →
  ∃ s, omp_run s0 [(o, InBatch pb)] = Ok s ∧ updates_of (o_out s) = [([pb], [])].
Proof. exact empty_start_first. Qed.
Print Assumptions C30_first_block_emitted.

(** C30 fails for small thresholds: with ReorgThreshold 1 every unconnected block is
    emitted, here ten of them. *)
Theorem C30_refuted : ∃ (T : tree) cfg l s0 s,
  cfg_last_hash cfg = zero_hash ∧ new_omp cfg = Ok s0 ∧
  orders_ok l ∧ Forall (agree T) (batches_of l) ∧ omp_run s0 l = Ok s ∧
  9 < (lenient_run (Client zero_hash [], 0) (o_out s)).2.
Proof. exact empty_start_refuted. Qed.
Print Assumptions C30_refuted.

(** * Concrete cases *)

(** C20-C23: start at block 1; blocks 2 (parent 1), 3 (parent 1), 4 (parent 3) and 5
    (parent 2), 6 (parent 5), out of order: two reorgs. *)
Definition ex_blocks : list pending_batch :=
  [bare_batch 10 100 99%N 1; bare_batch 11 101 1 2; bare_batch 12 103 3 4; bare_batch 11 102 1 3;
   bare_batch 12 104 5 6; bare_batch 11 102 1 5; bare_batch 11 102 1 5].
Definition ex_tree : tree := tree_of ex_blocks [(99%N, (9%Z, 99%N))].
Definition ex_cfg : config := Config 10 1 100 128 ∅.

Example C20_C23_case :
  cfg_last_hash ex_cfg ≠ zero_hash ∧
  t_wt ex_tree (cfg_last_hash ex_cfg) = cfg_last_weight ex_cfg ∧
  all_agree ex_tree ex_blocks = true ∧ all_growing ex_tree ex_blocks = true ∧
  orders_ok (in_batches id_order ex_blocks) ∧ no_reorgs (in_batches id_order ex_blocks) ∧
  match run ex_cfg (in_batches id_order ex_blocks) with
  | Ok s => map (λ u, (map pb_hash u.1, map pb_hash u.2)) (updates_of (o_out s))
            = [([2], []); ([3; 4], [2]); ([5; 6], [3; 4])]%N
  | _ => False
  end.
Proof.
  split_and!; try (vm_compute; reflexivity); [done|].
  apply orders_id. repeat constructor.
Qed.

(** C20 and C22 with a reorg notification naming an ancestor of the head. *)
Definition ex_reorg : list (order * omp_input) :=
  in_batches id_order [bare_batch 10 100 99%N 1; bare_batch 11 101 1 2; bare_batch 12 102 2 3] ++
  [(id_order, InReorg 10 1%N)] ++
  in_batches id_order [bare_batch 11 101 1 4; bare_batch 12 103 4 5].
Definition ex_reorg_tree : tree := tree_of (batches_of ex_reorg) [(99%N, (9%Z, 99%N))].
Example C20_C22_reorg_case :
  all_agree ex_reorg_tree (batches_of ex_reorg) = true ∧
  all_growing ex_reorg_tree (batches_of ex_reorg) = true ∧
  orders_ok ex_reorg ∧
  (t_wt ex_reorg_tree 1 <= 102)%N ∧
  match run ex_cfg ex_reorg with
  | Ok s => map (λ u, (map pb_hash u.1, map pb_hash u.2)) (updates_of (o_out s))
            = [([2], []); ([3], []); ([4], []); ([5], [])]%N
  | _ => False
  end.
Proof.
  split_and!; try (vm_compute; done).
  apply orders_id. repeat constructor.
Qed.

(** C30: an empty start with three unconnected blocks and then a connected one. *)
Example C30_case :
  let l := [bare_batch 20 200 50%N 1; bare_batch 30 300 60%N 2; bare_batch 25 250 70%N 3; bare_batch 26 260 3 4] in
  all_agree (tree_of l []) l = true ∧
  match run (Config 0 0%N 0 5 ∅) (in_batches id_order l) with
  | Ok s => map (λ u, (map pb_hash u.1, map pb_hash u.2)) (updates_of (o_out s))
            = [([1], []); ([2], []); ([3], []); ([4], [])]%N ∧
            (lenient_run (Client zero_hash [], 0) (o_out s)).2 = 3
  | _ => False
  end.
Proof. vm_compute. split; [done|]. split; done. Qed.
