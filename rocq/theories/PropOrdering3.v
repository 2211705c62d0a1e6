(** Properties C25 and C31 (ordering layer). *)
From Coq Require Import Strings.String.
From Verif Require Import Base Lru Types Ordering SpecChain SpecExamples OrderingBase OrderingMisc OrderingChain OrderingResume.

(** C25.  The received blocks belong to one chain [ch] that contains the start block
    [ch n]; they arrive in any order, any number of times, ancestors of the start block
    included.  The run succeeds, and the blocks added by all updates together are exactly
    the contiguous received part of the chain after the start block, in order, once. *)
Theorem C25_chain_delivered : ∀ (T : tree) (ch : nat → hash) cfg s0 l n,
  single_chain T ch → cfg_last_hash cfg = ch n → ch n ≠ zero_hash → new_omp cfg = Ok s0 →
  t_wt T (ch n) = cfg_last_weight cfg →
  orders_ok l → no_reorgs l → Forall (agree T) (batches_of l) →
  (∀ b, b ∈ batches_of l → excluded (cfg_whitelist cfg) b = false ∧ ∃ i, pb_hash b = ch (S i)) →
  ∃ s k, omp_run s0 l = Ok s ∧
    map pb_hash (all_added (o_out s)) = map ch (seq (S n) k) ∧
    (∀ i, n < i ≤ n + k → ch i ∈ map pb_hash (batches_of l)) ∧
    ch (S (n + k)) ∉ map pb_hash (batches_of l) ∧
    (∀ b, b ∈ all_added (o_out s) → b ∈ batches_of l) ∧
    all_removed (o_out s) = [].
Proof. exact chain_delivered. Qed.
Print Assumptions C25_chain_delivered.

(** C31.  In every state a reorg notification publishes exactly its number and hash and
    nothing else, and the announced block becomes the head. *)
Theorem C31_announced : ∀ s o n h,
  ∃ s', omp_step s (o, InReorg n h) = Ok s' ∧ o_out s' = o_out s ++ [EvReorg n h] ∧ o_last s' = h.
Proof. exact restart_announced. Qed.
Print Assumptions C31_announced.

(** C31.  A child of the announced block that is not remembered as done (and not
    whitelisted away) is then published at once: the next update starts with it and
    removes nothing. *)
Theorem C31_continues_partial : ∀ s o n h o' pb s' s'',
  omp_step s (o, InReorg n h) = Ok s' → omp_step s' (o', InBatch pb) = Ok s'' →
  pb_parent pb = h → omp_why s (pb_hash pb) ≠ Some (str "done, not evicted"%string) →
  excluded (o_wl s) pb = false → h ∉ o_bl s →
  ∃ more, updates_of (o_out s'') = updates_of (o_out s) ++ [(pb :: more, [])].
Proof. exact restart_child. Qed.
Print Assumptions C31_continues_partial.

(** C31 fails for a child that was already emitted: the ordering layer does not forget
    it, so sending it again after the notification changes nothing. *)
Definition ex31 : list pending_batch := [bare_batch 11 101 1 2; bare_batch 12 102 2 3].
Theorem C31_refuted : ∃ (T : tree) cfg l n h pb,
  cfg_last_hash cfg ≠ zero_hash ∧ t_wt T (cfg_last_hash cfg) = cfg_last_weight cfg ∧
  orders_ok l ∧ Forall (agree T) (batches_of l) ∧ Forall (λ b, growing T (pb_hash b)) (batches_of l) ∧
  pb ∈ batches_of l ∧ pb_parent pb = h ∧ h = cfg_last_hash cfg ∧
  ∃ s s', run cfg l = Ok s ∧ run cfg (l ++ [(id_order, InReorg n h); (id_order, InBatch pb)]) = Ok s' ∧
          updates_of (o_out s') = updates_of (o_out s) ∧ map fst (updates_of (o_out s)) = [[pb]; [bare_batch 12 102 2 3]].
Proof.
  exists (tree_of ex31 [(1%N, (10%Z, 100%N))]), (Config 10 1 100 10 ∅), (in_batches id_order ex31), 10%Z, 1%N,
    (bare_batch 11 101 1 2).
  split; [done|]. split; [vm_compute; reflexivity|]. split; [apply orders_id; repeat constructor|].
  split; [apply all_agree_ok; vm_compute; reflexivity|].
  split; [apply all_growing_ok; vm_compute; reflexivity|].
  split; [by apply elem_of_list_here|]. split; [done|]. split; [done|].
  destruct (run _ _) as [s| |] eqn:E1; [|vm_compute in E1; discriminate E1|vm_compute in E1; discriminate E1].
  destruct (run _ (_ ++ _)) as [s'| |] eqn:E2; [|vm_compute in E2; discriminate E2|vm_compute in E2; discriminate E2].
  exists s, s'. split; [done|]. split; [done|].
  vm_compute in E1, E2. injection E1 as <-. injection E2 as <-. split; vm_compute; reflexivity.
Qed.
Print Assumptions C31_refuted.

(** * Concrete cases *)

(** C25: blocks 1..8 of a chain, start block 3, out of order, with repeats, with ancestors
    and with a gap at 7; retention so small that blocks are forgotten. *)
Definition ex25_ch (i : nat) : hash := N.of_nat (S i).
Definition ex25_T : tree := Tree (λ h, (h - 1)%N) (λ h, Z.of_N h) (λ h, (10 + h)%N).
Definition ex25_b (i : N) : pending_batch := bare_batch (Z.of_N i) (10 + i) (i - 1) i.
Example C25_case :
  single_chain ex25_T ex25_ch ∧ ex25_ch 2 = 3%N ∧
  let l := in_batches id_order (map ex25_b [5; 2; 9; 4; 8; 5; 6; 3; 2; 4; 6; 5]%N) in
  Forall (agree ex25_T) (batches_of l) ∧
  (∀ b, b ∈ batches_of l → ∃ i, pb_hash b = ex25_ch (S i)) ∧
  match run (Config 3 3 13 1 ∅) l with
  | Ok s => map pb_hash (all_added (o_out s)) = [4; 5; 6]%N ∧ all_removed (o_out s) = []
  | _ => False
  end.
Proof.
  split; [|split; [done|split; [|split]]].
  - intros i. unfold ex25_ch, growing; cbn [ex25_T t_par t_num t_wt]. repeat split; lia.
  - apply all_agree_ok. vm_compute. reflexivity.
  - intros b Hb. cbn in Hb. repeat (apply elem_of_cons in Hb as [->|Hb]; [cbn; unfold ex25_ch|]);
      [..|by apply elem_of_nil in Hb];
      match goal with |- ∃ i, ?x = _ => exists (N.to_nat (x - 2)); reflexivity end.
  - vm_compute. split; reflexivity.
Qed.

(** C31: after block 2 was emitted, the consumer is told to go back to block 1 and then
    receives another child of block 1, whose own child is already waiting. *)
Example C31_case :
  match run (Config 10 1 100 10 ∅)
     (in_batches id_order [bare_batch 11 102 1 2; bare_batch 12 103 5%N 6] ++
      [(id_order, InReorg 10 1%N); (id_order, InBatch (bare_batch 11 101 1 5))]) with
  | Ok s => updates_of (o_out s) =
      [([bare_batch 11 102 1 2], []); ([bare_batch 11 101 1 5; bare_batch 12 103 5%N 6], [])]
  | _ => False
  end.
Proof. vm_compute. reflexivity. Qed.
