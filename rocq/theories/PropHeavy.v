(** Property C24: the heaviest connected chain is followed, and C29 continued: child lists of
    released blocks and late blocks. *)
From Coq Require Import Strings.String.
From Verif Require Import Base Lru Types Ordering SpecChain SpecExamples SpecHeavy ExampleHeavy OrderingBase
  OrderingMisc OrderingHeavy OrderingRelease.

(** C24.  The consumer starts at block [R], which is delivered first; then come its descendants
    (any tree, any order, any copies, within the retention window).  As long as two children of one
    block are only received when that block is already connected, the published head is the heaviest
    connected block.  (Every prefix of such a history is such a history, so this is the head after
    each block.) *)
Theorem C24_heaviest_partial : ∀ (T : tree) cfg s0 o0 b0 rest,
  let R := cfg_last_hash cfg in
  let l := (o0, InBatch b0) :: rest in
  let D := map pb_hash (batches_of l) in
  R ≠ zero_hash → new_omp cfg = Ok s0 → t_wt T R = cfg_last_weight cfg → pb_hash b0 = R →
  orders_ok l → no_reorgs l →
  Forall (agree T) (batches_of l) → Forall (λ b, growing T (pb_hash b)) (batches_of l) →
  Forall (λ b, (0 <= pb_num b < 2 ^ 63)%Z ∧ ¬ barred (cfg_whitelist cfg) T (pb_hash b)) (batches_of l) →
  Forall (λ b, ancestor T R (pb_hash b)) (batches_of l) →
  (∀ h, ancestor T R h → h = R ∨ growing T h) →
  in_window (cfg_threshold cfg) (batches_of l) → forks_connected T R D →
  ∃ s c, omp_run s0 l = Ok s ∧ client_run (Client R []) (o_out s) = Some c ∧
         heaviest T R D (tip c) ∧ o_last s = tip c.
Proof. exact heavy_head_spec. Qed.
Print Assumptions C24_heaviest_partial.

(** C24 fails when two children of a block arrive before that block: only one of them is
    considered when it connects. *)
Theorem C24_early_fork_refuted : ∃ (T : tree) cfg s0 o0 b0 rest s x,
  let R := cfg_last_hash cfg in
  let l := (o0, InBatch b0) :: rest in
  let D := map pb_hash (batches_of l) in
  R ≠ zero_hash ∧ new_omp cfg = Ok s0 ∧ t_wt T R = cfg_last_weight cfg ∧ pb_hash b0 = R ∧
  orders_ok l ∧ no_reorgs l ∧ cfg_whitelist cfg = ∅ ∧
  Forall (agree T) (batches_of l) ∧ Forall (λ b, growing T (pb_hash b)) (batches_of l) ∧
  Forall (λ b, ancestor T R (pb_hash b)) (batches_of l) ∧
  (∀ h, ancestor T R h → h = R ∨ growing T h) ∧
  in_window (cfg_threshold cfg) (batches_of l) ∧
  omp_run s0 l = Ok s ∧ connected T R D x ∧ (t_wt T (o_last s) < t_wt T x)%N.
Proof. exact early_fork_refuted. Qed.
Print Assumptions C24_early_fork_refuted.

(** C24 fails when the block the consumer resumed from is not delivered again: a heavier sibling
    of the first block after it is not followed. *)
Theorem C24_resumed_fork_refuted : ∃ (T : tree) cfg s0 l s x,
  let R := cfg_last_hash cfg in
  let D := map pb_hash (batches_of l) in
  R ≠ zero_hash ∧ new_omp cfg = Ok s0 ∧ t_wt T R = cfg_last_weight cfg ∧
  orders_ok l ∧ no_reorgs l ∧ cfg_whitelist cfg = ∅ ∧
  Forall (agree T) (batches_of l) ∧ Forall (λ b, growing T (pb_hash b)) (batches_of l) ∧
  Forall (λ b, ancestor T R (pb_hash b)) (batches_of l) ∧
  (∀ h, ancestor T R h → h = R ∨ growing T h) ∧
  in_window (cfg_threshold cfg) (batches_of l) ∧ forks_connected T R D ∧
  omp_run s0 l = Ok s ∧ connected T R D x ∧ (t_wt T (o_last s) < t_wt T x)%N.
Proof. exact resumed_fork_refuted. Qed.
Print Assumptions C24_resumed_fork_refuted.

(** C29.  When a stored block is released, the list of its children goes with it; what can remain
    listed under it is only the block being handled or descendants of that block. *)
Theorem C29_children_forgotten : ∀ (T : tree) cfg s0 l s o pb s' y cs c,
  new_omp cfg = Ok s0 → orders_ok l → Forall (agree T) (batches_of l) → omp_run s0 l = Ok s →
  order_ok o → agree T pb → omp_step s (o, InBatch pb) = Ok s' →
  is_Some (o_pending s !! y) → o_pending s' !! y = None →
  o_queued s' !! y = Some cs → c ∈ cs → ancestor T (pb_hash pb) c.
Proof. exact released_children. Qed.
Print Assumptions C29_children_forgotten.

(** C29.  A block lighter than the head whose parent is unknown is kept (reported as done and
    listed under its parent) if it is at most ReorgThreshold blocks behind the head; otherwise
    no trace of it is kept. *)
Theorem C29_late_block : ∀ cfg s0 l s o pb lb s',
  new_omp cfg = Ok s0 → cfg_last_hash cfg ≠ zero_hash → omp_run s0 l = Ok s →
  o_pending s !! o_last s = Some lb → o_last s ≠ pb_hash pb →
  excluded (cfg_whitelist cfg) pb = false → pb_parent pb ∉ o_bl s →
  omp_why s (pb_hash pb) ≠ Some (str "done, not evicted"%string) →
  omp_why s (pb_parent pb) ≠ Some (str "done, not evicted"%string) → pb_parent pb ≠ o_last s →
  (pb_weight pb < o_lastw s)%N →
  omp_step s (o, InBatch pb) = Ok s' →
  if bool_decide (cfg_threshold cfg < pb_num lb - pb_num pb)%Z
  then omp_why s' (pb_hash pb) = None ∧ o_out s' = o_out s ∧ o_fin s' = o_fin s ∧ o_queued s' = o_queued s ∧
       o_pending s' = delete (pb_hash pb) (o_pending s)
  else omp_why s' (pb_hash pb) = Some (str "done, not evicted"%string) ∧
       ∃ cs, o_queued s' !! pb_parent pb = Some cs ∧ pb_hash pb ∈ cs.
Proof. exact late_block. Qed.
Print Assumptions C29_late_block.

(** * Concrete cases *)

(** C24: 4 arrives before its parent 3; 5 and 8 are forks of known blocks; 6 overtakes 4. *)
Definition ex24 : list pending_batch :=
  [bare_batch 10 100 99 1; bare_batch 11 110 1 2; bare_batch 13 130 3 4; bare_batch 12 120 2 3;
   bare_batch 11 105 1 5; bare_batch 13 125 3 8; bare_batch 12 140 5 6; bare_batch 12 120 2 3]%N.
Example C24_case :
  let T := tree_of ex24 ex24_others in
  let l := in_batches id_order ex24 in
  let D := map pb_hash (batches_of l) in
  l = (id_order, InBatch (bare_batch 10 100 99 1)) :: tail l ∧
  t_wt T 1 = 100%N ∧ orders_ok l ∧ no_reorgs l ∧
  Forall (agree T) (batches_of l) ∧ Forall (λ b, growing T (pb_hash b)) (batches_of l) ∧
  Forall (λ b, (0 <= pb_num b < 2 ^ 63)%Z ∧ ¬ barred ∅ T (pb_hash b)) (batches_of l) ∧
  Forall (λ b, ancestor T 1 (pb_hash b)) (batches_of l) ∧
  (∀ h, ancestor T 1 h → h = 1%N ∨ growing T h) ∧
  in_window 50 (batches_of l) ∧ forks_connected T 1 D ∧
  match run (Config 10 1 100 50 ∅) (take 6 l), run (Config 10 1 100 50 ∅) l with
  | Ok s6, Ok s => o_last s6 = 4%N ∧ o_last s = 6%N
  | _, _ => False
  end.
Proof.
  cbn zeta. split; [done|]. split; [by vm_compute|]. split; [apply orders_id; repeat constructor|]. split; [done|].
  split; [by apply all_agree_ok; vm_compute|]. split; [by apply all_growing_ok; vm_compute|].
  split.
  { apply Forall_forall. intros b Hb. split.
    - assert (Hc : forallb (λ b, (0 <=? pb_num b)%Z && (pb_num b <? 2 ^ 63)%Z) ex24 = true) by (by vm_compute).
      rewrite forallb_forall in Hc. specialize (Hc b (proj1 (elem_of_list_In _ _) Hb)). lia.
    - intros (_ & w & Hw & _). by rewrite lookup_empty in Hw. }
  split; [apply (all_desc 10); by vm_compute|]. split; [apply tree_of_growing; by vm_compute|].
  split; [apply windowb_ok; by vm_compute|]. split; [apply (forksb_ok 10); by vm_compute|]. by vm_compute.
Qed.

(** C29: a late sibling 4 of the head makes the consumer forget 2, under which only 4 stays listed;
    block 5 with an unknown parent is kept when one behind the head (number 12), not when two behind. *)
Definition ex29b : list pending_batch := [bare_batch 10 100 99 1; bare_batch 11 102 1 2; bare_batch 12 120 2 3]%N.
Definition ex29b_next : pending_batch := bare_batch 12 119 2 4.
Example C29_case :
  all_agree (tree_of (ex29b_next :: ex29b) ex24_others) (ex29b_next :: ex29b) = true ∧
  orders_ok (in_batches id_order ex29b) ∧
  match run (Config 10 1 100 1 ∅) (in_batches id_order ex29b) with
  | Ok s =>
      (match omp_step s (id_order, InBatch ex29b_next) with
       | Ok s' => bool_decide (is_Some (o_pending s !! 2%N)) = true ∧ o_pending s' !! 2%N = None ∧
           elements <$> (o_queued s' !! 2%N) = Some [4%N]
       | _ => False
       end) ∧
      option_map pb_num (o_pending s !! o_last s) = Some 12%Z ∧ o_lastw s = 120%N ∧
      omp_why s 5 = None ∧ omp_why s 98 = None ∧
      match omp_step s (id_order, InBatch (bare_batch 11 119 98 5)), omp_step s (id_order, InBatch (bare_batch 10 119 98 5)) with
       | Ok s1, Ok s2 => omp_why s1 5 = Some (str "done, not evicted"%string) ∧ omp_why s2 5 = None
       | _, _ => False
       end
  | _ => False
  end.
Proof.
  split; [by vm_compute|]. split; [apply orders_id; repeat constructor|]. vm_compute. by repeat split.
Qed.
