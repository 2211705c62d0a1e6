(** Properties C26, C27, C28 and C29: repeats, whitelist, totality and retention. *)
From Coq Require Import Strings.String.
From Verif Require Import Base Lru Types Ordering SpecChain SpecExamples OrderingBase OrderingGrow
  OrderingFacts OrderingMisc OrderingTotal OrderingPanic.

(** C26.  In every state, a block that WhyNotReady reports as done is ignored when it
    arrives again: nothing is published, the head stays, the same blocks are done. *)
Theorem C26_repeat_silent : ∀ s o pb,
  omp_why s (pb_hash pb) = Some (str "done, not evicted"%string) →
  ∃ s', omp_step s (o, InBatch pb) = Ok s' ∧ o_out s' = o_out s ∧ o_last s' = o_last s ∧
        (∀ h, omp_why s' h = Some (str "done, not evicted"%string) ↔
              omp_why s h = Some (str "done, not evicted"%string)).
Proof. exact repeat_silent. Qed.
Print Assumptions C26_repeat_silent.

(** ... and the block on which a chain update ends is reported as done. *)
Theorem C26_emitted_head_done : ∀ cfg s0 l s o pb s' added removed b,
  new_omp cfg = Ok s0 → omp_run s0 l = Ok s → omp_step s (o, InBatch pb) = Ok s' →
  updates_of (o_out s') = updates_of (o_out s) ++ [(added, removed)] → last added = Some b →
  omp_why s' (pb_hash b) = Some (str "done, not evicted"%string).
Proof. exact emitted_head_done. Qed.
Print Assumptions C26_emitted_head_done.

(** C27.  With a start block and reorg targets that respect the whitelist, no published
    block violates it or descends from a block that violates it. *)
Theorem C27_whitelist_enforced : ∀ (T : tree) cfg s0 l s,
  cfg_last_hash cfg ≠ zero_hash → new_omp cfg = Ok s0 →
  orders_ok l → Forall (agree T) (batches_of l) →
  ¬ tainted (cfg_whitelist cfg) T (cfg_last_hash cfg) →
  (∀ h, h ∈ reorgs_of l → ¬ tainted (cfg_whitelist cfg) T h) →
  omp_run s0 l = Ok s →
  ∀ b, b ∈ all_added (o_out s) → ¬ tainted (cfg_whitelist cfg) T (pb_hash b).
Proof. exact whitelist_enforced. Qed.
Print Assumptions C27_whitelist_enforced.

(** C27, any start (also the empty one): a block received later than the violating block
    it descends from is never published. *)
Theorem C27_whitelist_late : ∀ (T : tree) cfg s0 l s,
  new_omp cfg = Ok s0 → orders_ok l → Forall (agree T) (batches_of l) →
  omp_run s0 l = Ok s →
  ∀ b, b ∈ all_added (o_out s) → ¬ late (cfg_whitelist cfg) T (batches_of l) (pb_hash b).
Proof. exact whitelist_late. Qed.
Print Assumptions C27_whitelist_late.

(** C28, termination: no sequence of well-formed blocks (and reorg notifications) makes
    the ordering layer recurse or loop for ever. *)
Theorem C28_never_hangs : ∀ (T : tree) cfg s0 l,
  new_omp cfg = Ok s0 → orders_ok l → Forall (agree T) (batches_of l) →
  Forall (λ b, growing T (pb_hash b)) (batches_of l) → omp_run s0 l ≠ Hang.
Proof. exact never_hangs. Qed.
Print Assumptions C28_never_hangs.

(** C28, no panic: as long as no block comes back after it has been released, every
    sequence of well-formed blocks is handled to the end.  What is missing from the full
    claim is refuted below. *)
Theorem C28_no_panic_partial : ∀ (T : tree) cfg s0 l,
  cfg_last_hash cfg ≠ zero_hash → new_omp cfg = Ok s0 →
  t_wt T (cfg_last_hash cfg) = cfg_last_weight cfg →
  orders_ok l → no_reorgs l → Forall (agree T) (batches_of l) →
  Forall (λ b, growing T (pb_hash b)) (batches_of l) →
  no_late_repeats s0 l → ∃ s, omp_run s0 l = Ok s.
Proof. exact never_panics. Qed.
Print Assumptions C28_no_panic_partial.

(** In particular when every block is received at most once. *)
Theorem C28_no_panic_once : ∀ (T : tree) cfg s0 l,
  cfg_last_hash cfg ≠ zero_hash → new_omp cfg = Ok s0 →
  t_wt T (cfg_last_hash cfg) = cfg_last_weight cfg →
  orders_ok l → no_reorgs l → Forall (agree T) (batches_of l) →
  Forall (λ b, growing T (pb_hash b)) (batches_of l) →
  NoDup (map pb_hash (batches_of l)) → ∃ s, omp_run s0 l = Ok s.
Proof. exact once_never_panics. Qed.
Print Assumptions C28_no_panic_once.

(** C28 fails when blocks return after having been released (ReorgThreshold 1): the
    "invalid state" panic of prepareEmit is reached with well-formed blocks. *)
Definition ex28 : list pending_batch :=
  let b1 := bare_batch 10 100 99%N 1 in
  let b2 := bare_batch 11 101 1 2 in
  let b3 := bare_batch 11 115 1 3 in
  let b4 := bare_batch 11 101 1 4 in
  let b5 := bare_batch 12 122 3 5 in
  let b6 := bare_batch 13 133 5 6 in
  [b2; b4; b1; b6; b3; b5; b2; b1; b3].
Theorem C28_refuted : ∃ (T : tree) cfg s0 l,
  cfg_last_hash cfg ≠ zero_hash ∧ new_omp cfg = Ok s0 ∧
  t_wt T (cfg_last_hash cfg) = cfg_last_weight cfg ∧
  orders_ok l ∧ no_reorgs l ∧ Forall (agree T) (batches_of l) ∧
  Forall (λ b, growing T (pb_hash b)) (batches_of l) ∧
  omp_run s0 l = Panic.
Proof.
  exists (tree_of ex28 [(99%N, (9%Z, 99%N))]), (Config 10 1 100 1 ∅).
  eexists _, (in_batches id_order ex28). split; [done|]. split; [reflexivity|].
  split; [vm_compute; reflexivity|]. split; [apply orders_id; repeat constructor|].
  split; [done|]. split; [apply all_agree_ok; vm_compute; reflexivity|].
  split; [apply all_growing_ok; vm_compute; reflexivity|]. vm_compute. reflexivity.
Qed.
Print Assumptions C28_refuted.

(** Without increasing numbers the recursion need not end: a block that is its own
    parent is handled for ever, whatever the budget. *)
Theorem C28_needs_growth : ∃ pb s0, new_omp (Config 10 1 100 1 ∅) = Ok s0 ∧ pb_hash pb ≠ zero_hash ∧
  ∃ s, omp_run s0 [(id_order, InBatch pb)] = Ok s ∧
  ∀ fuel, difficulty fuel id_order s (pb_hash pb) = Hang.
Proof.
  exists (bare_batch 11 101 2 2). eexists. split; [reflexivity|]. split; [done|].
  destruct (omp_run _ _) as [s| |] eqn:Es; [|vm_compute in Es; discriminate Es|vm_compute in Es; discriminate Es].
  exists s. split; [done|]. intros fuel.
  assert (Hq : ∃ cs, o_queued s !! (2%N : hash) = Some cs ∧ elements cs = [2%N : hash]).
  { vm_compute in Es. injection Es as <-. eexists. split; vm_compute; reflexivity. }
  clear Es.
  destruct Hq as (cs & Hq & He).
  cbn [pb_hash bare_batch]. induction fuel as [|f IH]; [reflexivity|]. cbn [difficulty]. rewrite Hq.
  change (id_order SDiff f 2%N (elements cs)) with (elements cs). rewrite He. cbn [foldM]. rewrite IH. reflexivity.
Qed.
Print Assumptions C28_needs_growth.

(** C29.  At most 2*ReorgThreshold blocks are reported as done. *)
Theorem C29_finished_bounded : ∀ cfg s0 l s hs,
  new_omp cfg = Ok s0 → omp_run s0 l = Ok s → NoDup hs →
  Forall (λ h, omp_why s h = Some (str "done, not evicted"%string)) hs →
  (Z.of_nat (length hs) <= 2 * cfg_threshold cfg)%Z.
Proof. exact finished_bounded. Qed.
Print Assumptions C29_finished_bounded.

(** C29.  When a done block is forgotten, it and all its stored ancestors are released,
    and for each of them the message processor is told to discard older blocks. *)
Theorem C29_forgotten_released : ∀ (T : tree) cfg s0 l s o pb s' h,
  new_omp cfg = Ok s0 → orders_ok l → Forall (agree T) (batches_of l) → omp_run s0 l = Ok s →
  order_ok o → agree T pb → omp_step s (o, InBatch pb) = Ok s' →
  omp_why s h = Some (str "done, not evicted"%string) →
  omp_why s' h ≠ Some (str "done, not evicted"%string) →
  (∀ a, stored_path (o_pending s) h a → o_pending s' !! a = None) ∧
  (∀ b a, stored_path (o_pending s) h a → o_pending s !! a = Some b →
     ∃ evs, o_out s' = o_out s ++ evs ∧ EvEvict (pb_num b) ∈ evs).
Proof. exact forgotten_released. Qed.
Print Assumptions C29_forgotten_released.

(** * Concrete cases *)

(** C26, C28, C29: with ReorgThreshold 1 the fourth block makes the consumer forget 2 and release 1 and 2. *)
Definition ex29 : list pending_batch :=
  [bare_batch 10 100 99%N 1; bare_batch 11 101 1 2; bare_batch 12 102 2 3].
Definition ex29_next : pending_batch := bare_batch 13 103 3 4.
Example C26_C29_case :
  let T := tree_of (ex29_next :: ex29) [(99%N, (9%Z, 99%N))] in
  all_agree T (ex29_next :: ex29) = true ∧ all_growing T (ex29_next :: ex29) = true ∧
  orders_ok (in_batches id_order ex29) ∧
  match run (Config 10 1 100 1 ∅) (in_batches id_order ex29) with
  | Ok s => omp_why s 2 = Some (str "done, not evicted"%string) ∧
      is_Some (o_pending s !! 2%N) ∧
      (match omp_step s (id_order, InBatch ex29_next) with
       | Ok s' => omp_why s' 2 = None ∧ o_pending s' !! 2%N = None ∧
                  omp_why s' 4 = Some (str "done, not evicted"%string) ∧ EvEvict 11 ∈ o_out s'
       | _ => False
       end) ∧
      match omp_step s (id_order, InBatch (bare_batch 11 101 1 2)) with
       | Ok s' => o_out s' = o_out s
       | _ => False
       end
  | _ => False
  end.
Proof.
  split; [vm_compute; reflexivity|]. split; [vm_compute; reflexivity|].
  split; [apply orders_id; repeat constructor|].
  vm_compute. split; [reflexivity|]. split; [by eexists|]. split; [|reflexivity].
  repeat (split; [reflexivity|]). repeat constructor.
Qed.

(** C27: number 11 is whitelisted for block 3; block 2 and its child 4 stay out although heavier. *)
Definition ex27 : list pending_batch :=
  [bare_batch 10 100 99%N 1; bare_batch 11 110 1 2; bare_batch 12 120 2 4; bare_batch 11 101 1 3; bare_batch 12 102 3 5].
Definition ex27_wl : gmap Z hash := {[ 11%Z := 3%N ]}.
Definition ex27_tree : tree := tree_of ex27 [(99%N, (9%Z, 99%N))].
Example C27_case :
  all_agree ex27_tree ex27 = true ∧
  ¬ tainted ex27_wl ex27_tree 1 ∧ tainted ex27_wl ex27_tree 4 ∧
  late ex27_wl ex27_tree ex27 4 ∧
  match run (Config 10 1 100 128 ex27_wl) (in_batches id_order ex27) with
  | Ok s => map pb_hash (all_added (o_out s)) = [3; 5]%N
  | _ => False
  end.
Proof.
  split; [vm_compute; reflexivity|]. split; [|split; [|split]].
  - assert (Hx : ∀ a h, ancestor ex27_tree a h → h = 1%N ∨ h = 99%N ∨ h = 0%N → ¬ barred ex27_wl ex27_tree a).
    { intros a h Ha. induction Ha as [h|a h _ IH]; intros Hh.
      - intros [_ (w & Hw & _)]. destruct Hh as [->|[->| ->]]; vm_compute in Hw; discriminate.
      - apply IH. destruct Hh as [->|[->| ->]]; vm_compute; auto. }
    intros (a & Ha & Hb). by apply (Hx a 1%N) in Hb; [|done|left].
  - exists 2%N. split; [apply anc_step; vm_compute; constructor|].
    split; [vm_compute; split; congruence|]. exists 3%N. split; [vm_compute; reflexivity|done].
  - apply late_child.
    + apply late_barred. split; [vm_compute; split; congruence|]. exists 3%N. split; [vm_compute; reflexivity|done].
    + intros l1 b l2 E Hb. unfold ex27 in E.
      do 6 (destruct l1 as [|? l1]; [injection E as <- <- || idtac; try (cbn in Hb; discriminate); try (vm_compute; repeat constructor)|
        try discriminate E; injection E as <- E]); try discriminate E.
      all: try (vm_compute in Hb; discriminate Hb).
      all: try (vm_compute; repeat constructor).
  - vm_compute. reflexivity.
Qed.
