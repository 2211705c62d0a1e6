(** What WhyNotReady answers. *)
From Coq Require Import Strings.String.
From Verif Require Import Base Lru Types Avro Wire SpecWire GoPath Producer SpecBlock Consumer SpecCollect Ordering SpecChain.
From Verif Require Import ExampleBlock CollectFacts CollectFacts2 WhyFacts SpecExamples.

(** ** C45.  Every answer of the message processor about a block that was not emitted yet, in terms
    of the messages delivered so far.  The answers exclude each other, so each is given exactly
    in the case described, except that any of the incomplete prefixes may be named. *)
Theorem C45_answer_partial : ∀ mt b c ins st w,
  wf_block mt b → consumer_run c ins st → Forall input_ok ins → faithful mt b (messages ins) →
  (∀ n, requested ins n → (n ≤ ba_num (bk_args b))%Z) →
  (¬ ∃ pb, emitted_batch st (ba_hash (bk_args b)) pb) →
  mp_why st (ba_hash (bk_args b)) w →
  let h := ba_hash (bk_args b) in
  let need := needed mt b (mc_tracked c) in
  let got := delivered (messages ins) in
  match w with
  | WNotFound => ¬ got (KBatch h)
  | WPendingBatches => got (KBatch h) ∧ ∃ id, need (KSubHead h id) ∧ ¬ got (KSubHead h id)
  | WPendingPrefix p => got (KBatch h) ∧ (∀ id, need (KSubHead h id) → got (KSubHead h id)) ∧
      ∃ k kd, mt k = Some p ∧ (kd = KUpdate h k ∨ kd = KDelete h k) ∧ need kd ∧ ¬ got kd
  | WReady => got (KBatch h) ∧ (∀ kd, need kd → ¬ got kd → ∃ id i, kd = KSubMsg h id i) ∧ ∃ kd, need kd ∧ ¬ got kd
  end.
Proof. intros mt b c ins st w Hwf. exact (why_truth mt b c Hwf ins st w). Qed.
Print Assumptions C45_answer_partial.
(** There is always an answer. *)
Theorem C45_answers : ∀ st h, ∃ w, mp_why st h w.
Proof. exact why_answers. Qed.
Print Assumptions C45_answers.
(** An emitted block is not found, until 2*ReorgThreshold other blocks were emitted or a reorg
    message came. *)
Theorem C45_emitted : ∀ c ins0 st i st1 o1 pb ins st2 o2 w,
  consumer_run c ins0 st → mp_step c st i = Ok st1 → mp_out st1 = mp_out st ++ o1 → EBatch pb ∈ o1 →
  (∀ m, m ∈ messages ins → ¬ reorg_type m) → mp_run c ins st1 = Ok st2 → mp_out st2 = mp_out st1 ++ o2 →
  (Z.of_nat (length (omap (λ e, match e with EBatch x => Some x | _ => None end) o2)) < 2 * mc_thr c)%Z →
  mp_why st2 (pb_hash pb) w → w = WNotFound.
Proof. exact why_emitted. Qed.
Print Assumptions C45_emitted.
(** What the ordering layer says is done or pending was received. *)
Theorem C45_done : ∀ cfg s0 l s h,
  new_omp cfg = Ok s0 → orders_ok l → omp_run s0 l = Ok s → omp_why s h = Some (str "done, not evicted"%string) →
  h = cfg_last_hash cfg ∨ h ∈ map pb_hash (batches_of l).
Proof. exact done_received. Qed.
Print Assumptions C45_done.
Theorem C45_pending : ∀ cfg s0 l s h,
  new_omp cfg = Ok s0 → orders_ok l → omp_run s0 l = Ok s → omp_why s h = Some (str "pending parent"%string) →
  h ∈ map pb_hash (batches_of l).
Proof. exact pending_received. Qed.
Print Assumptions C45_pending.

(** "ready" does not mean that nothing is missing: a part of a sub-batch is. *)
Definition ex45 : list msg := [ex_m_header 0; ex_m_subhead 1; ex_m_part0 2; ex_m_update 3; ex_m_delete 4].
Lemma ex45_copies : Forall (copy_of ex_mt ex_block) ex45.
Proof.
  unfold ex45. rewrite !Forall_cons.
  pose proof (ex_copies 0) as H0. pose proof (ex_copies 1) as H1. pose proof (ex_copies 2) as H2.
  pose proof (ex_copies 3) as H3. pose proof (ex_copies 4) as H4. rewrite !Forall_cons in H0, H1, H2, H3, H4. tauto.
Qed.
Theorem C45_ready_refuted : ∃ mt b c ins st kd,
  wf_block mt b ∧ consumer_run c ins st ∧ Forall input_ok ins ∧ Forall (copy_of mt b) (messages ins) ∧
  (∀ n, ¬ requested ins n) ∧ (∀ w, mp_why st (ba_hash (bk_args b)) w ↔ w = WReady) ∧
  needed mt b (mc_tracked c) kd ∧ ¬ delivered (messages ins) kd.
Proof.
  destruct (run_new_ok ex_all ex45) as [st H]; [by vm_compute|].
  exists ex_mt, ex_block, ex_all, (ex_inputs ex45), st, (KSubMsg 1 9 1).
  split; [exact ex_wf|]. split; [by apply run_new_run|]. split; [apply ex_inputs_ok|]. rewrite ex_messages.
  split; [exact ex45_copies|]. split; [apply ex_requested|]. split; [|split].
  - assert (Hs : match run_new ex_all ex45 with
      | Ok s => match mp_pend s !! ba_hash (bk_args ex_block) with
                | Some pb => bool_decide (pb_pbatches pb = ∅) && bool_decide (map_Forall (λ _ v, v = 0%Z) (pb_prefixes pb))
                | None => false end
      | _ => false end = true) by (vm_compute; reflexivity).
    rewrite H in Hs. unfold mp_why. destruct (mp_pend st !! ba_hash (bk_args ex_block)) as [pb|]; [|done].
    rewrite andb_true_iff, !bool_decide_eq_true in Hs. destruct Hs as [H1 H2].
    unfold why_not_ready. intros w. rewrite bool_decide_eq_true_2 by done. destruct w as [| |p|].
    + split; [intros []|intros E; discriminate E].
    + split; [intros []|intros E; discriminate E].
    + split; [|intros E; discriminate E]. intros (v & Hv & Hp). apply H2 in Hv. lia.
    + split; [done|]. intros _ p v Hv. apply H2 in Hv. lia.
  - apply (NSubMsg ex_mt ex_block (λ _, true) 9 1); [exists (str "x/"%string); split; [vm_compute; reflexivity|reflexivity]|].
    change (length (bk_parts ex_block 9)) with 2. lia.
  - intros (m & Hm & Hk). unfold ex45 in Hm. rewrite !elem_of_cons in Hm.
    repeat (destruct Hm as [->|Hm]; [discriminate Hk|]). by apply elem_of_nil in Hm.
Qed.
Print Assumptions C45_ready_refuted.
(** "pending parent" does not mean that the parent is missing: here the parent is done.  The
    block competes with a child of the block the consumer was started at. *)
Definition ex45b : list pending_batch := [bare_batch 11 101 1 2; bare_batch 11 102 1 3].
Theorem C45_parent_refuted : ∃ (T : tree) cfg s0 l s b,
  new_omp cfg = Ok s0 ∧ cfg_last_hash cfg ≠ zero_hash ∧ t_wt T (cfg_last_hash cfg) = cfg_last_weight cfg ∧
  orders_ok l ∧ no_reorgs l ∧ Forall (agree T) (batches_of l) ∧ Forall (λ b, growing T (pb_hash b)) (batches_of l) ∧
  omp_run s0 l = Ok s ∧ b ∈ batches_of l ∧
  omp_why s (pb_hash b) = Some (str "pending parent"%string) ∧ omp_why s (pb_parent b) = Some (str "done, not evicted"%string).
Proof.
  exists (tree_of ex45b [(1%N, (10%Z, 100%N))]), (Config 10 1 100 10 ∅).
  assert (Hs : match new_omp (Config 10 1 100 10 ∅) with
    | Ok s0 => match omp_run s0 (in_batches id_order ex45b) with
      | Ok s => bool_decide (omp_why s 3 = Some (str "pending parent"%string)) && bool_decide (omp_why s 1 = Some (str "done, not evicted"%string))
      | _ => false end
    | _ => false end = true) by (vm_compute; reflexivity).
  destruct (new_omp (Config 10 1 100 10 ∅)) as [s0| |] eqn:En; [|done|done].
  destruct (omp_run s0 (in_batches id_order ex45b)) as [s| |] eqn:Er; [|done|done].
  rewrite andb_true_iff, !bool_decide_eq_true in Hs. destruct Hs as [H1 H2].
  exists s0, (in_batches id_order ex45b), s, (bare_batch 11 102 1 3). split; [done|]. split; [done|]. split; [vm_compute; reflexivity|].
  split; [apply orders_id; repeat constructor|]. split; [done|].
  split; [apply all_agree_ok; vm_compute; reflexivity|]. split; [apply all_growing_ok; vm_compute; reflexivity|].
  split; [done|]. split; [right; left|]. done.
Qed.
Print Assumptions C45_parent_refuted.

(** The answers while the example block is collected. *)
Definition ex45_answer (l : list msg) : option why :=
  match run_new ex_all l with Ok st => Some (first_answer st 1) | _ => None end.
Example C45_case :
  ex45_answer [ex_m_part0 0; ex_m_update 1] = Some WNotFound ∧
  ex45_answer [ex_m_part0 0; ex_m_update 1; ex_m_header 2] = Some WPendingBatches ∧
  ex45_answer [ex_m_part0 0; ex_m_update 1; ex_m_header 2; ex_m_subhead 3] = Some (WPendingPrefix (str "s/"%string)) ∧
  ex45_answer [ex_m_part0 0; ex_m_update 1; ex_m_header 2; ex_m_subhead 3; ex_m_delete 4] = Some WReady ∧
  ex45_answer [ex_m_part0 0; ex_m_update 1; ex_m_header 2; ex_m_subhead 3; ex_m_delete 4; ex_m_part1 5] = Some WNotFound.
Proof. split_and!; by vm_compute. Qed.
