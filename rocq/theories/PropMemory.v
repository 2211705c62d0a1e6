(** Property C62: the data that a message processor keeps. *)
From Coq Require Import Strings.String.
From Verif Require Import Base Lru LruFacts Types Avro Wire SpecWire GoPath Producer SpecBlock Consumer ConsumerBase ConsumerFacts
  SpecCollect CollectFacts StrayFacts ExampleBlock CollectFacts2 SpecToken TokenFacts SpecMemory MemoryFacts PropConsumer.

(** C62.  As long as ProcessMessage returns no error, nothing is held for a block that the processor
    remembers having delivered or given up; a block is not both open and queued; and the list of
    delivered blocks is bounded. *)
Theorem C62_released : ∀ c last st0 ins st, mp_new c last = Ok st0 → error_free c ins st0 st →
  (∀ h, settled_block st h → ¬ holds st h) ∧ (∀ h, is_Some (mp_pend st !! h) → mp_queue st !! h = None) ∧
  length (lru_keys (mp_done st)) ≤ Z.to_nat (2 * mc_thr c).
Proof. exact released. Qed.
Print Assumptions C62_released.

(** In particular, for messages of well-formed blocks, in any order and number, with reorg messages
    that carry a number. *)
Theorem C62_released_blocks : ∀ mt (fam : block → Prop) c ins st,
  (∀ b, fam b → wf_block mt b) →
  (∀ b b', fam b → fam b' → ba_hash (bk_args b) = ba_hash (bk_args b') → b = b') →
  consumer_run c ins st → Forall input_ok ins →
  (∀ m, m ∈ messages ins → 33 ≤ length (m_key m) ∧
     (reorg_type m ∧ is_Some (decode_int (m_val m)) ∨
      ¬ reorg_type m ∧ ∃ b, fam b ∧ about (ba_hash (bk_args b)) m ∧ (copy_of mt b m ∨ foreign_type m))) →
  (∀ h, settled_block st h → ¬ holds st h) ∧ (∀ h, is_Some (mp_pend st !! h) → mp_queue st !! h = None) ∧
  length (lru_keys (mp_done st)) ≤ Z.to_nat (2 * mc_thr c).
Proof. exact wf_released. Qed.
Print Assumptions C62_released_blocks.

(** Everything that is held was received, for that block, and is held once per key; a block is open
    only if its header was received. *)
Theorem C62_received : ∀ c ins st, consumer_run c ins st →
  (∀ h pb, mp_pend st !! h = Some pb → pb_hash pb = h ∧ (∃ m, m ∈ messages ins ∧ header_of h m) ∧
     ∀ k m, pb_pmsgs pb !! k = Some m → m ∈ messages ins ∧ about h m) ∧
  (∀ h q, mp_queue st !! h = Some q → ∀ k m, q !! k = Some m →
     m_key m = k ∧ m ∈ messages ins ∧ about h m ∧ ¬ header_of h m ∧ ¬ reorg_type m).
Proof. exact kept. Qed.
Print Assumptions C62_received.

(** Messages queued for a block are held for ever if its header does not come (again): neither
    requests to discard old blocks nor reorg messages release them. *)
Theorem C62_queued_for_ever : ∀ c ins0 st ins st' h q, consumer_run c ins0 st → mp_queue st !! h = Some q →
  (∀ m, m ∈ messages ins → ¬ header_of h m) → mp_run c ins st = Ok st' →
  ∃ q', mp_queue st' !! h = Some q' ∧ dom q ⊆ dom q'.
Proof. exact never_released. Qed.
Print Assumptions C62_queued_for_ever.

(** So a late copy of a message of a block that was delivered long ago is held for ever. *)
Definition mem_all : list msg :=
  [ex_m_header 0; ex_m_subhead 1; ex_m_part0 2; ex_m_part1 3; ex_m_update 4; ex_m_delete 5].
Definition mem_late : list msg := mem_all ++ [bare 2 8; bare 3 9; bare 4 10; bare 5 11; ex_m_update 6].
Theorem C62_late_copy_refuted : ∃ mt b c ms st q pb, wf_block mt b ∧ faithful mt b ms ∧ run_new c ms = Ok st ∧
  emitted_batch st (ba_hash (bk_args b)) pb ∧ mp_queue st !! ba_hash (bk_args b) = Some q ∧ q ≠ ∅.
Proof.
  assert (H : match run_new ex_all mem_late with
    | Ok st => match first_batch (mp_out st), mp_queue st !! 1%N with Some pb, Some q => bool_decide (pb_hash pb = 1%N ∧ q ≠ ∅) | _, _ => false end
    | _ => false end = true) by (vm_compute; reflexivity).
  destruct (run_new ex_all mem_late) as [st| |] eqn:E; [|discriminate H..].
  destruct (first_batch (mp_out st)) as [pb|] eqn:Ef; [|discriminate H]. destruct (mp_queue st !! 1%N) as [q|] eqn:Eq; [|discriminate H].
  apply bool_decide_eq_true in H as [H1 H2]. exists ex_mt, ex_block, ex_all, mem_late, st, q, pb.
  split; [exact ex_wf|]. split; [|split; [exact E|split; [split; [by apply first_batch_elem|exact H1]|split; [exact Eq|exact H2]]]].
  intros m Hm Ha _. left.
  assert (Hc : ∀ i, copy_of ex_mt ex_block (ex_m_header i) ∧ copy_of ex_mt ex_block (ex_m_update i) ∧ copy_of ex_mt ex_block (ex_m_delete i) ∧
    copy_of ex_mt ex_block (ex_m_subhead i) ∧ copy_of ex_mt ex_block (ex_m_part0 i) ∧ copy_of ex_mt ex_block (ex_m_part1 i)).
  { intros i. pose proof (ex_copies i) as Hi. rewrite !Forall_cons in Hi. destruct Hi as (? & ? & ? & ? & ? & ? & _). by split_and!. }
  assert (Hall : Forall (λ m, copy_of ex_mt ex_block m ∨ take 32 (drop 1 (m_key m)) ≠ hash_bytes 1) mem_late).
  { unfold mem_late, mem_all. cbn [app].
    do 6 (apply Forall_cons_2; [left; apply Hc|]). do 4 (apply Forall_cons_2; [right; by vm_compute|]).
    apply Forall_cons_2; [left; apply Hc|apply Forall_nil_2]. }
  rewrite Forall_forall in Hall. destruct (Hall m Hm) as [Hcp|Hn]; [exact Hcp|]. destruct (Hn (proj2 Ha)).
Qed.
Print Assumptions C62_late_copy_refuted.

(** After an error while queued messages are processed, the queue outlives the block. *)
Theorem C62_error_refuted : ∃ c ms st h, run_new c ms = Ok st ∧ settled_block st h ∧ holds st h.
Proof.
  set (ms := ex_bad :: mem_all).
  assert (H : match run_new ex_all ms with
    | Ok st => bool_decide (1%N ∈ lru_keys (mp_done st)) && bool_decide (is_Some (mp_queue st !! 1%N)) | _ => false end = true)
    by (vm_compute; reflexivity).
  destruct (run_new ex_all ms) as [st| |] eqn:E; [|discriminate H..]. apply andb_true_iff in H as [H1%bool_decide_eq_true H2%bool_decide_eq_true].
  exists ex_all, ms, st, 1%N. split; [exact E|]. split; [by left|by right].
Qed.
Print Assumptions C62_error_refuted.

(** A case: block 1 is delivered, block 6 is open with a part that waits for its sub-batch header,
    block 8 was discarded, and a message of block 7 is queued. *)
Definition mem_open (h : hash) (n : Z) : msg :=
  ex_msg 7 (KBatch h) (encode_batch (Batch n (bigint_bytes 1) 0 (b_updates ex_header)) (map_to_list (b_updates ex_header))).
Definition mem_case : list mp_input :=
  ex_inputs (mem_all ++ [mem_open 8 3]) ++ IEvict 5 ::
  ex_inputs [ex_msg 8 (KSubMsg 6 9 0) (m_val (ex_m_part0 0)); mem_open 6 8; ex_msg 9 (KUpdate 7 (str "s/a"%string)) [x01]].
Fixpoint run_quietly (c : mp_config) (ins : list mp_input) (st : mp) : option mp :=
  match ins with
  | [] => Some st
  | IMsg m e :: r => match process c e st m with Ok (st', false) => run_quietly c r st' | _ => None end
  | IEvict n :: r => run_quietly c r (evict_older_than st n)
  end.
Lemma run_quietly_ok c ins st st' : run_quietly c ins st = Some st' → error_free c ins st st'.
Proof.
  revert st; induction ins as [|[m e|n] ins IH]; intros st; cbn [run_quietly].
  - intros [= <-]. constructor.
  - destruct (process c e st m) as [[s [|]]| |] eqn:E; try done. intros H. econstructor; [exact E|]. by apply IH.
  - intros H. constructor. by apply IH.
Qed.
Definition mem_facts (st : mp) : bool :=
  bool_decide (lru_keys (mp_done st) = [1%N]) && bool_decide (8%N ∈ mp_old st) &&
  bool_decide ((λ pb, length (map_to_list (pb_pmsgs pb))) <$> mp_pend st = {[6%N := 1]}) &&
  bool_decide ((λ q, length (map_to_list q)) <$> mp_queue st = {[7%N := 1]}).
Example C62_case : ∃ st0 st, mp_new ex_all 0 = Ok st0 ∧ error_free ex_all mem_case st0 st ∧
  lru_keys (mp_done st) = [1%N] ∧ 8%N ∈ mp_old st ∧
  (λ pb, length (map_to_list (pb_pmsgs pb))) <$> mp_pend st = {[6%N := 1]} ∧
  (λ q, length (map_to_list q)) <$> mp_queue st = {[7%N := 1]}.
Proof.
  assert (H : match mp_new ex_all 0 with Ok st0 => match run_quietly ex_all mem_case st0 with Some st => mem_facts st | None => false end | _ => false end = true)
    by (vm_compute; reflexivity).
  destruct (mp_new ex_all 0) as [st0| |]; [|discriminate H..]. destruct (run_quietly ex_all mem_case st0) as [st|] eqn:E; [|discriminate H].
  exists st0, st. split; [done|]. split; [by apply run_quietly_ok|]. unfold mem_facts in H. rewrite !andb_true_iff, !bool_decide_eq_true in H. destruct H as [[[H1 H2] H3] H4]. split; [exact H1|]. split; [exact H2|]. split; [exact H3|exact H4].
Qed.
