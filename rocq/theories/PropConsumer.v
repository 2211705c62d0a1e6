(** Properties C01-C06, C17 (covering part), C32, C46 and C49: collection of blocks. *)
From Coq Require Import Strings.String.
From Verif Require Import Base Lru LruFacts Types Avro Wire SpecWire GoPath PathFacts Producer SpecBlock Consumer ConsumerBase
  ConsumerFacts SpecCollect CollectFacts StrayFacts ExampleBlock CollectFacts2.

(** C01.  A batch emitted for a block carries exactly the submitted data on tracked prefixes. *)
Theorem C01_reassembly_exact : ∀ mt b c ins st pb,
  wf_block mt b → consumer_run c ins st → Forall input_ok ins → faithful mt b (messages ins) →
  emitted_batch st (ba_hash (bk_args b)) pb → exact mt b (mc_tracked c) pb.
Proof. exact reassembly_exact. Qed.
Print Assumptions C01_reassembly_exact.

(** C02.  Once every needed message was delivered, the block has been emitted, unless the
    consumer was asked to discard blocks of its age. *)
Theorem C02_completes : ∀ mt b c ins st,
  wf_block mt b → consumer_run c ins st → Forall input_ok ins → faithful mt b (messages ins) →
  (∀ n, requested ins n → (n ≤ ba_num (bk_args b))%Z) →
  (∀ kd, needed mt b (mc_tracked c) kd → delivered (messages ins) kd) →
  ∃ pb, emitted_batch st (ba_hash (bk_args b)) pb.
Proof. exact completes. Qed.
Print Assumptions C02_completes.

(** C02, runs exist: no sequence of copies of messages of well-formed blocks, of messages of foreign
    types and of reorg messages makes the consumer panic or hang. *)
Theorem C02_never_fails : ∀ mt (fam : block → Prop) c ins st0 last,
  (∀ b, fam b → wf_block mt b) →
  (∀ b b', fam b → fam b' → ba_hash (bk_args b) = ba_hash (bk_args b') → b = b') →
  mp_new c last = Ok st0 → Forall input_ok ins →
  (∀ m, m ∈ messages ins → 33 ≤ length (m_key m) ∧
     (reorg_type m ∨ ∃ b, fam b ∧ about (ba_hash (bk_args b)) m ∧ (copy_of mt b m ∨ foreign_type m))) →
  ∃ st, mp_run c ins st0 = Ok st.
Proof. exact run_total. Qed.
Print Assumptions C02_never_fails.

(** C03.  When a block has been emitted, every needed message had been delivered. *)
Theorem C03_not_premature : ∀ mt b c ins st pb,
  wf_block mt b → consumer_run c ins st → Forall input_ok ins → faithful mt b (messages ins) →
  emitted_batch st (ba_hash (bk_args b)) pb → ∀ kd, needed mt b (mc_tracked c) kd → delivered (messages ins) kd.
Proof. exact not_premature. Qed.
Print Assumptions C03_not_premature.

(** C03 without the rule that update values are not empty: two copies of an empty update are
    counted twice, and the block is emitted without its other update. *)
Theorem C03_empty_values_refuted : ∃ mt b c ins st pb kd,
  consumer_run c ins st ∧ Forall input_ok ins ∧ Forall (copy_of mt b) (messages ins) ∧
  emitted_batch st (ba_hash (bk_args b)) pb ∧ needed mt b (mc_tracked c) kd ∧ ¬ delivered (messages ins) kd.
Proof. exact empty_values_refuted. Qed.
Print Assumptions C03_empty_values_refuted.

(** C04.  Between two emissions of the same block with no reorg message in between, at least
    2*ReorgThreshold other blocks were emitted. *)
Theorem C04_once_per_window : ∀ c ins0 st i st1 ins st2 o1 pb1 o2 mid pb2 post,
  consumer_run c ins0 st →
  mp_step c st i = Ok st1 → mp_out st1 = mp_out st ++ o1 → EBatch pb1 ∈ o1 →
  (∀ m, m ∈ messages ins → ¬ reorg_type m) → mp_run c ins st1 = Ok st2 → mp_out st2 = mp_out st1 ++ o2 →
  o2 = mid ++ EBatch pb2 :: post → pb_hash pb2 = pb_hash pb1 →
  ∃ hs, NoDup hs ∧ length hs = Z.to_nat (2 * mc_thr c) ∧ pb_hash pb1 ∉ hs ∧
        ∀ h, h ∈ hs → ∃ pb, EBatch pb ∈ mid ∧ pb_hash pb = h.
Proof. exact emitted_once. Qed.
Print Assumptions C04_once_per_window.

(** ... and one message emits at most one block. *)
Theorem C04_one_per_message : ∀ c ins0 st m e st1 err o,
  consumer_run c ins0 st → process c e st m = Ok (st1, err) → mp_out st1 = mp_out st ++ o →
  ¬ reorg_type m → ∀ pb pb', EBatch pb ∈ o → EBatch pb' ∈ o → pb = pb'.
Proof. exact one_per_message. Qed.
Print Assumptions C04_one_per_message.

(** C05.  A block is emitted exactly when the needed messages are in; messages on other prefixes
    make no difference, and nothing of theirs is in the batch. *)
Theorem C05_emitted_iff_needed : ∀ mt b c ins st,
  wf_block mt b → consumer_run c ins st → Forall input_ok ins → faithful mt b (messages ins) →
  (∀ n, requested ins n → (n ≤ ba_num (bk_args b))%Z) →
  ((∃ pb, emitted_batch st (ba_hash (bk_args b)) pb) ↔
   (∀ kd, needed mt b (mc_tracked c) kd → delivered (messages ins) kd)).
Proof. exact emitted_iff_needed. Qed.
Print Assumptions C05_emitted_iff_needed.

Theorem C05_nothing_untracked : ∀ mt b c ins st pb k,
  wf_block mt b → consumer_run c ins st → Forall input_ok ins → faithful mt b (messages ins) →
  emitted_batch st (ba_hash (bk_args b)) pb → k ∈ dom (pb_values pb) ∨ k ∈ pb_deletes pb →
  mc_tracked c (default k (mt k)) = true ∨
  ∃ x id pt, ba_batches (bk_args b) !! x = Some id ∧ mc_tracked c x = true ∧ pt ∈ bk_parts b id ∧
             (k ∈ dom (pt_updates pt) ∨ k ∈ pt_deletes pt).
Proof. exact nothing_untracked. Qed.
Print Assumptions C05_nothing_untracked.

(** C06.  A message about one block changes neither what is collected or queued for another block
    nor does it emit anything about it; the other block may only be discarded as requested. *)
Theorem C06_no_contamination : ∀ c ins0 st m e st' err h,
  consumer_run c ins0 st → process c e st m = Ok (st', err) → hash_ok h → about h m →
  (∃ o, mp_out st' = mp_out st ++ o ∧
        Forall (λ ev, match ev with EWaiter x _ _ _ => x = h | EBatch pb => pb_hash pb = h | EReorg _ x => x = h end) o) ∧
  ∀ h', h' ≠ h →
    mp_queue st' !! h' = mp_queue st !! h' ∧
    (mp_pend st' !! h' = mp_pend st !! h' ∨
     mp_pend st' !! h' = None ∧
     ∃ pb n, mp_pend st !! h' = Some pb ∧ (pb_num pb < n)%Z ∧ (n ∈ mp_evict st ∨ ∃ k, n ∈ me_evict e k)).
Proof. exact no_contamination. Qed.
Print Assumptions C06_no_contamination.

(** C17, covering.  Every needed message was delivered at or after the offset that the token has
    for its source ... *)
Theorem C17_token_covers : ∀ mt b c ins st pb,
  wf_block mt b → consumer_run c ins st → Forall input_ok ins → faithful mt b (messages ins) →
  emitted_batch st (ba_hash (bk_args b)) pb →
  ∀ kd, needed mt b (mc_tracked c) kd →
    ∃ m, m ∈ messages ins ∧ m_key m = key_of kd ∧ reread (pb_res pb) m.
Proof. exact token_covers. Qed.
Print Assumptions C17_token_covers.

(** ... so that a new consumer that is given those messages again, in any order and among others,
    emits the block again with the same data. *)
Theorem C17_reread_completes : ∀ mt b c ins st pb ins2 st2,
  wf_block mt b → consumer_run c ins st → Forall input_ok ins → faithful mt b (messages ins) →
  emitted_batch st (ba_hash (bk_args b)) pb →
  consumer_run c ins2 st2 → Forall input_ok ins2 → faithful mt b (messages ins2) →
  (∀ n, requested ins2 n → (n ≤ ba_num (bk_args b))%Z) →
  (∀ m, m ∈ messages ins → reread (pb_res pb) m → m ∈ messages ins2) →
  ∃ pb2, emitted_batch st2 (ba_hash (bk_args b)) pb2 ∧
    pb_num pb2 = pb_num pb ∧ pb_weight pb2 = pb_weight pb ∧ pb_parent pb2 = pb_parent pb ∧
    (pb_values pb2 : gmap bytes bytes) = pb_values pb ∧ pb_deletes pb2 = pb_deletes pb.
Proof. exact reread_completes. Qed.
Print Assumptions C17_reread_completes.

(** C32.  An incomplete block older than an outstanding request is dropped by the next message ... *)
Theorem C32_dropped : ∀ c ins0 st m e st' err h pb n,
  consumer_run c ins0 st → n ∈ mp_evict st → mp_pend st !! h = Some pb → (pb_num pb < n)%Z →
  ¬ reorg_type m → process c e st m = Ok (st', err) →
  discarded h st' ∧ ∃ o, mp_out st' = mp_out st ++ o ∧ Forall (λ ev, event_hash ev ≠ h) o.
Proof. exact old_dropped. Qed.
Print Assumptions C32_dropped.

(** ... and stays dropped, with nothing emitted for it, until a reorg message. *)
Theorem C32_stays_dropped : ∀ c ins0 st ins st' h,
  consumer_run c ins0 st → discarded h st → (∀ m, m ∈ messages ins → ¬ reorg_type m) → mp_run c ins st = Ok st' →
  discarded h st' ∧ ∃ o, mp_out st' = mp_out st ++ o ∧ Forall (λ ev, event_hash ev ≠ h) o.
Proof. exact stays_dropped. Qed.
Print Assumptions C32_stays_dropped.

(** A request is recorded unless a hundred are outstanding. *)
Theorem C32_recorded : ∀ st n, length (mp_evict st) < 100 → n ∈ mp_evict (evict_older_than st n).
Proof. exact request_recorded. Qed.
Print Assumptions C32_recorded.

(** C46, for relative paths.  The lookup ends, and uses the first of the candidates that has a
    positive counter, which is decremented; for a path made of plain elements the candidates are
    the path itself and its ancestors, nearest first. *)
Theorem C46_terminates_partial : ∀ prefixes frp p, rooted p = false → dec_prefix prefixes frp p ≠ Hang.
Proof. exact dec_prefix_terminates. Qed.
Print Assumptions C46_terminates_partial.

Theorem C46_first_match : ∀ prefixes frp cs r,
  Forall plain cs → cs ≠ [] → dec_prefix prefixes frp (join_slash cs) = Ok r →
  let candidates := join_slash cs :: map (λ i, join_slash (take i cs) ++ [slash]) (rev (seq 1 (length cs))) in
  match r with
  | Some m => ∃ k v pre post, candidates = pre ++ k :: post ∧
                (∀ q w, q ∈ pre → prefixes !! q = Some w → (w ≤ 0)%Z) ∧
                prefixes !! k = Some v ∧ (0 < v)%Z ∧ m = <[k := (v - 1)%Z]> prefixes
  | None => ∀ q w, q ∈ candidates → prefixes !! q = Some w → (w ≤ 0)%Z
  end.
Proof. exact first_match. Qed.
Print Assumptions C46_first_match.

(** The lookup of an absolute path without counter never ends: no number of iterations suffices. *)
Theorem C46_refuted : ∃ p, ∀ fuel, dec_loop fuel ∅ false p = Hang.
Proof. exact absolute_hangs. Qed.
Print Assumptions C46_refuted.

(** C49.  A useless message (see [useless]) changes nothing but the set of kept messages and
    resumption offsets, as long as no complete block is left unemitted ... *)
Theorem C49_harmless : ∀ c ins0 st m e h kd,
  consumer_run c ins0 st → mp_evict st = [] → settled st →
  useless st h kd → kind_hash kd = h → kind_ok kd → m_key m = key_of kd →
  ∃ st' err, process c e st m = Ok (st', err) ∧
    mp_out st' = mp_out st ∧ mp_queue st' = mp_queue st ∧ mp_done st' = mp_done st ∧ mp_old st' = mp_old st ∧
    ∀ h', same_pending (mp_pend st !! h') (mp_pend st' !! h').
Proof. exact harmless. Qed.
Print Assumptions C49_harmless.

(** ... which is so in every run without decoding errors. *)
Theorem C49_settled : ∀ c ins last st0 st, mp_new c last = Ok st0 → error_free c ins st0 st → settled st.
Proof. exact runs_settled. Qed.
Print Assumptions C49_settled.

(** Malformed messages are not harmless: a sub-batch header that does not decode removes the
    sub-batch from the expected ones, and the block is emitted without it. *)
Theorem C49_malformed_refuted : ∃ mt b c ms bad st pb kd,
  wf_block mt b ∧ Forall (copy_of mt b) ms ∧ m_key bad = key_of (KSubHead (ba_hash (bk_args b)) 9) ∧ decode_int (m_val bad) = None ∧
  run_new c (take 3 ms ++ bad :: drop 3 ms) = Ok st ∧ emitted_batch st (ba_hash (bk_args b)) pb ∧
  needed mt b (mc_tracked c) kd ∧ ¬ delivered ms kd.
Proof. exact malformed_refuted. Qed.
Print Assumptions C49_malformed_refuted.

(** * Concrete cases *)
(** C01-C03, C05, C17: the hypotheses hold and the block is emitted once, with its data. *)
Example C01_case : wf_block ex_mt ex_block ∧ faithful ex_mt ex_block (messages (ex_inputs ex_deliveries)) ∧
  Forall input_ok (ex_inputs ex_deliveries) ∧ (∀ n, ¬ requested (ex_inputs ex_deliveries) n) ∧
  (∃ st, consumer_run ex_all (ex_inputs ex_deliveries) st) ∧
  ex_result ex_all ex_deliveries =
    Some [(7%Z, 1%N, [(str "s/a"%string, [x01]); (str "x/k"%string, [x03]); (str "x/l"%string, [x04]); (str "n"%string, [x02])],
           [str "s/b"%string; str "x/d"%string])] ∧
  ex_result ex_all (take 9 ex_deliveries) = Some [] ∧
  ex_result ex_some (take 5 ex_deliveries) = Some [] ∧
  ex_result ex_some (take 6 ex_deliveries) =
    Some [(7%Z, 1%N, [(str "x/k"%string, [x03]); (str "x/l"%string, [x04]); (str "n"%string, [x02])], [str "x/d"%string])].
Proof.
  split; [exact ex_wf|]. rewrite ex_messages. split; [exact ex_faithful|]. split; [apply ex_inputs_ok|].
  split; [apply ex_requested|]. split.
  { destruct (run_new_ok ex_all ex_deliveries) as [st H]; [by vm_compute|]. exists st. by apply run_new_run. }
  split_and!; by vm_compute.
Qed.

(** Blocks consisting of a header only, and the hashes of the batches emitted for a list of inputs. *)
Definition bare (h : hash) (n : Z) : msg :=
  ex_msg 0 (KBatch h) (encode_batch (Batch n (bigint_bytes 1) 0 ∅) []).
Definition emitted_hashes (c : mp_config) (ins : list mp_input) : option (list hash) :=
  match mp_new c 0 with
  | Ok st0 => match mp_run c ins st0 with
    | Ok st => Some (omap (λ e, match e with EBatch pb => Some (pb_hash pb) | _ => None end) (mp_out st))
    | _ => None end
  | _ => None
  end.
Definition one_all : mp_config := MPC 1 (λ _, true) false.
(** C04: with threshold one, two other blocks are needed before block 1 is emitted again; a reorg
    message has the same effect. *)
Example C04_case :
  emitted_hashes one_all (ex_inputs [bare 1 1; bare 1 1; bare 2 2; bare 1 1]) = Some [1%N; 2%N] ∧
  emitted_hashes one_all (ex_inputs [bare 1 1; bare 2 2; bare 3 3; bare 1 1]) = Some [1%N; 2%N; 3%N; 1%N] ∧
  emitted_hashes one_all (ex_inputs [bare 1 1; ex_msg 0 (KReorg 5) (avro_int 4); bare 1 1]) = Some [1%N; 1%N].
Proof. split_and!; by vm_compute. Qed.

(** C06: the messages of the example block interleaved with other blocks, one of them with the same keys. *)
Example C06_case :
  emitted_hashes ex_all (ex_inputs [bare 2 6; ex_m_header 0; ex_m_part0 1; bare 3 8; ex_m_subhead 2;
    ex_msg 0 (KUpdate 4 (str "s/a"%string)) [x07]; ex_m_update 3; ex_m_part1 4; ex_m_delete 5]) = Some [2%N; 3%N; 1%N].
Proof. by vm_compute. Qed.

(** C32: the example block, incomplete, is dropped by a request for 8 but not by one for 7. *)
Example C32_case :
  let first := ex_inputs [ex_m_header 0; ex_m_part0 1; ex_m_subhead 2] in
  let rest := ex_inputs [ex_m_update 3; ex_m_part1 4; ex_m_delete 5] in
  emitted_hashes ex_all (first ++ [IEvict 8] ++ rest) = Some [] ∧
  emitted_hashes ex_all (first ++ [IEvict 8] ++ rest ++ first ++ rest) = Some [] ∧
  emitted_hashes ex_all (first ++ [IEvict 7] ++ rest) = Some [1%N].
Proof. split_and!; by vm_compute. Qed.

(** C46: "s/t/a" is counted under "s/", and not under "s/t" or "t/". *)
Example C46_case :
  match dec_prefix {[(str "s/"%string : bytes) := 2%Z]} false (str "s/t/a"%string) with
  | Ok (Some m) => map_to_list m = [(str "s/"%string, 1%Z)] | _ => False end ∧
  match dec_prefix {[(str "s/t"%string : bytes) := 2%Z]} false (str "s/t/a"%string) with Ok None => True | _ => False end ∧
  match dec_prefix {[(str "t/"%string : bytes) := 2%Z]} false (str "s/t/a"%string) with Ok None => True | _ => False end ∧
  Forall plain [str "s"%string; str "t"%string; str "a"%string].
Proof.
  split; [by vm_compute|]. split; [by vm_compute|]. split; [by vm_compute|].
  repeat constructor; try done; apply (bool_decide_unpack _); by vm_compute.
Qed.

(** C49: with the header and a part collected, these messages are all useless. *)
Definition C49_facts (st : mp) (pb : pending_batch) : bool :=
  bool_decide (mp_evict st = []) && bool_decide (map_Forall (λ _ p, ready p = false) (mp_pend st)) &&
  bool_decide (9%N ∉ pb_pbatches pb) && bool_decide (8%N ∉ pb_pbatches pb) &&
  bool_decide (pb_batches pb !! 9%N = Some [true; false]) && bool_decide (pb_batches pb !! 8%N = None) &&
  bool_decide (pb_values pb !! (str "s/a"%string : bytes) = Some [x01]) &&
  bool_decide (Forall (λ k, pb_prefixes pb !! k = None) (lookup_keys (str "q/a"%string))).
Example C49_case : ∃ st, run_new ex_all [ex_m_header 0; ex_m_subhead 1; ex_m_part0 2; ex_m_update 3] = Ok st ∧
  mp_evict st = [] ∧ settled st ∧
  useless st 1 (KSubMsg 1 9 0) ∧ useless st 1 (KSubHead 1 9) ∧ useless st 1 (KSubHead 1 8) ∧
  useless st 1 (KSubMsg 1 8 3) ∧ useless st 1 (KUpdate 1 (str "s/a"%string)) ∧ useless st 1 (KUpdate 1 (str "q/a"%string)).
Proof.
  assert (H : match run_new ex_all [ex_m_header 0; ex_m_subhead 1; ex_m_part0 2; ex_m_update 3] with
    | Ok st => match mp_pend st !! 1%N with Some pb => C49_facts st pb | None => false end | _ => false end = true)
    by (vm_compute; reflexivity).
  destruct (run_new ex_all _) as [st| |]; try done. exists st. split; [done|].
  destruct (mp_pend st !! 1%N) as [pb|] eqn:Hp; [|done]. unfold C49_facts in H.
  rewrite !andb_true_iff, !bool_decide_eq_true in H. destruct H as [[[[[[[H1 H2] H3] H4] H5] H6] H7] H8].
  split; [done|]. split; [intros h p Hh; exact (H2 h p Hh)|].
  split; [by apply (UHavePart st 1 pb 9 0 [true; false])|]. split; [by apply (UNoSub st 1 pb 9)|].
  split; [by apply (UNoSub st 1 pb 8)|]. split; [by apply (UNoPart st 1 pb 8 3)|].
  split; [by apply (UHaveValue st 1 pb (str "s/a"%string) [x01])|].
  apply (UNoValue st 1 pb (str "q/a"%string)); [done|]. split; [done|].
  intros k v Hk Hv. rewrite Forall_forall in H8. rewrite (H8 k Hk) in Hv. done.
Qed.
