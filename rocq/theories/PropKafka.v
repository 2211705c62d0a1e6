(** The Kafka transport: resumption tokens (C18), start offsets (C19), duplicate suppression (C42),
    heartbeats (C43), dispatch of feed messages (C50). *)
From Coq Require Import Strings.String.
From Verif Require Import Base Lru Types Avro Wire SpecWire GoText Producer SpecBlock SpecProducer ProducerFacts4 Consumer SpecCollect ExampleBlock
  ExampleProducer Kafka SpecKafka KafkaFacts KafkaFacts2 KafkaFacts3.

(** C18.  What a new consumer reads from the token of a batch is the union of the batch's own
    offsets and the defaults recorded with it. *)
Theorem C18_token_roundtrip : ∀ (res def : gmap bytes Z) es ds, es ≡ₚ map_to_list res → ds ≡ₚ map_to_list def →
  (∀ k v, res !! k = Some v ∨ def !! k = Some v → legal_source k ∧ in_int64 v) →
  parse_token (resumption_text res es ds) = Some (res ∪ def).
Proof. exact token_roundtrip. Qed.
Print Assumptions C18_token_roundtrip.

Definition ex_res : gmap bytes Z := {[(str "blocks:0"%string : bytes) := 17%Z; (str "states:0"%string : bytes) := 0%Z]}.
Definition ex_def : gmap bytes Z := {[(str "states:0"%string : bytes) := 99%Z; (str "states:1"%string : bytes) := (-5)%Z]}.
Example C18_case :
  (let t := resumption_text ex_res (map_to_list ex_res) (map_to_list ex_def) in
   bool_decide (t ∈ [str "blocks:0=17;states:0=0;states:1=-5"; str "states:0=0;blocks:0=17;states:1=-5"]%string)) = true ∧
  resumption_text ex_res [(str "states:0", 0%Z); (str "blocks:0", 17%Z)]%string [(str "states:1", -5)%Z; (str "states:0", 99)%Z]%string
    = str "states:0=0;blocks:0=17;states:1=-5"%string ∧
  parse_token [] = Some ∅ ∧ bool_decide (legal_source (str "states:0"%string)) = true.
Proof. split_and!; by vm_compute. Qed.

(** C19.  With an entry no earlier than the rollback, or a configured start hash, nothing still
    held by the broker from the token's offset on is skipped; the start is exactly [rollback] earlier if
    that is still available. *)
Theorem C19_never_skips_partial : ∀ o rb start get p s, partition_ok p → (0 ≤ rb)%Z → (0 ≤ o)%Z → (rb ≤ o)%Z ∨ start ≠ zero_hash →
  start_partition (Some o) rb start get p = Some s →
  (∀ q, held p q → (o ≤ q)%Z → (s ≤ q)%Z) ∧ ((pt_oldest p ≤ o - rb)%Z → (o ≤ pt_newest p)%Z → s = (o - rb)%Z).
Proof. exact start_never_skips. Qed.
Print Assumptions C19_never_skips_partial.

(** Without an entry: the oldest message if a start hash is configured (or the rollback is
    negative), else the last message, or the end of the feed if that cannot be found. *)
Theorem C19_no_entry : ∀ rb start get p, partition_ok p → start_partition None rb start get p =
  Some (if bool_decide (start = zero_hash) && bool_decide (0 ≤ rb)%Z
        then if get && bool_decide (pt_oldest p < pt_newest p)%Z then (pt_newest p - 1)%Z else pt_newest p
        else pt_oldest p).
Proof. exact start_no_entry. Qed.
Print Assumptions C19_no_entry.

(** A consumer without a start hash whose token offset is smaller than the rollback skips
    messages. *)
Theorem C19_small_offset_refuted : ∃ o rb p s q, partition_ok p ∧ (0 ≤ o < rb)%Z ∧ start_partition (Some o) rb zero_hash true p = Some s ∧
  held p q ∧ (o ≤ q < s)%Z.
Proof. exists 3%Z, 5%Z, (Prt 0 10), 9%Z, 4%Z. repeat split; vm_compute; congruence. Qed.
Print Assumptions C19_small_offset_refuted.

(** If the rolled back offset is no longer available, the consumer starts at the token's
    offset, although older messages could be replayed. *)
Theorem C19_pruned_refuted : ∃ o rb start p s, partition_ok p ∧ (0 ≤ rb ≤ o)%Z ∧ start_partition (Some o) rb start true p = Some s ∧
  s ≠ (o - rb)%Z ∧ s ≠ pt_oldest p.
Proof. exists 10%Z, 5%Z, 1%N, (Prt 7 20), 10%Z. repeat split; vm_compute; congruence. Qed.
Print Assumptions C19_pruned_refuted.

Example C19_case : (start_partition (Some 10) 3 zero_hash true (Prt 2 20) = Some 7 ∧ start_partition (Some 3) 5 1%N true (Prt 2 20) = Some 2 ∧
  start_partition None 5 zero_hash true (Prt 2 20) = Some 19 ∧ start_partition None 0 zero_hash false (Prt 2 20) = Some 20 ∧
  start_partition None 5 1%N true (Prt 2 20) = Some 2)%Z.
Proof. split_and!; by vm_compute. Qed.

(** C42.  A block whose header was read from the feed (fewer than 4096 headers ago) is not sent;
    the inner producer does not even learn of it. *)
Theorem C42_known_block : ∀ self dp evs kp o ids e a, hash_ok (ba_hash a) →
  kp_run self (kp_new dp) evs = Ok kp → seen_within 4096 evs (ba_hash a) →
  let r := kp_add kp o ids e a in r.2 = None ∧ kp_sent r.1 = kp_sent kp ∧ kp_dp r.1 = kp_dp kp.
Proof. intros. unfold r. by rewrite kp_add_known by (by eapply seen_recent). Qed.
Print Assumptions C42_known_block.

(** Its sub-batches, at most 1024 with those named since, are accepted without sending anything. *)
Theorem C42_known_batches : ∀ self dp evs kp o ids e a post kp' id ord e' d u, hash_ok (ba_hash a) → (∀ l, ids l ≡ₚ l) →
  kp_run self (kp_new dp) evs = Ok kp → seen_within 4096 evs (ba_hash a) →
  announces a id → KPurge ∉ post → Forall kp_event_ok post → (Z.of_nat (size (ba_batches a) + named post) ≤ 1024)%Z →
  kp_run self (kp_add kp o ids e a).1 post = Ok kp' → p_pending (kp_dp kp') !! id = None →
  kp_send kp' ord e' id d u = (kp', None).
Proof. intros. eapply known_batches; try done. by eapply seen_recent. Qed.
Print Assumptions C42_known_batches.

(** A block that was not read from the feed since the cache was purged is passed to the inner producer; each topic
    gets the messages of the bundle for that topic, in order, unless an error stops the emission. *)
Theorem C42_other_blocks : ∀ self dp evs kp o ids e a, kemit_ok e → kp_run self (kp_new dp) evs = Ok kp → unseen evs (ba_hash a) →
  match add_block (kp_dp kp) o a with
  | (_, inl er) => (kp_add kp o ids e a).2 = Some (KAdd er) ∧ kp_sent (kp_add kp o ids e a).1 = kp_sent kp
  | (_, inr tm) => ∃ sent rest, kp_sent (kp_add kp o ids e a).1 = kp_sent kp ++ sent ∧ (∀ t, for_topic (sent ++ rest) t = on_topic tm t) ∧
      (((kp_add kp o ids e a).2 = None ∧ rest = []) ∨ ((kp_add kp o ids e a).2 = Some KEmit ∧ rest ≠ [] ∧ ke_stop e ≠ None))
  end.
Proof. intros self dp evs kp o ids e a He H Hu. apply kp_add_unknown; [by eapply recent_seen|done]. Qed.
Print Assumptions C42_other_blocks.

Theorem C42_send : ∀ kp ord e id d u, kemit_ok e →
  match send_batch (kp_dp kp) ord id d u with
  | (_, None) => kp_sent (kp_send kp ord e id d u).1 = kp_sent kp ∧
      ((kp_send kp ord e id d u).2 = None ∨ (kp_send kp ord e id d u).2 = Some KUnknownBatch)
  | (_, Some tm) => ∃ sent rest, kp_sent (kp_send kp ord e id d u).1 = kp_sent kp ++ sent ∧ (∀ t, for_topic (sent ++ rest) t = on_topic tm t) ∧
      (((kp_send kp ord e id d u).2 = None ∧ rest = []) ∨ ((kp_send kp ord e id d u).2 = Some KEmit ∧ rest ≠ [] ∧ ke_stop e ≠ None))
  end.
Proof. exact kp_send_cases. Qed.
Print Assumptions C42_send.

(** A sub-batch that no block named since the cache was purged is an error if the inner producer does not know it. *)
Theorem C42_unnamed : ∀ self dp evs kp ord e id d u, Forall kp_event_ok evs → kp_run self (kp_new dp) evs = Ok kp → unnamed evs id →
  (send_batch (kp_dp kp) ord id d u).2 = None → (kp_send kp ord e id d u).2 = Some KUnknownBatch.
Proof. exact unnamed_unknown. Qed.
Print Assumptions C42_unnamed.

(** The memory is bounded: a header read 4096 headers ago is forgotten and the block sent again. *)
Theorem C42_forgotten_refuted : ∃ self dp evs kp h o ids e a now, KPurge ∉ evs ∧ KFeed now (key_of (KBatch h)) ∈ evs ∧
  kp_run self (kp_new dp) evs = Ok kp ∧ ba_hash a = h ∧ kp_sent (kp_add kp o ids e a).1 ≠ kp_sent kp.
Proof. exact rebroadcast. Qed.
Print Assumptions C42_forgotten_refuted.

Definition all_emit : kemit := KE reverse None.
Definition ex_history : list kp_event := [KFeed 3 (key_of (KBatch 5)); KFeed 4 []; KFeed 5 (key_of (KBatch (ba_hash ex_args))); KFeed 6 (PingType :: [x07])].
Example C42_case :
  match kp_run [x01] (kp_new ex_prod) ex_history, kp_run [x01] (kp_new ex_prod) [] with
  | Ok kp, Ok kp0 =>
    let r := kp_add kp id_aorder reverse all_emit ex_args in
    let r0 := kp_add kp0 id_aorder reverse all_emit ex_args in
    kp_sent r.1 = [] ∧ r.2 = None ∧ (kp_send r.1 id all_emit 9 [] ∅).2 = None ∧ (kp_send kp id all_emit 9 [] ∅).2 = Some KUnknownBatch ∧
    r0.2 = None ∧ length (kp_sent r0.1) = 3 ∧ (kp_send r0.1 id all_emit 9 [] ∅).2 = None ∧
    length (kp_sent (kp_send r0.1 id all_emit 9 [] ∅).1) = 4 ∧ length (kp_sent (kp_add kp0 id_aorder reverse (KE id (Some 2)) ex_args).1) = 2
  | _, _ => False
  end ∧ seen_within 4096 ex_history (ba_hash ex_args) ∧ announces ex_args 9.
Proof.
  split; [by vm_compute|]. split.
  - exists [KFeed 3 (key_of (KBatch 5)); KFeed 4 []], 5%Z, [KFeed 6 (PingType :: [x07])]. split; [done|]. split; [|by vm_compute].
    intros H. apply elem_of_list_singleton in H. discriminate H.
  - exists (str "x/"%string). by vm_compute.
Qed.

(** The same after a purge: the block is sent, and until it is, its sub-batch is an error. *)
Example C42_purge_case :
  match kp_run [x01] (kp_new ex_prod) (ex_history ++ [KAddBlock id_aorder reverse all_emit ex_args; KPurge]) with
  | Ok kp => (kp_send kp id all_emit 9 [] ∅).2 = Some KUnknownBatch ∧ length (kp_sent (kp_add kp id_aorder reverse all_emit ex_args).1) = 3
  | _ => False
  end ∧ unseen (ex_history ++ [KAddBlock id_aorder reverse all_emit ex_args; KPurge]) (ba_hash ex_args) ∧
  unnamed (ex_history ++ [KAddBlock id_aorder reverse all_emit ex_args; KPurge]) 9.
Proof.
  split; [by vm_compute|]. split; exists []; (split; [right; by eexists (ex_history ++ [_])|]).
  - intros k Hk. by apply not_elem_of_nil in Hk.
  - intros o ids e a Hk. by apply not_elem_of_nil in Hk.
Qed.

(** C43.  The count is the number of distinct identities whose last heartbeat is recent; a
    producer does not count itself. *)
Theorem C43_producer : ∀ self dp evs kp now d, kp_run self (kp_new dp) evs = Ok kp → ∃ ids : list hash, NoDup ids ∧
  tracker_count (kp_pt kp) now d = length ids ∧
  ∀ id, id ∈ ids ↔ ∃ t, latest_beat (λ k, k = self) (feed_of evs) id t ∧ (now - t < d)%Z.
Proof.
  intros self dp evs kp now d H. destruct (count_distinct (kp_pt kp) now d) as (ids & H1 & H2 & H3). exists ids. split; [done|]. split; [done|].
  intros id. rewrite H3. pose proof (kp_tracks _ _ _ _ H) as Ht. by setoid_rewrite (Ht id).
Qed.
Print Assumptions C43_producer.

Theorem C43_consumer : ∀ c re topic ms st st' now d, kc_pt st = ∅ → kc_run c re topic ms st = Ok st' → ∃ ids : list hash, NoDup ids ∧
  tracker_count (kc_pt st') now d = length ids ∧
  ∀ id, id ∈ ids ↔ ∃ t, latest_beat (λ _, False) (map (λ x, (x.1.1, m_key x.1.2)) ms) id t ∧ (now - t < d)%Z.
Proof.
  intros c re topic ms st st' now d H0 H. destruct (count_distinct (kc_pt st') now d) as (ids & H1 & H2 & H3). exists ids. split; [done|]. split; [done|].
  intros id. rewrite H3. pose proof (kc_tracks _ _ _ _ _ _ H0 H) as Ht. by setoid_rewrite (Ht id).
Qed.
Print Assumptions C43_consumer.

Example C43_case :
  match kp_run [x01] (kp_new ex_prod) [KFeed 0 (PingType :: [x07]); KFeed 5 (PingType :: [x01]); KFeed 6 (PingType :: [x08]); KFeed 7 (PingType :: [x09]); KFeed 9 (PingType :: [x07])] with
  | Ok kp => (tracker_count (kp_pt kp) 10 3, tracker_count (kp_pt kp) 10 4, tracker_count (kp_pt kp) 10 5, tracker_count (kp_pt kp) 10 1) = (1, 2, 3, 0)
  | _ => False
  end.
Proof. by vm_compute. Qed.

(** C50.  A consumer passes exactly the messages about blocks to its message processor, in
    order: heartbeats, empty keys and announcements of reorganisations never reach it. *)
Theorem C50_dispatch : ∀ c topic ms st st', kc_wg st = 0%Z → kc_run c false topic ms st = Ok st' →
  mp_run c (data_inputs ms) (kc_mp st) = Ok (kc_mp st') ∧ kc_wg st' = 0%Z ∧ ∀ x, x ∈ ms → head (m_key x.1.2) ≠ Some ReorgCompleteType.
Proof. exact loop_data. Qed.
Print Assumptions C50_dispatch.

Theorem C50_no_other_failure : ∀ c topic ms st st', kc_wg st = 0%Z → mp_run c (data_inputs ms) (kc_mp st) = Ok st' →
  (∀ x, x ∈ ms → head (m_key x.1.2) ≠ Some ReorgCompleteType) → ∃ s, kc_run c false topic ms st = Ok s ∧ kc_mp s = st'.
Proof. exact loop_ok. Qed.
Print Assumptions C50_no_other_failure.

Theorem C50_no_reorgs : ∀ ms m, m ∈ messages (data_inputs ms) → ¬ reorg_type m.
Proof. exact data_no_reorg. Qed.
Print Assumptions C50_no_reorgs.

(** A message announcing the end of a reorganisation that never began crashes the consumer. *)
Theorem C50_stray_reorg_done_refuted : ∃ c topic st0 now m e h, mp_new c 0 = Ok st0 ∧ m_key m = key_of (KReorgDone h) ∧
  kc_message c false topic (KC st0 0 ∅) now m e = Panic.
Proof.
  eexists ex_all, [], _, 0%Z, (Msg (key_of (KReorgDone 1)) [] [] 0), id_env, 1%N. split; [reflexivity|]. split; [done|]. by vm_compute.
Qed.
Print Assumptions C50_stray_reorg_done_refuted.

Example C50_case :
  let ping := Msg (PingType :: [x07]) [] [] 0 in let reorg := ex_msg 0 (KReorg 5) (avro_int 4) in let empty := Msg [] [] [] 0 in
  let data := [ex_m_part1 0; ex_m_update 1; ex_m_header 2; ex_m_part0 3; ex_m_subhead 5; ex_m_delete 9] in
  let feed := map (λ m, (0%Z, m, id_env)) (ping :: reorg :: take 2 data ++ empty :: drop 2 data) in
  data_inputs feed = map (λ m, IMsg m id_env) data ∧
  match mp_new ex_all 0 with
  | Ok st0 => match kc_run ex_all false [] feed (KC st0 0 ∅) with
    | Ok st => omap (λ ev, match ev with EBatch pb => Some (pb_hash pb) | _ => None end) (mp_out (kc_mp st)) = [1%N]
    | _ => False end
  | _ => False end.
Proof. split; by vm_compute. Qed.
