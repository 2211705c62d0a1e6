(** Model of transports/kafka.go (producer, start offsets, heartbeats, message loop) and of the
    resumption token of delivery/consumer.go:44-55.
    Sarama is represented by its documented behaviour: an offset can be consumed if it lies
    between the oldest and the newest offset of the partition, OffsetNewest and OffsetOldest stand for
    those; an asynchronous producer accepts a message or hands over an earlier error.
    What is read from a feed at the start is in Feed.v.
    Not modelled: ParseKafkaURL (TLS and SASL options), CreateTopicIfDoesNotExist, the
    drumline, metrics, shutdown. *)
From Coq Require Import Strings.String.
From Verif Require Import Base Lru Types Avro Wire GoPath GoText Producer Consumer.

(** ** Resumption tokens *)
Definition semicolon : byte := x3b.
Definition equals_sign : byte := x3d.

(** fmt.Sprintf("%v=%v", k, v), consumer.go:47,51 *)
Definition token_part (e : bytes * Z) : bytes := e.1 ++ equals_sign :: int_text e.2.
(** consumer.go:44-55 [Resumption]; [es] and [ds] list the two maps in iteration order. *)
Definition resumption_text (res : gmap bytes Z) (es ds : list (bytes * Z)) : bytes :=
  join_byte semicolon (map token_part (es ++ filter (λ e, res !! e.1 = None) ds)).
(** kafka.go:478-484; [None] is the error of strconv.Atoi. *)
Fixpoint parse_parts (parts : list bytes) (acc : gmap bytes Z) : option (gmap bytes Z) :=
  match parts with
  | [] => Some acc
  | part :: r =>
    match split_byte equals_sign part with
    | [k; v] => match atoi v with Some o => parse_parts r (<[k := o]> acc) | None => None end
    | _ => parse_parts r acc
    end
  end.
Definition parse_token (token : bytes) : option (gmap bytes Z) := parse_parts (split_byte semicolon token) ∅.

(** ** Where a partition consumer starts *)
Definition OffsetNewest : Z := -1.
Definition OffsetOldest : Z := -2.
(** The offsets a partition holds: messages [oldest <= q < newest]. *)
Record partition := Prt { pt_oldest : Z; pt_newest : Z }.
(** sarama's ConsumePartition: the first offset delivered, [None] for ErrOffsetOutOfRange *)
Definition consume_partition (p : partition) (off : Z) : option Z :=
  if bool_decide (off = OffsetNewest) then Some (pt_newest p)
  else if bool_decide (off = OffsetOldest) then Some (pt_oldest p)
  else if bool_decide (pt_oldest p <= off <= pt_newest p)%Z then Some off
  else None.
(** kafka.go:553-579: [entry] is the token's entry for the partition, [get] says whether
    GetOffset succeeds; [None] is an error of Start. *)
Definition start_partition (entry : option Z) (rollback : Z) (start : hash) (get : bool) (p : partition) : option Z :=
  let fresh :=
    if bool_decide (start = zero_hash) && bool_decide (0 <= rollback)%Z
    then if get then (pt_newest p, (pt_newest p - 1)%Z) else (OffsetNewest, OffsetNewest)   (* 557-566 *)
    else (OffsetOldest, OffsetOldest) in                                                 (* 567-569 *)
  let '(offset, startOffset) :=
    match entry with
    | None => fresh
    | Some o => if bool_decide (o < rollback)%Z then fresh else (o, (o - rollback)%Z)    (* 571-573 *)
    end in
  match consume_partition p startOffset with                                             (* 574-579 *)
  | Some s => Some s
  | None => consume_partition p offset
  end.

(** ** Heartbeats *)
(** kafka.go:31-35; times are counted from some origin, in any unit *)
Definition tracker := gmap hash Z.
Definition tracker_update (pt : tracker) (key : hash) (now : Z) : tracker := <[key := now]> pt.
(** kafka.go:37-46 [ProducerCount] *)
Definition tracker_count (pt : tracker) (now d : Z) : nat :=
  length (filter (λ e : hash * Z, (now - e.2 < d)%Z) (map_to_list pt)).

(** ** KafkaProducer *)
(** kafka.go:216-226.  [kp_sent]: the messages handed to the asynchronous producer so far, with
    their topics.  [reorgTopic] is always empty: the code setting it is commented out. *)
Record kproducer := KP {
  kp_dp : producer;
  kp_recent : lru hash;      (* recentHashes *)
  kp_skip : lru hash;        (* skipBatches *)
  kp_pt : tracker;
  kp_sent : list (topic * pmsg)
}.
(** kafka.go:301-303 *)
Definition kp_new (dp : producer) : kproducer :=
  KP dp (lru_new (Z.to_nat 4096)) (lru_new (Z.to_nat 1024)) ∅ [].

(** kafka.go:332-350 [emitBundle], [emit]: [es] lists the bundle in iteration order; [stop] is the
    number of messages accepted before an error is received, [None] if there is none. *)
Definition bundle_msgs (es : list (topic * list pmsg)) : list (topic * pmsg) :=
  concat (map (λ e, map (pair e.1) e.2) es).
Definition emit_bundle (es : list (topic * list pmsg)) (stop : option nat) : list (topic * pmsg) * bool :=
  let ms := bundle_msgs es in
  match stop with
  | Some n => if bool_decide (n < length ms) then (take n ms, false) else (ms, true)
  | None => (ms, true)
  end.

Inductive kp_error := KAdd (e : add_error) | KUnknownBatch | KEmit.
Definition skip_all (c : lru hash) (ids : list hash) : lru hash := foldl (λ c id, (lru_add c id).1) c ids.
(** Iteration order of emitBundle and the point of failure *)
Record kemit := KE { ke_ord : list (topic * list pmsg) → list (topic * list pmsg); ke_stop : option nat }.
Definition kemit_ok (e : kemit) : Prop := ∀ l, ke_ord e l ≡ₚ l.
Definition kp_emit (kp : kproducer) (dp : producer) (e : kemit) (tm : topics) : kproducer * option kp_error :=
  let '(ms, ok) := emit_bundle (ke_ord e (map_to_list tm)) (ke_stop e) in
  (KP dp (kp_recent kp) (kp_skip kp) (kp_pt kp) (kp_sent kp ++ ms), if ok then None else Some KEmit).
(** kafka.go:352-365 [AddBlock]; [ids]: order of the loop over [batches] *)
Definition kp_add (kp : kproducer) (o : aorder) (ids : list hash → list hash) (e : kemit) (a : block_args)
  : kproducer * option kp_error :=
  if lru_contains (kp_recent kp) (ba_hash a)
  then (KP (kp_dp kp) (kp_recent kp) (skip_all (kp_skip kp) (ids (map_to_list (ba_batches a)).*2))
           (kp_pt kp) (kp_sent kp), None)
  else match add_block (kp_dp kp) o a with
    | (dp, inl err) => (KP dp (kp_recent kp) (kp_skip kp) (kp_pt kp) (kp_sent kp), Some (KAdd err))
    | (dp, inr tm) => kp_emit kp dp e tm
    end.
(** kafka.go:366-373 [SendBatch] *)
Definition kp_send (kp : kproducer) (ord : list bytes → list bytes) (e : kemit) (id : hash)
    (deletes : list bytes) (update : gmap bytes bytes) : kproducer * option kp_error :=
  match send_batch (kp_dp kp) ord id deletes update with
  | (dp, None) =>
    (KP dp (kp_recent kp) (kp_skip kp) (kp_pt kp) (kp_sent kp),
     if lru_contains (kp_skip kp) id then None else Some KUnknownBatch)
  | (dp, Some tm) => kp_emit kp dp e tm
  end.
(** kafka.go:454-457 [PurgeReplayCache] *)
Definition kp_purge (kp : kproducer) : kproducer :=
  KP (kp_dp kp) (lru_purge (kp_recent kp)) (lru_purge (kp_skip kp)) (kp_pt kp) (kp_sent kp).
(** kafka.go:283-296,313-316: one message of the feed, seen at time [now] by a producer whose
    identity is [self]; the slice of a short key panics *)
Definition kp_feed (self : bytes) (kp : kproducer) (now : Z) (key : bytes) : outcome kproducer :=
  match key with
  | [] => Ok kp
  | t :: r =>
    if bool_decide (t = BatchType) then
      if bool_decide (length key < 33) then Panic
      else Ok (KP (kp_dp kp) (lru_add (kp_recent kp) (bytes_hash (take 32 r))).1 (kp_skip kp) (kp_pt kp) (kp_sent kp))
    else if bool_decide (t = PingType) then
      if bool_decide (r = self) then Ok kp
      else Ok (KP (kp_dp kp) (kp_recent kp) (kp_skip kp) (tracker_update (kp_pt kp) (bytes_hash r) now) (kp_sent kp))
    else Ok kp
  end.

(** What happens to a producer, in the order in which it takes effect *)
Inductive kp_event :=
| KFeed (now : Z) (key : bytes)
| KAddBlock (o : aorder) (ids : list hash → list hash) (e : kemit) (a : block_args)
| KSendBatch (ord : list bytes → list bytes) (e : kemit) (id : hash) (deletes : list bytes) (update : gmap bytes bytes)
| KPurge.
Definition kp_step (self : bytes) (kp : kproducer) (ev : kp_event) : outcome kproducer :=
  match ev with
  | KFeed now key => kp_feed self kp now key
  | KAddBlock o ids e a => Ok (kp_add kp o ids e a).1
  | KSendBatch ord e id ds us => Ok (kp_send kp ord e id ds us).1
  | KPurge => Ok (kp_purge kp)
  end.
Definition kp_run (self : bytes) (kp : kproducer) (evs : list kp_event) : outcome kproducer := foldM (kp_step self) evs kp.

(** ** The message loop of a consumer, kafka.go:653-695 *)
Record kconsumer := KC { kc_mp : mp; kc_wg : Z (* reorgWg *); kc_pt : tracker }.
(** Effects outside the loop's own state: a second consumer is started on the named topic and
    drained (673-680). *)
Inductive kc_effect := KNone | KReorgTopic (t : bytes).
Definition hex_digit (n : N) : byte := byte_of (if (n <? 10)%N then 48 + n else 87 + n).
Definition hex_text (b : bytes) : bytes :=
  concat (map (λ c, [hex_digit (byte_N c / 16); hex_digit (byte_N c mod 16)]%N) b).
Definition kc_message (c : mp_config) (isReorg : bool) (topic : bytes) (st : kconsumer) (now : Z) (m : msg) (e : menv)
  : outcome (kconsumer * kc_effect) :=
  match m_key m with
  | [] => Ok (st, KNone)                                                        (* 658-664 *)
  | t :: r =>
    if bool_decide (t = ReorgType) then
      if isReorg then
        s ← process c e (kc_mp st) m; Ok (KC (fst s) (kc_wg st + 1) (kc_pt st), KNone)  (* 682-685 *)
      else Ok (st, KReorgTopic (topic ++ str "-re-" ++ hex_text r))             (* 668-680 *)
    else if bool_decide (t = PingType) then
      Ok (KC (kc_mp st) (kc_wg st) (tracker_update (kc_pt st) (bytes_hash r) now), KNone)
    else if bool_decide (t = ReorgCompleteType) then
      if bool_decide (kc_wg st <= 0)%Z then Panic                               (* 690, negative WaitGroup counter *)
      else Ok (KC (kc_mp st) (kc_wg st - 1) (kc_pt st), KNone)
    else s ← process c e (kc_mp st) m; Ok (KC (fst s) (kc_wg st) (kc_pt st), KNone)
  end.
Definition kc_run (c : mp_config) (isReorg : bool) (topic : bytes) (ms : list (Z * msg * menv)) (st : kconsumer) : outcome kconsumer :=
  foldM (λ st x, r ← kc_message c isReorg topic st x.1.1 x.1.2 x.2; Ok (fst r)) ms st.
