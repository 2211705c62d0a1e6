(** Model of what transports/kafka.go reads from a feed when it starts: the search for the latest block
    (405-452), the start of a producer (253-322), the start of a consumer's partitions (547-618)
    and the tokens made for timestamps (508-528; transports/resolver.go:75-91).

    Partitions hold messages in order of their offsets, with gaps where Kafka has none to deliver
    (compaction, transaction markers).  Kafka is represented as in Kafka.v.
    Not modelled: connection errors, the drumline (a third-party throttle that makes a partition
    wait for slower ones; it only delays), metrics. *)
From Coq Require Import Strings.String.
From Verif Require Import Base Lru Types Avro Wire GoPath GoText Producer Consumer Kafka.

(** A message of a partition: offset, key, value. *)
Record fmsg := FM { fm_off : Z; fm_key : bytes; fm_val : bytes }.
Record flog := FL { fl_part : partition; fl_msgs : list fmsg }.
(** The messages delivered by a partition consumer that starts at an offset. *)
Definition from_offset (l : flog) (s : Z) : list fmsg := filter (λ m, (s ≤ fm_off m)%Z) (fl_msgs l).

(** ** The last messages of a partition *)
(** 270-279, 421-427: at most 100 offsets back, or from the oldest message *)
Definition back_100 (newest : Z) : Z := if bool_decide (newest - 100 < 0)%Z then OffsetOldest else (newest - 100)%Z.
Definition recent_start (p : partition) (off : Z) : option Z :=
  match consume_partition p off with Some s => Some s | None => consume_partition p OffsetOldest end.

(** ** LatestBlockFromFeed, kafka.go:405-452 *)
(** One partition: whether its newest offset can be found (415), the messages that arrive after that,
    and how many messages are received before the loop ends: sarama closes the channel some
    time after the last message was received, or nothing arrives for a second. *)
Record scan := SC { sc_log : flog; sc_get : bool; sc_new : list fmsg; sc_read : nat }.
Definition highest (n : Z) (m : fmsg) : Z :=
  match fm_key m with
  | [] => n                                                              (* 436 *)
  | t :: _ =>
    if bool_decide (t = BatchType) then
      match decode_batch (fm_val m) with
      | Some b => if bool_decide (n < b_num b)%Z then b_num b else n     (* 443 *)
      | None => n                                                        (* 439-442 *)
      end
    else n
  end.
Definition scan_partition (n : Z) (s : scan) : option Z :=
  if negb (sc_get s) then Some n                                         (* 416-419 *)
  else if bool_decide (pt_newest (fl_part (sc_log s)) = 0)%Z then Some n (* 420 *)
  else match recent_start (fl_part (sc_log s)) (back_100 (pt_newest (fl_part (sc_log s)))) with
    | None => None                                                       (* 426 *)
    | Some o => Some (foldl highest n (take (sc_read s) (from_offset (sc_log s) o ++ sc_new s)))
    end.
Fixpoint scan_all (n : Z) (l : list scan) : option Z :=
  match l with
  | [] => Some n
  | s :: r => match scan_partition n s with Some n => scan_all n r | None => None end
  end.
Definition latest_block (l : list scan) : option Z := scan_all 0 l.

(** ** Start of a producer, kafka.go:253-322 *)
(** The goroutine of a partition: the messages still to come, the message it has received and not yet
    dealt with, and whether it has told the constructor that it is ready. *)
Record reader := RD { rd_todo : list fmsg; rd_hand : option fmsg; rd_ready : bool; rd_newest : Z; rd_end : Z }.
(** A partition as the goroutine finds it: the log, whether its newest offset can be found (262), the
    messages that arrive later and the newest offset after them. *)
Record feeding := FD { fd_log : flog; fd_get : bool; fd_new : list fmsg; fd_end : Z }.
(** 262-279; nothing is read after the return at 277 *)
Definition reader_start (f : feeding) : reader :=
  let p := fl_part (fd_log f) in
  let offset := if fd_get f then pt_newest p else OffsetNewest in
  let ready := negb (fd_get f) || bool_decide (offset = 0)%Z in
  let offset := if bool_decide (offset = 0)%Z then OffsetNewest else offset in
  match recent_start p (back_100 offset) with
  | Some o => RD (from_offset (fd_log f) o ++ fd_new f) None ready (pt_newest p) (fd_end f)
  | None => RD [] None true (pt_newest p) (fd_end f)
  end.
Record starting := ST { st_readers : list reader; st_kp : kproducer; st_fed : list kp_event }.
Inductive start_step (self : bytes) : starting → starting → Prop :=
(** 283-287: a message is received; [hwm] is the high water mark known by then, which is taken to be
    no lower than the newest offset found at 262 *)
| SReceive rs i todo m ready newest stop hwm kp evs :
    rs !! i = Some (RD (m :: todo) None ready newest stop) → (newest ≤ hwm ≤ stop)%Z → (fm_off m < hwm)%Z →
    start_step self (ST rs kp evs)
      (ST (<[i := RD todo (Some m) (ready || bool_decide (hwm - fm_off m ≤ 1)%Z) newest stop]> rs) kp evs)
(** 288-296, 313-316: what it says is recorded; a panic ends the program *)
| SRecord rs i todo m ready newest stop now kp kp' evs :
    rs !! i = Some (RD todo (Some m) ready newest stop) → kp_feed self kp now (fm_key m) = Ok kp' →
    start_step self (ST rs kp evs) (ST (<[i := RD todo None ready newest stop]> rs) kp' (evs ++ [KFeed now (fm_key m)])).
(** 320-321: the constructor returns *)
Definition started (s : starting) : Prop := Forall (λ r, rd_ready r = true) (st_readers s).
Definition start_init (dp : producer) (fs : list feeding) : starting := ST (map reader_start fs) (kp_new dp) [].

(** ** Start of a consumer's partitions, kafka.go:547-618 *)
(** The first offset delivered and the value of startOffset (553-579); compare
    [Kafka.start_partition]. *)
Definition warm_start (entry : option Z) (rollback : Z) (start : hash) (get : bool) (p : partition) : option (Z * Z) :=
  let fresh :=
    if bool_decide (start = zero_hash) && bool_decide (0 <= rollback)%Z
    then if get then (pt_newest p, (pt_newest p - 1)%Z) else (OffsetNewest, OffsetNewest)
    else (OffsetOldest, OffsetOldest) in
  let '(offset, startOffset) :=
    match entry with
    | None => fresh
    | Some o => if bool_decide (o < rollback)%Z then fresh else (o, (o - rollback)%Z)
    end in
  match consume_partition p startOffset with
  | Some s => Some (s, startOffset)
  | None => match consume_partition p offset with Some s => Some (s, offset) | None => None end
  end.
(** The goroutine of a partition (581-615): the messages to come, the message it holds while it waits
    for the others (592-598), whether it is warm, startOffset. *)
Record wpart := WP { wp_todo : list fmsg; wp_wait : option fmsg; wp_warm : bool; wp_start : Z }.
(** The partitions and what has been put on [messages], with the number of the partition. *)
Record warming := WM { wm_parts : list wpart; wm_out : list (nat * fmsg) }.
(** The counter of [warmupWg] is zero: every partition has called Done. *)
Definition all_warm (ps : list wpart) : Prop := Forall (λ p, wp_warm p = true ∨ wp_wait p ≠ None) ps.
Inductive warm_step : warming → warming → Prop :=
| WArrive ps out i m todo start :
    ps !! i = Some (WP (m :: todo) None false start) → (start ≤ fm_off m)%Z →
    warm_step (WM ps out) (WM (<[i := WP todo (Some m) false start]> ps) out)                 (* 592-595 *)
| WRelease ps out i m todo start :
    ps !! i = Some (WP todo (Some m) false start) → all_warm ps →
    warm_step (WM ps out) (WM (<[i := WP todo None true start]> ps) (out ++ [(i, m)]))        (* 596-597, 613 *)
| WPass ps out i m todo warm start :
    ps !! i = Some (WP (m :: todo) None warm start) → warm = true ∨ (fm_off m < start)%Z →
    warm_step (WM ps out) (WM (<[i := WP todo None warm start]> ps) (out ++ [(i, m)])).       (* 613 *)
Definition warm_init (ps : list (list fmsg * Z)) : warming := WM (map (λ x, WP x.1 None false x.2) ps) [].

(** ** Tokens for timestamps, kafka.go:508-528 *)
(** 524: fmt.Sprintf("%v:%v=%v", topic, part, offset); the name of a partition is that of 553 *)
Definition partition_name (t : bytes) (part : Z) : bytes := t ++ x3a :: int_text part.
(** 519-525; [off] is GetOffset for the timestamp, [None] for its error. *)
Fixpoint timestamp_parts (off : bytes → Z → option Z) (l : list (bytes * Z)) : option (list (bytes * Z)) :=
  match l with
  | [] => Some []
  | (t, part) :: r =>
    match off t part, timestamp_parts off r with
    | Some o, Some es => Some ((partition_name t part, o) :: es)
    | _, _ => None
    end
  end.
Definition timestamp_token (off : bytes → Z → option Z) (topics : list (bytes * list Z)) : option bytes :=
  join_byte semicolon <$> (map token_part <$>
    timestamp_parts off (concat (map (λ x : bytes * list Z, map (pair x.1) x.2) topics))).
(** resolver.go:75-91: the tokens of several brokers *)
Definition brokers_token (ts : list bytes) : bytes := join_byte semicolon ts.
