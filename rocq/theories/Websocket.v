(** The websocket transport: transports/websockets.go.

    Modelled: the messages (44-83), ToPendingBatch (60-76), AddBlock, SendBatch and Reorg of the
    producer (131-191), StreamsBlock and the catch-up goroutine of the server (200-296), the
    consumer's connection loop (321-472).

    Simplifications.
    - A message travels as JSON.  Numbers ([hexutil.Uint64] of an [int64]), weights
      ([hexutil.Big], below 2^256), hashes and byte values ([hexutil.Bytes]) survive the round
      trip; strings are coerced to valid UTF-8 by encoding/json ([json_string] below).
    - Frames that are not notifications of the current subscription (pings, other methods,
      malformed JSON) are the subject of WsSystem.v; dialling and the subscription
      handshake (327-333, 337-374) that of WsStart.v; [closemu] and the bounded channel [subch]
      (back-pressure only) are not modelled.
    - [types.Feed.Send] hands the message to every subscriber before it returns.
    - The consumer runs in one goroutine; its calls of [omp.HandleReorg] and
      [omp.ProcessCompleteBatch] are recorded as events ([process_complete] in Consumer.v and
      [handle_reorg] in Ordering.v say what those calls do). *)
From Coq Require Import Strings.String.
From Verif Require Import Base Types Producer.

(** ** encoding/json strings

    Documented behaviour of encoding/json: "String values encode as JSON strings coerced to
    valid UTF-8, replacing invalid bytes with the Unicode replacement rune"; the same holds for
    map keys.  A byte that does not start a well-formed sequence (unicode/utf8 [DecodeRune]) is
    replaced alone. *)
Definition in_range (lo hi : N) (b : byte) : bool :=
  (lo <=? Byte.to_N b)%N && (Byte.to_N b <=? hi)%N.
Definition cont : byte → bool := in_range 128 191.

Definition utf8_1 (b0 : byte) : bool := in_range 0 127 b0.
Definition utf8_2 (b0 b1 : byte) : bool := in_range 194 223 b0 && cont b1.
Definition utf8_3 (b0 b1 b2 : byte) : bool :=
  cont b2 &&
  ((in_range 224 224 b0 && in_range 160 191 b1) ||
   (in_range 225 236 b0 && cont b1) ||
   (in_range 237 237 b0 && in_range 128 159 b1) ||
   (in_range 238 239 b0 && cont b1)).
Definition utf8_4 (b0 b1 b2 b3 : byte) : bool :=
  cont b2 && cont b3 &&
  ((in_range 240 240 b0 && in_range 144 191 b1) ||
   (in_range 241 243 b0 && cont b1) ||
   (in_range 244 244 b0 && in_range 128 143 b1)).

(** U+FFFD *)
Definition replacement : bytes := [xef; xbf; xbd].

Fixpoint json_string (l : bytes) : bytes :=
  match l with
  | [] => []
  | b0 :: l1 =>
    if utf8_1 b0 then b0 :: json_string l1 else
    match l1 with
    | [] => replacement ++ json_string l1
    | b1 :: l2 =>
      if utf8_2 b0 b1 then b0 :: b1 :: json_string l2 else
      match l2 with
      | [] => replacement ++ json_string l1
      | b2 :: l3 =>
        if utf8_3 b0 b1 b2 then b0 :: b1 :: b2 :: json_string l3 else
        match l3 with
        | [] => replacement ++ json_string l1
        | b3 :: l4 =>
          if utf8_4 b0 b1 b2 b3 then b0 :: b1 :: b2 :: b3 :: json_string l4
          else replacement ++ json_string l1
        end
      end
    end
  end.

(** A JSON object: the entries are written one after the other and the reader assigns them one
    after the other, so that a later entry replaces an earlier one whose coerced key is equal.
    (encoding/json writes the entries sorted by key; the order matters only when two keys
    collide, and the model then uses the order of [map_to_list].) *)
Definition json_map {V} (m : gmap bytes V) : gmap bytes V :=
  foldl (λ acc kv, <[json_string (fst kv) := snd kv]> acc) ∅ (map_to_list m).

(** ** Messages *)

(** websockets.go:50-58 [TransportBatch] *)
Record tbatch := TB {
  tb_num : Z; tb_weight : N; tb_hash : hash; tb_parent : hash;
  tb_values : gmap bytes bytes; tb_deletes : list bytes; tb_batches : gmap bytes hash
}.

(** websockets.go:78-83 [transportSubbatch] *)
Record tsub := TS {
  ts_hash : hash; ts_id : hash; ts_values : gmap bytes bytes; ts_deletes : list bytes
}.

(** websockets.go:44-48 [resultMessage], by its [Type] *)
Inductive item :=
| IReady
| IReorg (n : Z) (h : hash)
| IBatch (b : tbatch)
| ISub (s : tsub)
| IOther.

Definition json_item (i : item) : item :=
  match i with
  | IBatch b => IBatch (TB (tb_num b) (tb_weight b) (tb_hash b) (tb_parent b)
                           (json_map (tb_values b)) (json_string <$> tb_deletes b)
                           (json_map (tb_batches b)))
  | ISub s => ISub (TS (ts_hash s) (ts_id s) (json_map (ts_values s)) (json_string <$> ts_deletes s))
  | _ => i
  end.

(** ** Producer *)

(** websockets.go:32-37: [expectedBatches], and what has been sent on [feed] *)
Record wsp := WSP { p_expect : gmap hash hash; p_sent : list item }.

Definition wsp_new : wsp := WSP ∅ [].

(** websockets.go:131-158 [AddBlock].  [od] is the order in which [deletes] is visited. *)
Definition wsp_add (p : wsp) (od : list bytes → list bytes) (a : block_args) : wsp :=
  WSP (foldl (λ m kv, <[snd kv := ba_hash a]> m) (p_expect p) (map_to_list (ba_batches a)))
      (p_sent p ++ [IBatch (TB (ba_num a) (ba_weight a) (ba_hash a) (ba_parent a)
                               (ba_updates a) (od (elements (ba_deletes a))) (ba_batches a))]).

(** websockets.go:159-179 [SendBatch]; [None] = ErrUnknownBatch *)
Definition wsp_send (p : wsp) (id : hash) (dels : list bytes) (ups : gmap bytes bytes) : option wsp :=
  match p_expect p !! id with
  | None => None
  | Some h => Some (WSP (delete id (p_expect p)) (p_sent p ++ [ISub (TS h id ups dels)]))
  end.

(** websockets.go:180-191 [Reorg] *)
Definition wsp_reorg (p : wsp) (n : Z) (h : hash) : wsp :=
  WSP (p_expect p) (p_sent p ++ [IReorg n h]).

(** A use of the producer: calls one after the other; a refused SendBatch changes nothing. *)
Inductive wcall :=
| WAdd (od : list bytes → list bytes) (a : block_args)
| WSend (id : hash) (dels : list bytes) (ups : gmap bytes bytes)
| WReorgCall (n : Z) (h : hash).

Definition wsp_call (p : wsp) (c : wcall) : wsp :=
  match c with
  | WAdd od a => wsp_add p od a
  | WSend id dels ups => default p (wsp_send p id dels ups)
  | WReorgCall n h => wsp_reorg p n h
  end.

Definition wsp_run (cs : list wcall) : wsp := foldl wsp_call wsp_new cs.

(** ** Server *)

(** websockets.go:200-223, 236-266: a block of the resumer as a message; [od] is the order in
    which [Deletes] is visited. *)
Definition whole_message (od : list bytes → list bytes) (pb : pending_batch) : item :=
  IBatch (TB (pb_num pb) (pb_weight pb) (pb_hash pb) (pb_parent pb)
             (pb_values pb) (od (elements (pb_deletes pb))) ∅).

(** websockets.go:225-296 [Streams] against a producer running concurrently.  The resumer's
    [BlocksFrom] is the application's: it reads the stored blocks in order and closes its channel
    when it has read them all.  [sv_db] are the blocks stored so far, [sv_pos] is how many of
    them the catch-up has read, [sv_recv] is what has been written to [subch]. *)
Inductive phase := Reading | Ended | Live.
Inductive received := RCatch (pb : pending_batch) | RReady | RLive (i : item).
Record server := SV {
  sv_db : list pending_batch; sv_pos : nat; sv_phase : phase; sv_recv : list received
}.

Inductive sact :=
| AStore (pb : pending_batch)   (* the application stores a block *)
| ASend (i : item)              (* AddBlock, SendBatch or Reorg: feed.Send *)
| ARead                         (* the catch-up goroutine forwards a block (236-267) *)
| AEnd                          (* [initBlocks] is closed: the range loop ends (236) *)
| ASubscribe.                   (* feed.Subscribe(subch), then "ready" (268-273) *)

Definition sv_step (s : server) (a : sact) : option server :=
  match a with
  | AStore pb => Some (SV (sv_db s ++ [pb]) (sv_pos s) (sv_phase s) (sv_recv s))
  | ASend i =>
    Some (SV (sv_db s) (sv_pos s) (sv_phase s)
             match sv_phase s with Live => sv_recv s ++ [RLive i] | _ => sv_recv s end)
  | ARead =>
    match sv_phase s, sv_db s !! sv_pos s with
    | Reading, Some pb => Some (SV (sv_db s) (S (sv_pos s)) Reading (sv_recv s ++ [RCatch pb]))
    | _, _ => None
    end
  | AEnd =>
    match sv_phase s, sv_db s !! sv_pos s with
    | Reading, None => Some (SV (sv_db s) (sv_pos s) Ended (sv_recv s))
    | _, _ => None
    end
  | ASubscribe =>
    match sv_phase s with
    | Ended => Some (SV (sv_db s) (sv_pos s) Live (sv_recv s ++ [RReady]))
    | _ => None
    end
  end.

Fixpoint sv_run (s : server) (l : list sact) : option server :=
  match l with
  | [] => Some s
  | a :: l => match sv_step s a with Some s' => sv_run s' l | None => None end
  end.

(** What the subscriber decodes from an element of [subch]. *)
Definition received_item (od : list bytes → list bytes) (r : received) : item :=
  match r with
  | RCatch pb => json_item (whole_message od pb)
  | RReady => IReady
  | RLive i => json_item i
  end.

(** ** Consumer *)

Inductive wevent :=
| WReady                              (* close(c.ready) *)
| WReorg (n : Z) (h : hash)           (* c.omp.HandleReorg *)
| WComplete (pb : pending_batch).     (* c.omp.ProcessCompleteBatch *)

(** websockets.go:299-311 and the local variables of [Start] (324, 334-336): [batches],
    [subbatches], [pendingSubbatches], [lastNum], [lastHash], [isReady]. *)
Record wsc := WSC {
  c_batches : gmap hash pending_batch;
  c_subs : gmap hash tsub;
  c_pend : gmap hash (gset hash);
  c_num : Z;
  c_hash : hash;
  c_ready : bool;
  c_out : list wevent
}.

(** websockets.go:313-315, 324 *)
Definition wsc_new (n : Z) (h : hash) : wsc := WSC ∅ ∅ ∅ n h false [].

(** websockets.go:326-337: a new connection starts with empty maps and subscribes from
    ([lastNum], [lastHash]). *)
Definition wsc_connect (st : wsc) : wsc :=
  WSC ∅ ∅ ∅ (c_num st) (c_hash st) (c_ready st) (c_out st).

(** websockets.go:60-76 [ToPendingBatch], 410-423 *)
Definition to_pending (b : tbatch) : pending_batch :=
  PB (tb_num b) (tb_weight b) (tb_parent b) (tb_hash b)
     (tb_values b) (list_to_set (tb_deletes b)) ∅ ∅ ∅ ∅ ∅ ∅ None false.

(** websockets.go:427-432, 451-456 *)
Definition merge_sub (pb : pending_batch) (s : tsub) : pending_batch :=
  PB (pb_num pb) (pb_weight pb) (pb_parent pb) (pb_hash pb)
     (ts_values s ∪ pb_values pb) (list_to_set (ts_deletes s) ∪ pb_deletes pb)
     (pb_res pb) (pb_resdef pb) (pb_prefixes pb) (pb_batches pb) (pb_pbatches pb) (pb_pmsgs pb)
     (pb_wait pb) (pb_frp pb).

(** websockets.go:425-438: one announced identifier.  [batches[pb.Hash]] and the entry of
    [pendingSubbatches] are written after the loop in the model ([pb] is a pointer). *)
Definition announce (acc : pending_batch * gmap hash tsub * gset hash) (id : hash)
    : pending_batch * gmap hash tsub * gset hash :=
  let '(pb, subs, wait) := acc in
  match subs !! id with
  | Some s => (merge_sub pb s, delete id subs, wait)
  | None => (pb, subs, {[id]} ∪ wait)
  end.

(** websockets.go:441-443, 462-464 *)
Definition completed (st : wsc) (pb : pending_batch) : wsc :=
  WSC (c_batches st) (c_subs st) (c_pend st) (pb_num pb) (pb_hash pb) (c_ready st)
      (c_out st ++ [WComplete pb]).

(** websockets.go:399-466: one message.  [o] is the order in which [item.Batch.Batches] is
    visited. *)
Definition wsc_step (o : list hash → list hash) (st : wsc) (i : item) : wsc :=
  match i with
  | IReady =>
    if c_ready st then st
    else WSC (c_batches st) (c_subs st) (c_pend st) (c_num st) (c_hash st) true (c_out st ++ [WReady])
  | IReorg n h =>
    WSC (c_batches st) (c_subs st) (c_pend st) (c_num st) (c_hash st) (c_ready st)
        (c_out st ++ [WReorg n h])
  | IBatch b =>
    let h := tb_hash b in
    let '(pb, subs, wait) :=
      foldl announce (to_pending b, c_subs st, ∅) (o (snd <$> map_to_list (tb_batches b))) in
    if decide (wait = ∅)
    then completed (WSC (c_batches st) subs (delete h (c_pend st)) (c_num st) (c_hash st) (c_ready st) (c_out st)) pb
    else WSC (<[h := pb]> (c_batches st)) subs (<[h := wait]> (c_pend st))
             (c_num st) (c_hash st) (c_ready st) (c_out st)
  | ISub s =>
    match c_batches st !! ts_hash s with
    | None =>
      WSC (c_batches st) (<[ts_id s := s]> (c_subs st)) (c_pend st)
          (c_num st) (c_hash st) (c_ready st) (c_out st)
    | Some pb =>
      let pb := merge_sub pb s in
      let subs := delete (ts_id s) (c_subs st) in
      let wait := default ∅ (c_pend st !! ts_hash s) ∖ {[ts_id s]} in
      if decide (wait = ∅)
      then completed (WSC (delete (ts_hash s) (c_batches st)) subs (delete (ts_hash s) (c_pend st))
                          (c_num st) (c_hash st) (c_ready st) (c_out st)) pb
      else WSC (<[ts_hash s := pb]> (c_batches st)) subs (<[ts_hash s := wait]> (c_pend st))
               (c_num st) (c_hash st) (c_ready st) (c_out st)
    end
  | IOther => st
  end.

(** A delivered message with the iteration order used for it; a connection; a whole life of the
    consumer (each element: what one connection delivered before it broke). *)
Definition delivery : Type := (list hash → list hash) * item.
Definition wsc_run (st : wsc) (ds : list delivery) : wsc := foldl (λ st d, wsc_step (fst d) st (snd d)) st ds.
Definition wsc_sessions (st : wsc) (l : list (list delivery)) : wsc :=
  foldl (λ st ds, wsc_run (wsc_connect st) ds) st l.
