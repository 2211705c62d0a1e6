(** Model of delivery/consumer.go: [PendingBatch] and [MessageProcessor].
    Not modelled: metrics, logging, message times ([time], [Time()]).
    Keys are assumed to be Go slices whose capacity equals their length, so that slicing
    beyond the length panics. *)
From Verif Require Import Base Lru Types Avro Wire GoPath.

(** What a MessageProcessor sends to its three feeds, in order.  types.Feed (cardinal-types) is
    a synchronous broadcast. *)
Inductive mp_event :=
| EWaiter (h parent : hash) (num : Z) (ch : N)   (* waitFeed, consumer.go:258,317 *)
| EBatch (pb : pending_batch)                    (* feed, consumer.go:264,395 *)
| EReorg (num : Z) (h : hash).                   (* reorgFeed, consumer.go:298 *)

(** consumer.go:187-201 [MessageProcessor], the mutable part.  [mp_chan] numbers the wait
    channels created so far; [mp_out] is the history of events. *)
Record mp := MP {
  mp_last : Z;                               (* lastEmittedNum *)
  mp_pend : gmap hash pending_batch;         (* pendingBatches *)
  mp_queue : gmap hash (gmap bytes msg);     (* pendingMessages *)
  mp_old : gset hash;                        (* oldBlocks *)
  mp_done : lru hash;                        (* completed *)
  mp_res : gmap bytes Z;                     (* resumption *)
  mp_evict : list Z;                         (* contents of evictCh *)
  mp_chan : N;
  mp_out : list mp_event
}.
(** The fixed part: reorgThreshold, trackedPrefixes (does some expression match?),
    failedReconstructPanic. *)
Record mp_config := MPC { mc_thr : Z; mc_tracked : bytes → bool; mc_frp : bool }.

Definition set_pend (st : mp) (p : gmap hash pending_batch) : mp :=
  MP (mp_last st) p (mp_queue st) (mp_old st) (mp_done st) (mp_res st) (mp_evict st) (mp_chan st) (mp_out st).
Definition set_queue (st : mp) (q : gmap hash (gmap bytes msg)) : mp :=
  MP (mp_last st) (mp_pend st) q (mp_old st) (mp_done st) (mp_res st) (mp_evict st) (mp_chan st) (mp_out st).
Definition set_res (st : mp) (r : gmap bytes Z) : mp :=
  MP (mp_last st) (mp_pend st) (mp_queue st) (mp_old st) (mp_done st) r (mp_evict st) (mp_chan st) (mp_out st).
Definition set_evict (st : mp) (e : list Z) : mp :=
  MP (mp_last st) (mp_pend st) (mp_queue st) (mp_old st) (mp_done st) (mp_res st) e (mp_chan st) (mp_out st).

(** consumer.go:208-223 [NewMessageProcessor]; lru.New fails, and the constructor panics, for
    a threshold below one. *)
Definition mp_new (c : mp_config) (last : Z) : outcome mp :=
  if bool_decide (0 < mc_thr c)%Z
  then Ok (MP last ∅ ∅ ∅ (lru_new (Z.to_nat (2 * mc_thr c))) ∅ [] 0 [])
  else Panic.

(** Updates of a [PendingBatch]. *)
Definition pb_set_res (pb : pending_batch) r : pending_batch :=
  PB (pb_num pb) (pb_weight pb) (pb_parent pb) (pb_hash pb) (pb_values pb) (pb_deletes pb) r (pb_resdef pb)
     (pb_prefixes pb) (pb_batches pb) (pb_pbatches pb) (pb_pmsgs pb) (pb_wait pb) (pb_frp pb).
Definition pb_set_pmsgs (pb : pending_batch) q : pending_batch :=
  PB (pb_num pb) (pb_weight pb) (pb_parent pb) (pb_hash pb) (pb_values pb) (pb_deletes pb) (pb_res pb) (pb_resdef pb)
     (pb_prefixes pb) (pb_batches pb) (pb_pbatches pb) q (pb_wait pb) (pb_frp pb).
Definition pb_set_batches (pb : pending_batch) b p : pending_batch :=
  PB (pb_num pb) (pb_weight pb) (pb_parent pb) (pb_hash pb) (pb_values pb) (pb_deletes pb) (pb_res pb) (pb_resdef pb)
     (pb_prefixes pb) b p (pb_pmsgs pb) (pb_wait pb) (pb_frp pb).
Definition pb_set_data (pb : pending_batch) v d p b : pending_batch :=
  PB (pb_num pb) (pb_weight pb) (pb_parent pb) (pb_hash pb) v d (pb_res pb) (pb_resdef pb)
     p b (pb_pbatches pb) (pb_pmsgs pb) (pb_wait pb) (pb_frp pb).

(** consumer.go:57-59 [PendingBatch.updateResumption]: the smallest offset per source *)
Definition pb_update_res (pb : pending_batch) (m : msg) : pending_batch :=
  match pb_res pb !! m_src m with
  | Some o => if bool_decide (m_off m < o)%Z then pb_set_res pb (<[m_src m := m_off m]> (pb_res pb)) else pb
  | None => pb_set_res pb (<[m_src m := m_off m]> (pb_res pb))
  end.
(** consumer.go:417-419 [MessageProcessor.updateResumption]: the largest offset per source *)
Definition mp_update_res (st : mp) (m : msg) : mp :=
  match mp_res st !! m_src m with
  | Some o => if bool_decide (o < m_off m)%Z then set_res st (<[m_src m := m_off m]> (mp_res st)) else st
  | None => set_res st (<[m_src m := m_off m]> (mp_res st))
  end.

(** consumer.go:61-73 [Ready] *)
Definition ready (pb : pending_batch) : bool :=
  bool_decide (pb_pbatches pb = ∅) &&
  bool_decide (map_Forall (λ _ v, ¬ (0 < v)%Z) (pb_prefixes pb)) &&
  bool_decide (map_Forall (λ _ l, false ∉ l) (pb_batches pb)).

(** consumer.go:89-100 [whyNotReady].  The prefix loop visits the map in some order; any
    prefix with a positive counter may be reported, so the answer is a relation.  The loop over
    [batches] has no effect: the text it formats is discarded. *)
Inductive why := WNotFound | WPendingBatches | WPendingPrefix (p : bytes) | WReady.
Definition why_not_ready (pb : pending_batch) (w : why) : Prop :=
  if bool_decide (pb_pbatches pb = ∅) then
    match w with
    | WPendingPrefix p => ∃ v, pb_prefixes pb !! p = Some v ∧ (0 < v)%Z
    | WReady => map_Forall (λ _ v, ¬ (0 < v)%Z) (pb_prefixes pb)
    | _ => False
    end
  else w = WPendingBatches.
(** consumer.go:409-415 [WhyNotReady] *)
Definition mp_why (st : mp) (h : hash) (w : why) : Prop :=
  match mp_pend st !! h with Some pb => why_not_ready pb w | None => w = WNotFound end.

(** consumer.go:102-150 [ApplyMessage] *)
Definition keep_msg (pb : pending_batch) (m : msg) : pending_batch :=
  pb_set_pmsgs pb (<[m_key m := m]> (pb_pmsgs pb)).
Definition apply_msg (pb : pending_batch) (m : msg) : outcome (pending_batch * bool) :=
  let pb := pb_update_res pb m in                                                 (* 103 *)
  let key := m_key m in
  match key with
  | [] => Panic
  | t :: _ =>
    if bool_decide (t = SubBatchMsgType) then
      if bool_decide (length key < 65) then Panic else                            (* 107 *)
      let id := bytes_hash (take 32 (drop 33 key)) in
      match decode_int (drop 65 key) with
      | None => Ok (pb, true)                                                     (* 109-112 *)
      | Some idx =>
        match pb_batches pb !! id with
        | None => Ok (keep_msg pb m, false)                                       (* 113-116 *)
        | Some bits =>
          if bool_decide (idx < 0)%Z then Panic else
          match bits !! Z.to_nat idx with
          | None => Panic
          | Some true => Ok (pb, false)                                           (* 117 *)
          | Some false =>
            match decode_sub (m_val m) with
            | None => Ok (pb, false)                                              (* 119-122 *)
            | Some u =>
              Ok (pb_set_data pb (sr_updates u ∪ pb_values pb)
                    (list_to_set (sr_delete u) ∪ pb_deletes pb) (pb_prefixes pb)
                    (<[id := <[Z.to_nat idx := true]> bits]> (pb_batches pb)), true)  (* 123-126 *)
            end
          end
        end
      end
    else if bool_decide (t = BatchMsgType) then
      if bool_decide (length key < 33) then Panic else
      let path := drop 33 key in
      match pb_values pb !! path with
      | Some (_ :: _) => Ok (pb, false)                                           (* 129 *)
      | _ =>
        r ← dec_prefix (pb_prefixes pb) (pb_frp pb) path;
        match r with
        | Some p => Ok (pb_set_data pb (<[path := m_val m]> (pb_values pb)) (pb_deletes pb) p (pb_batches pb), true)
        | None => Ok (keep_msg pb m, false)                                       (* 135-136 *)
        end
      end
    else if bool_decide (t = BatchDeleteMsgType) then
      if bool_decide (length key < 33) then Panic else
      let path := drop 33 key in
      if bool_decide (path ∈ pb_deletes pb) then Ok (pb, false)                   (* 139 *)
      else
        r ← dec_prefix (pb_prefixes pb) (pb_frp pb) path;
        match r with
        | Some p => Ok (pb_set_data pb (pb_values pb) ({[path]} ∪ pb_deletes pb) p (pb_batches pb), true)
        | None => Ok (keep_msg pb m, false)
        end
    else Ok (pb, true)                                                            (* 146-149 *)
  end.

(** consumer.go:247-252 [evictOlderThan]: a full channel (capacity 100) drops the request. *)
Definition evict_cap : nat := 100.
Definition evict_older_than (st : mp) (n : Z) : mp :=
  if bool_decide (length (mp_evict st) < evict_cap) then set_evict st (mp_evict st ++ [n]) else st.

(** consumer.go:276-281: one eviction request *)
Definition evict_one (st : mp) (n : Z) : mp :=
  MP (mp_last st) (filter (λ x, ¬ (pb_num x.2 < n)%Z) (mp_pend st)) (mp_queue st)
     (dom (filter (λ x, (pb_num x.2 < n)%Z) (mp_pend st)) ∪ mp_old st)
     (mp_done st) (mp_res st) (mp_evict st) (mp_chan st) (mp_out st).
(** consumer.go:272-285 EVICTLOOP *)
Definition drain (st : mp) : mp := foldl evict_one (set_evict st []) (mp_evict st).

(** consumer.go:404-407 [queueMessage] *)
Definition queue_msg (st : mp) (h : hash) (m : msg) : mp :=
  set_queue st (<[h := <[m_key m := m]> (default ∅ (mp_queue st !! h))]> (mp_queue st)).

(** consumer.go:395-398 *)
Definition emit (st : mp) (h : hash) (pb : pending_batch) : mp :=
  MP (pb_num pb) (delete h (mp_pend st)) (mp_queue st) (mp_old st) (fst (lru_add (mp_done st) h))
     (mp_res st) (mp_evict st) (mp_chan st) (mp_out st ++ [EBatch pb]).
(** consumer.go:394-399 *)
Definition finish (st : mp) (h : hash) : mp :=
  match mp_pend st !! h with
  | Some pb => if ready pb then emit st h pb else st
  | None => st
  end.

(** consumer.go:254-268 [ProcessCompleteBatch] (websocket transport) *)
Definition process_complete (st : mp) (pb : pending_batch) : mp :=
  let '(pb, n) := match pb_wait pb with
    | Some _ => (pb, mp_chan st)
    | None => (PB (pb_num pb) (pb_weight pb) (pb_parent pb) (pb_hash pb) (pb_values pb) (pb_deletes pb) (pb_res pb)
                 (pb_resdef pb) (pb_prefixes pb) (pb_batches pb) (pb_pbatches pb) (pb_pmsgs pb)
                 (Some (mp_chan st)) (pb_frp pb), (mp_chan st + 1)%N)
    end in
  MP (pb_num pb) (delete (pb_hash pb) (mp_pend st)) (mp_queue st) (mp_old st)
     (fst (lru_add (mp_done st) (pb_hash pb))) (mp_res st) (mp_evict st) n
     (mp_out st ++ [EWaiter (pb_hash pb) (pb_parent pb) (pb_num pb) (default 0%N (pb_wait pb)); EBatch pb]).

(** consumer.go:323-340: the new PendingBatch with the header's updates (341-359).  Every
    iteration of the loop writes only under its own prefix (or adds to a set), so the result
    does not depend on the iteration order and is given in closed form. *)
Definition header_batch (c : mp_config) (st : mp) (h : hash) (b : batch) (m : msg) : pending_batch :=
  let ups := filter (λ x, mc_tracked c x.1 = true) (b_updates b) in
  pb_update_res
    (PB (b_num b) (bytes_bigint (b_weight b)) (b_parent b) h
       (omap (λ r, match br_value r with [] => None | _ => Some (br_value r) end) ups)
       (dom (filter (λ x, br_delete x.2 = true) ups))
       ∅ (mp_res st)
       (omap (λ r, if bool_decide (br_count r = 0%Z) then None else Some (br_count r)) ups)
       ∅
       (list_to_set (omap (λ x, if bool_decide (br_sub x.2 = zero_hash) then None else Some (br_sub x.2)) (map_to_list ups)))
       ∅ (Some (mp_chan st)) (mc_frp c)) m.

(** The unspecified choices made during one call of ProcessMessage: the orders of the loops over
    maps at consumer.go:362 and 382 (the latter may run once per replayed sub-batch header,
    identified by its key), and the eviction requests that reach the channel while the call is
    in progress, before the replay of the queued message with the given key. *)
Record menv := ME {
  me_queue : list bytes → list bytes;
  me_sub : bytes → list bytes → list bytes;
  me_evict : bytes → list Z
}.
Definition menv_ok (e : menv) : Prop := (∀ l, me_queue e l ≡ₚ l) ∧ (∀ k l, me_sub e k l ≡ₚ l).
Definition id_env : menv := ME (λ l, l) (λ _ l, l) (λ _, []).

Definition keys {A} (q : gmap bytes A) : list bytes := (map_to_list q).*1.

(** consumer.go:382-386: apply the pending messages of a block again.  Messages are visited as
    they were when the loop started: the loop only deletes the visited key or stores the visited
    message under its own key again. *)
Definition apply_pending (pb : pending_batch) (ks : list bytes) : outcome pending_batch :=
  foldM (λ p k,
    match pb_pmsgs pb !! k with
    | None => Ok p
    | Some m =>
      r ← apply_msg p m;
      let '(p, done) := r : pending_batch * bool in
      Ok (if done then pb_set_pmsgs p (delete k (pb_pmsgs p)) else p)
    end) ks pb.

(** consumer.go:362-364 *)
Definition replay (rec : mp → msg → outcome (mp * bool)) (e : menv) (q : gmap bytes msg) (ks : list bytes) (st : mp)
  : outcome (mp * bool) :=
  foldM (λ s k,
    match s : mp * bool with
    | (st, true) => Ok (st, true)
    | (st, false) =>
      match q !! k with
      | None => Ok (st, false)
      | Some m => rec (foldl evict_older_than st (me_evict e k)) m
      end
    end) ks (st, false).

(** consumer.go:271-401 [ProcessMessage]; the boolean says whether an error was returned.
    [rec] is the recursive call at line 363. *)
Definition msg_hash (m : msg) : hash := bytes_hash (take 32 (drop 1 (m_key m))).
Definition process_with (rec : mp → msg → outcome (mp * bool)) (c : mp_config) (e : menv) (st : mp) (m : msg)
  : outcome (mp * bool) :=
  let st := mp_update_res (drain st) m in                                          (* 272-286 *)
  let key := m_key m in
  if bool_decide (length key < 33) then Panic else                                 (* 287 *)
  let h := msg_hash m in
  match key with
  | [] => Panic
  | t :: _ =>
    if bool_decide (t = ReorgType) then                                            (* 288-301 *)
      let st := MP (mp_last st) (mp_pend st) (mp_queue st) ∅ (lru_new (Z.to_nat (2 * mc_thr c)))
                   (mp_res st) (mp_evict st) (mp_chan st) (mp_out st) in
      match decode_int (m_val m) with
      | None => Ok (st, true)
      | Some n => Ok (MP n (mp_pend st) (mp_queue st) (mp_old st) (mp_done st) (mp_res st) (mp_evict st)
                        (mp_chan st) (mp_out st ++ [EReorg n h]), false)
      end
    else if lru_contains (mp_done st) h then Ok (st, false)                        (* 302 *)
    else if bool_decide (h ∈ mp_old st) then Ok (st, false)                        (* 303 *)
    else if bool_decide (t = BatchType) then
      match decode_batch (m_val m) with
      | None => Ok (st, true)
      | Some b =>
        match mp_pend st !! h with
        | Some _ => Ok (st, false)                                                 (* 309 *)
        | None =>
          let pb := header_batch c st h b m in
          let st := MP (mp_last st) (<[h := pb]> (mp_pend st)) (mp_queue st) (mp_old st) (mp_done st)
                       (mp_res st) (mp_evict st) (mp_chan st + 1)%N
                       (mp_out st ++ [EWaiter h (b_parent b) (b_num b) (mp_chan st)]) in
          match mp_queue st !! h with
          | None => Ok (finish st h, false)
          | Some q =>
            r ← replay rec e q (me_queue e (keys q)) st;
            let '(st, err) := r : mp * bool in
            Ok (if err : bool then (st, true)                                      (* 363 *)
                else (finish (set_queue st (delete h (mp_queue st))) h, false))    (* 365 *)
          end
        end
      end
    else if bool_decide (t = SubBatchHeaderType) then
      match mp_pend st !! h with
      | None => Ok (queue_msg st h m, false)
      | Some pb =>
        let id := bytes_hash (drop 33 key) in
        if bool_decide (id ∉ pb_pbatches pb) then Ok (st, false)                   (* 376 *)
        else
          let pb1 := pb_set_batches pb (pb_batches pb) (pb_pbatches pb ∖ {[id]}) in
          match decode_int (m_val m) with
          | None => Ok (set_pend st (<[h := pb1]> (mp_pend st)), true)             (* 379 *)
          | Some n =>
            if bool_decide (n < 0)%Z then Panic else                               (* 380 *)
            let pb2 := pb_update_res
              (pb_set_batches pb1 (<[id := replicate (Z.to_nat n) false]> (pb_batches pb1)) (pb_pbatches pb1)) m in
            pb3 ← apply_pending pb2 (me_sub e key (keys (pb_pmsgs pb2)));
            Ok (finish (set_pend st (<[h := pb3]> (mp_pend st))) h, false)
          end
      end
    else
      match mp_pend st !! h with
      | None => Ok (queue_msg st h m, false)
      | Some pb =>
        r ← apply_msg pb m;
        Ok (finish (set_pend st (<[h := fst r]> (mp_pend st))) h, false)
      end
  end.

(** The recursive call happens for queued messages only, and these are never headers
    ([replay_depth] below): two levels suffice.  A third level would show as [Hang]. *)
Definition process (c : mp_config) (e : menv) (st : mp) (m : msg) : outcome (mp * bool) :=
  process_with (process_with (λ _ _, Hang) c e) c e st m.

(** Inputs of a MessageProcessor fed by a message broker.  An error returned by
    ProcessMessage is logged by the caller (kafka.go:683,692) and otherwise ignored. *)
Inductive mp_input :=
| IMsg (m : msg) (e : menv)
| IEvict (n : Z).
Definition mp_step (c : mp_config) (st : mp) (i : mp_input) : outcome mp :=
  match i with
  | IMsg m e => r ← process c e st m; Ok (fst r)
  | IEvict n => Ok (evict_older_than st n)
  end.
Definition mp_run (c : mp_config) (ins : list mp_input) (st : mp) : outcome mp := foldM (mp_step c) ins st.
Definition input_ok (i : mp_input) : Prop := match i with IMsg _ e => menv_ok e | IEvict _ => True end.
