(** Several upstreams at the same moment: ProcessCompleteBatch (delivery/consumer.go:254-268) is called by the goroutine of every
    websocket connection (transports/websockets.go:441, 462) and takes no lock; a Kafka upstream of the same consumer
    (transports/resolver.go:94-107) calls ProcessMessage (kafka.go:683, 692), which writes the same map.

    A call is split into its statements; the statements of different goroutines interleave in any way.

    Simplifications.
    - A send on a feed is one step: the feed's own lock orders simultaneous sends (geth's event.Feed; cardinal-types).
    - Go's maps detect two simultaneous writes and end the process.  [delete] on an empty map returns before it writes or checks
      (runtime/map.go).  A write takes two steps, so that it may overlap with another one.
    - ProcessMessage is one step, preceded by the moment in which it writes the map, if it does.
    - HandleReorg (websockets.go:408) is one step; [Race.v] splits it.
    - golang-lru's cache has its own lock: [completed.Add] is one step.
    - Frames, connections and the ordering layer as in [WsSystem.v]. *)
From Verif Require Import Base Lru Types Producer Consumer Ordering SpecChain System Websocket WsSystem.

(** Where a connection's goroutine stands after reading a frame. *)
Inductive call :=
| CIdle                               (* reads the next frame *)
| CNotice (n : Z) (h : hash)          (* websockets.go:408 *)
| CAnnounce (pb : pending_batch)      (* consumer.go:255-263 *)
| CSend (pb : pending_batch)          (* 264 *)
| CNum (pb : pending_batch)           (* 265 *)
| CAdd (pb : pending_batch)           (* 266 *)
| CDelete (pb : pending_batch)        (* 267 *)
| CWriting (pb : pending_batch).      (* inside 267 *)
Record fconn := FC { fc_conn : conn; fc_call : call }.
Record fsys := FS {
  f_conns : list fconn; f_mp : mp; f_omp : omp; f_taken : list (order * omp_input);
  f_msg : option (msg * menv)         (* the Kafka upstream writes the map while handling this message *)
}.

(** A frame causes at most one event. *)
Definition call_of (es : list wevent) : call :=
  match es with
  | WComplete pb :: _ => CAnnounce pb
  | WReorg n h :: _ => CNotice n h
  | _ => CIdle
  end.
(** Somebody is writing [pendingBatches]. *)
Definition writing (s : fsys) : bool :=
  existsb (λ k, match fc_call k with CWriting _ => true | _ => false end) (f_conns s) ||
  match f_msg s with Some _ => true | None => false end.

(** The statements of ProcessCompleteBatch *)
Definition emit_event (st : mp) (ev : mp_event) : mp :=
  MP (mp_last st) (mp_pend st) (mp_queue st) (mp_old st) (mp_done st) (mp_res st) (mp_evict st) (mp_chan st) (mp_out st ++ [ev]).
Definition new_chan (st : mp) : mp :=
  MP (mp_last st) (mp_pend st) (mp_queue st) (mp_old st) (mp_done st) (mp_res st) (mp_evict st) (mp_chan st + 1) (mp_out st).
Definition open_chan (st : mp) (pb : pending_batch) : mp * pending_batch :=                      (* 255-257 *)
  match pb_wait pb with
  | Some _ => (st, pb)
  | None => (new_chan st, PB (pb_num pb) (pb_weight pb) (pb_parent pb) (pb_hash pb) (pb_values pb) (pb_deletes pb) (pb_res pb)
                 (pb_resdef pb) (pb_prefixes pb) (pb_batches pb) (pb_pbatches pb) (pb_pmsgs pb) (Some (mp_chan st)) (pb_frp pb))
  end.
Definition set_last_num (st : mp) (n : Z) : mp :=
  MP n (mp_pend st) (mp_queue st) (mp_old st) (mp_done st) (mp_res st) (mp_evict st) (mp_chan st) (mp_out st).
Definition add_done (st : mp) (h : hash) : mp :=
  MP (mp_last st) (mp_pend st) (mp_queue st) (mp_old st) (fst (lru_add (mp_done st) h)) (mp_res st) (mp_evict st) (mp_chan st) (mp_out st).

(** What the goroutine of a connection does next; [None]: the process ends. *)
Definition call_step (s : fsys) (i : nat) (k : fconn) : option fsys :=
  let to st c := Some (FS (<[i := FC (fc_conn k) c]> (f_conns s)) st (f_omp s) (f_taken s) (f_msg s)) in
  let st := f_mp s in
  match fc_call k with
  | CIdle => Some s
  | CNotice n h => Some (FS (<[i := FC (fc_conn k) CIdle]> (f_conns s)) st (handle_reorg (f_omp s) n h)
                            (f_taken s ++ [(id_order, InReorg n h)]) (f_msg s))
  | CAnnounce pb => let '(st, pb) := open_chan st pb in
                    to (emit_event st (EWaiter (pb_hash pb) (pb_parent pb) (pb_num pb) (default 0%N (pb_wait pb)))) (CSend pb)
  | CSend pb => to (emit_event st (EBatch pb)) (CNum pb)
  | CNum pb => to (set_last_num st (pb_num pb)) (CAdd pb)
  | CAdd pb => to (add_done st (pb_hash pb)) (CDelete pb)
  | CDelete pb => if bool_decide (mp_pend st = ∅) then to st CIdle else if writing s then None else to st (CWriting pb)
  | CWriting pb => to (set_pend st (delete (pb_hash pb) (mp_pend st))) CIdle
  end.

Inductive fact :=
| FAgain (i : nat)                               (* connection lost and made again *)
| FFrame (i : nat) (o : list hash → list hash) (f : frame)
| FCall (i : nat)
| FTake (o : order)                              (* the ordering layer takes the next block *)
| FMsg (m : msg) (e : menv)                      (* the Kafka upstream begins with a message *)
| FMsgEnd.

(** [None]: not possible now; [Some None]: the process ends. *)
Definition fstep (c : mp_config) (a : fact) (s : fsys) : option (option fsys) :=
  match a with
  | FAgain i =>
    match f_conns s !! i with
    | Some (FC k CIdle) => Some (Some (FS (<[i := FC (conn_again k) CIdle]> (f_conns s)) (f_mp s) (f_omp s) (f_taken s) (f_msg s)))
    | _ => None
    end
  | FFrame i o f =>
    match f_conns s !! i with
    | Some (FC k CIdle) =>
      let k' := conn_frame o k f in
      Some (Some (FS (<[i := FC k' (call_of (conn_events k k'))]> (f_conns s)) (f_mp s) (f_omp s) (f_taken s) (f_msg s)))
    | _ => None
    end
  | FCall i =>
    match f_conns s !! i with
    | Some (FC _ CIdle) | None => None
    | Some k => Some (call_step s i k)
    end
  | FTake o =>
    match sent_batches (mp_out (f_mp s)) !! length (batches_of (f_taken s)) with
    | Some pb =>
      match omp_step (f_omp s) (o, InBatch pb) with
      | Ok om => Some (Some (FS (f_conns s) (f_mp s) om (f_taken s ++ [(o, InBatch pb)]) (f_msg s)))
      | _ => Some None
      end
    | None => None
    end
  | FMsg m e =>
    match f_msg s, process c e (f_mp s) m with
    | Some _, _ => None
    | None, Ok (st', _) =>
      if bool_decide (dom (mp_pend st') = dom (mp_pend (f_mp s)))
      then Some (Some (FS (f_conns s) st' (f_omp s) (f_taken s) None))
      else if writing s then Some None
      else Some (Some (FS (f_conns s) (f_mp s) (f_omp s) (f_taken s) (Some (m, e))))
    | None, _ => Some None
    end
  | FMsgEnd =>
    match f_msg s with
    | Some (m, e) =>
      match process c e (f_mp s) m with
      | Ok (st', _) => Some (Some (FS (f_conns s) st' (f_omp s) (f_taken s) None))
      | _ => Some None
      end
    | None => None
    end
  end.

Definition fstart (c : mp_config) (cfg : config) (s : fsys) : Prop :=
  mc_thr c = cfg_threshold cfg ∧ mp_new c (cfg_last_num cfg) = Ok (f_mp s) ∧ new_omp cfg = Ok (f_omp s) ∧
  Forall (λ k, k = FC (conn_new cfg) CIdle) (f_conns s) ∧ f_taken s = [] ∧ f_msg s = None.
(** Map orders are permutations. *)
Definition fact_ok (a : fact) : Prop :=
  match a with FFrame _ o _ => ∀ x, o x ≡ₚ x | FTake o => order_ok o | _ => True end.
(** All upstreams are websocket connections. *)
Definition fact_ws (a : fact) : Prop := match a with FMsg _ _ | FMsgEnd => False | _ => True end.

Inductive frun (c : mp_config) : fsys → list fact → fsys → Prop :=
| frun_nil s : frun c s [] s
| frun_snoc s l s1 a s2 : frun c s l s1 → fact_ok a → fstep c a s1 = Some (Some s2) → frun c s (l ++ [a]) s2.
