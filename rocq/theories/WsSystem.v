(** A consumer with websocket upstreams: transports/websockets.go:321-472 for each upstream,
    delivery/consumer.go:254-268 [ProcessCompleteBatch] and the goroutine of the ordering layer
    (delivery/ordering.go:66-100).  One upstream is [ResolveConsumer] (transports/resolver.go:52-56),
    several are [ResolveMuxConsumer] (resolver.go:94-107): they share one ordered message processor.

    Simplifications.
    - A step is one frame of one connection, a lost connection, or one block taken by the ordering
      layer.  ProcessCompleteBatch and HandleReorg are called from the goroutines of the
      connections; the model runs each call without interruption, and the code takes no lock
      (the Go race detector would report HandleReorg against the ordering goroutine, and two
      upstreams against one another).
    - The channel to the ordering layer (ordering.go:62) is a FIFO queue; its bound only makes the
      sender wait.  Discard requests of the ordering layer (ordering.go:107) are not read in this
      mode: nothing calls ProcessMessage, and the sender does not wait (consumer.go:247-252).
    - [rpc.SubscriptionResponseRaw] is not in the repository; of encoding/json the model assumes
      that a frame that is not valid JSON leaves the variable as it was. *)
From Verif Require Import Base Lru Types Producer Consumer Ordering SpecChain System Websocket.

(** websockets.go:380-400: the frames of a connection.  [notification] is one variable for the
    whole connection (375) and errors of json.Unmarshal are ignored (390), so that after a frame that is
    not JSON it still holds the last message. *)
Inductive frame :=
| FPing                (* empty message (386-389) *)
| FNote (i : item)     (* a notification of this subscription *)
| FForeign             (* another method or subscription (391-398) *)
| FGarbled.            (* not JSON *)

(** The new value of [notification] (None: not of this subscription) and the message processed. *)
Definition ws_read (note : option item) (f : frame) : option item * option item :=
  match f with
  | FPing => (note, None)
  | FNote i => (Some i, Some i)
  | FForeign => (None, None)
  | FGarbled => (note, note)
  end.

(** One upstream: the consumer, its [notification], the messages processed in earlier connections
    and in this one. *)
Record conn := Conn { k_c : wsc; k_note : option item; k_done : list (list delivery); k_cur : list delivery }.
Definition life (k : conn) : list (list delivery) := k_done k ++ [k_cur k].

(** websockets.go:313-315, resolver.go:55, 102 *)
Definition conn_new (cfg : config) : conn := Conn (wsc_new (cfg_last_num cfg) (cfg_last_hash cfg)) None [] [].

(** websockets.go:326-337, 375: the connection was lost and made again. *)
Definition conn_again (k : conn) : conn := Conn (wsc_connect (k_c k)) None (life k) [].
(** websockets.go:380-467: a frame. *)
Definition conn_frame (o : list hash → list hash) (k : conn) (f : frame) : conn :=
  let '(note, now) := ws_read (k_note k) f in
  match now with
  | None => Conn (k_c k) note (k_done k) (k_cur k)
  | Some i => Conn (wsc_step o (k_c k) i) note (k_done k) (k_cur k ++ [(o, i)])
  end.
(** What the frame made the consumer do. *)
Definition conn_events (k k' : conn) : list wevent := drop (length (c_out (k_c k))) (c_out (k_c k')).

Record wsys := Ws { w_conns : list conn; w_mp : mp; w_omp : omp; w_taken : list (order * omp_input) }.

(** ordering.go:156-158 and 241-245, called from a connection. *)
Definition ws_event (y : wsys) (ev : wevent) : wsys :=
  match ev with
  | WReady => y
  | WComplete pb => Ws (w_conns y) (process_complete (w_mp y) pb) (w_omp y) (w_taken y)
  | WReorg n h => Ws (w_conns y) (w_mp y) (handle_reorg (w_omp y) n h) (w_taken y ++ [(id_order, InReorg n h)])
  end.

Definition ws_start (c : mp_config) (cfg : config) (y : wsys) : Prop :=
  mc_thr c = cfg_threshold cfg ∧ mp_new c (cfg_last_num cfg) = Ok (w_mp y) ∧ new_omp cfg = Ok (w_omp y) ∧
  Forall (λ k, k = conn_new cfg) (w_conns y) ∧ w_taken y = [].

Inductive ws_step : wsys → wsys → Prop :=
| WsAgain ks st s l i k : ks !! i = Some k →
    ws_step (Ws ks st s l) (Ws (<[i := conn_again k]> ks) st s l)
| WsFrame ks st s l i k o f : ks !! i = Some k → (∀ x, o x ≡ₚ x) →
    ws_step (Ws ks st s l)
            (foldl ws_event (Ws (<[i := conn_frame o k f]> ks) st s l) (conn_events k (conn_frame o k f)))
| WsTake ks st s l o pb s' :
    order_ok o → omp_step s (o, InBatch pb) = Ok s' →
    batches_of (l ++ [(o, InBatch pb)]) `prefix_of` sent_batches (mp_out st) →
    ws_step (Ws ks st s l) (Ws ks st s' (l ++ [(o, InBatch pb)])).

Definition ws_run (c : mp_config) (cfg : config) (y : wsys) : Prop :=
  ∃ y0, ws_start c cfg y0 ∧ rtc ws_step y0 y.
