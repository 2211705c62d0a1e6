(** One consumer with Kafka and websocket upstreams: transports/resolver.go:94-107 gives every upstream the same ordered
    message processor, Kafka feeds call ProcessMessage (delivery/consumer.go:271-401) and websocket connections call
    ProcessCompleteBatch (consumer.go:254-268) and HandleReorg (delivery/ordering.go:241-245).

    Simplifications: those of System.v and WsSystem.v.  A call of ProcessMessage, ProcessCompleteBatch or HandleReorg is
    not interrupted by a call from another upstream, although the code takes no lock; what happens when they
    overlap is C69.  The messages of several Kafka feeds are one sequence. *)
From Verif Require Import Base Lru Types Avro Wire GoPath Producer Consumer Ordering SpecChain System Websocket WsSystem.

(** The calls a message processor gets. *)
Inductive mp_call := CIn (i : mp_input) | CWhole (pb : pending_batch).
Definition call_step (c : mp_config) (st : mp) (x : mp_call) : outcome mp :=
  match x with CIn i => mp_step c st i | CWhole pb => Ok (process_complete st pb) end.
Definition calls_run (c : mp_config) (xs : list mp_call) (st : mp) : outcome mp := foldM (call_step c) xs st.

Record xsys := X {
  x_conns : list conn; x_mp : mp; x_omp : omp;
  x_calls : list mp_call;                  (* what the message processor was called with *)
  x_taken : list (order * omp_input);      (* what the ordering layer took from its two channels *)
  x_seen : list (order * omp_input)        (* ... and, among it, the calls of HandleReorg *)
}.

(** consumer.go:254-268, ordering.go:241-245, called from a connection. *)
Definition x_event (y : xsys) (ev : wevent) : xsys :=
  match ev with
  | WReady => y
  | WComplete pb => X (x_conns y) (process_complete (x_mp y) pb) (x_omp y) (x_calls y ++ [CWhole pb]) (x_taken y) (x_seen y)
  | WReorg n h => X (x_conns y) (x_mp y) (handle_reorg (x_omp y) n h) (x_calls y) (x_taken y) (x_seen y ++ [(id_order, InReorg n h)])
  end.

Definition x_start (c : mp_config) (cfg : config) (y : xsys) : Prop :=
  mc_thr c = cfg_threshold cfg ∧ mp_new c (cfg_last_num cfg) = Ok (x_mp y) ∧ new_omp cfg = Ok (x_omp y) ∧
  Forall (λ k, k = conn_new cfg) (x_conns y) ∧ x_calls y = [] ∧ x_taken y = [] ∧ x_seen y = [].

Inductive x_step (c : mp_config) : xsys → xsys → Prop :=
| XAgain ks st s cs l l' i k : ks !! i = Some k →
    x_step c (X ks st s cs l l') (X (<[i := conn_again k]> ks) st s cs l l')
| XFrame ks st s cs l l' i k o f : ks !! i = Some k → (∀ x, o x ≡ₚ x) →
    x_step c (X ks st s cs l l')
             (foldl x_event (X (<[i := conn_frame o k f]> ks) st s cs l l') (conn_events k (conn_frame o k f)))
| XMessage ks st s cs l l' m e st' err lx s' :
    menv_ok e → process c e st m = Ok (st', err) →
    orders_ok lx → omp_run s lx = Ok s' → consumed (l ++ lx) (mp_out st') →
    (∀ k n, n ∈ me_evict e k → EvEvict n ∈ o_out s') →
    x_step c (X ks st s cs l l') (X ks st' s' (cs ++ [CIn (IMsg m e)]) (l ++ lx) (l' ++ lx))
| XDiscard ks st s cs l l' n :
    EvEvict n ∈ o_out s →
    x_step c (X ks st s cs l l') (X ks (evict_older_than st n) s (cs ++ [CIn (IEvict n)]) l l')
| XTake ks st s cs l l' i s' :
    order_ok i.1 → omp_step s i = Ok s' → consumed (l ++ [i]) (mp_out st) →
    x_step c (X ks st s cs l l') (X ks st s' cs (l ++ [i]) (l' ++ [i])).

Definition x_run (c : mp_config) (cfg : config) (y : xsys) : Prop :=
  ∃ y0, x_start c cfg y0 ∧ rtc (x_step c) y0 y.
