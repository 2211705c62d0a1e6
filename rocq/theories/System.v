(** A consumer as started by delivery.NewOrderedMessageProcessor (delivery/ordering.go:40-102): a
    MessageProcessor fed by the transport and the goroutine of the ordering layer, which takes
    completed blocks and reorg notifications from two channels (ordering.go:62-65).

    Simplifications.  Both goroutines run concurrently; they meet only in the two channels and
    in [evictOlderThan] (consumer.go:247-252).  A channel is a FIFO queue; its bound (100) only makes the sender
    wait.  The ordering layer may work while a message is being processed, so a step for a message
    includes any number of steps [lx] of the ordering layer, which may also consume what that
    message completes, and the discard requests reaching the message processor during the
    message ([me_evict]) are any requests made up to the end of the step.  A request may be received later than it
    was made, and more than once: this covers every real schedule. *)
From Verif Require Import Base Lru Types Avro Wire GoPath Consumer Ordering SpecChain.

(** What has been put into the two channels. *)
Definition sent_batches (o : list mp_event) : list pending_batch :=
  omap (λ ev, match ev with EBatch pb => Some pb | _ => None end) o.
Definition sent_reorgs (o : list mp_event) : list (Z * hash) :=
  omap (λ ev, match ev with EReorg n h => Some (n, h) | _ => None end) o.
(** What has been taken from them. *)
Definition taken_reorgs (l : list (order * omp_input)) : list (Z * hash) :=
  omap (λ i : order * omp_input, match i.2 with InReorg n h => Some (n, h) | _ => None end) l.
Definition consumed (l : list (order * omp_input)) (o : list mp_event) : Prop :=
  batches_of l `prefix_of` sent_batches o ∧ taken_reorgs l `prefix_of` sent_reorgs o.

(** The two components, with the inputs they have handled so far. *)
Record sys := Sys { y_mp : mp; y_omp : omp; y_ins : list mp_input; y_taken : list (order * omp_input) }.

(** ordering.go:44-49 passes the same configuration to both. *)
Definition sys_start (c : mp_config) (cfg : config) (y : sys) : Prop :=
  mc_thr c = cfg_threshold cfg ∧ mp_new c (cfg_last_num cfg) = Ok (y_mp y) ∧ new_omp cfg = Ok (y_omp y) ∧
  y_ins y = [] ∧ y_taken y = [].

Inductive sys_step (c : mp_config) : sys → sys → Prop :=
| YMessage st s ins l m e st' err lx s' :
    menv_ok e → process c e st m = Ok (st', err) →
    orders_ok lx → omp_run s lx = Ok s' → consumed (l ++ lx) (mp_out st') →
    (∀ k n, n ∈ me_evict e k → EvEvict n ∈ o_out s') →
    sys_step c (Sys st s ins l) (Sys st' s' (ins ++ [IMsg m e]) (l ++ lx))
| YDiscard st s ins l n :
    EvEvict n ∈ o_out s →
    sys_step c (Sys st s ins l) (Sys (evict_older_than st n) s (ins ++ [IEvict n]) l)
| YTake st s ins l i s' :
    order_ok i.1 → omp_step s i = Ok s' → consumed (l ++ [i]) (mp_out st) →
    sys_step c (Sys st s ins l) (Sys st s' ins (l ++ [i])).

Definition sys_run (c : mp_config) (cfg : config) (y : sys) : Prop :=
  ∃ y0, sys_start c cfg y0 ∧ rtc (sys_step c) y0 y.
