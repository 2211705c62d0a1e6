(** Who hears that a consumer is ready: KafkaConsumer.Ready (transports/kafka.go:744-749) with the goroutine of 631-646,
    websocketConsumer.Ready (transports/websockets.go:402-406, 483-485), nullConsumer.Ready (transports/null.go:24-28),
    and muxConsumer.Ready (transports/resolver.go:178-203) on top of them.  A consumer with one broker is the same
    with one member and without the last step.

    Simplifications: when a Kafka consumer has caught up is left open here (see Ready.v); reading
    and writing the field kc.ready are atomic (the code takes no lock). *)
From Verif Require Import Base.

(** A Kafka consumer that has not caught up, offers its signal (641), has got rid of it, has cleared
    kc.ready (643); a websocket consumer whose channel is open or closed (405). *)
Inductive member := MNot | MOffer | MTaken | MNil | MWs (closed : bool) | MNull.
(** A channel got from a member: shared with all other callers of a Kafka consumer (745), with a value of its own
    (746-748, null.go:25-26), shared and to be closed (websockets.go:484). *)
Inductive rchan := ChShared | ChOwn | ChBroadcast.
Definition ready_chan (m : member) : rchan :=
  match m with MNot | MOffer | MTaken => ChShared | MNil | MNull => ChOwn | MWs _ => ChBroadcast end.
(** The goroutine of a call of Ready (191-201): collecting channels, in Select, with [ch <- struct{}{}] (200)
    before it, received by the caller.  The number is that of the member selected. *)
Inductive rcall := RCollect (l : list rchan) | RSelect (l : list rchan) | RSend (i : nat) | RTold (i : nat).
Record rworld := RW { rw_members : list member; rw_calls : list rcall }.

(** What comes from outside: a member catches up, Ready is called. *)
Inductive rc_outer : rworld → rworld → Prop :=
| RcCaughtUp ms cs i : ms !! i = Some MNot → rc_outer (RW ms cs) (RW (<[i := MOffer]> ms) cs)                (* kafka.go:633-640 *)
| RcWsReady ms cs i : ms !! i = Some (MWs false) → rc_outer (RW ms cs) (RW (<[i := MWs true]> ms) cs)        (* websockets.go:402-406 *)
| RcCall ms cs : rc_outer (RW ms cs) (RW ms (cs ++ [RCollect []])).                                          (* resolver.go:178-191 *)
Inductive rc_inner : rworld → rworld → Prop :=
| RcCollect ms cs j l m : cs !! j = Some (RCollect l) → ms !! length l = Some m →                           (* 193-198 *)
    rc_inner (RW ms cs) (RW ms (<[j := RCollect (l ++ [ready_chan m])]> cs))
| RcSelect ms cs j l : cs !! j = Some (RCollect l) → length l = length ms →                                 (* 199 *)
    rc_inner (RW ms cs) (RW ms (<[j := RSelect l]> cs))
| RcOwn ms cs j l i : cs !! j = Some (RSelect l) → l !! i = Some ChOwn →
    rc_inner (RW ms cs) (RW ms (<[j := RSend i]> cs))
| RcBroadcast ms cs j l i : cs !! j = Some (RSelect l) → l !! i = Some ChBroadcast → ms !! i = Some (MWs true) →
    rc_inner (RW ms cs) (RW ms (<[j := RSend i]> cs))
| RcShared ms cs j l i : cs !! j = Some (RSelect l) → l !! i = Some ChShared → ms !! i = Some MOffer →      (* kafka.go:641 *)
    rc_inner (RW ms cs) (RW (<[i := MTaken]> ms) (<[j := RSend i]> cs))
| RcClear ms cs i : ms !! i = Some MTaken → rc_inner (RW ms cs) (RW (<[i := MNil]> ms) cs)                   (* kafka.go:643 *)
| RcTold ms cs j i : cs !! j = Some (RSend i) → rc_inner (RW ms cs) (RW ms (<[j := RTold i]> cs)).           (* resolver.go:200 *)

Definition rc_step (s s' : rworld) : Prop := rc_outer s s' ∨ rc_inner s s'.
(** The members after Start. *)
Definition fresh (m : member) : Prop := m = MNot ∨ m = MWs false ∨ m = MNull.
Definition rc_run (ms : list member) (s : rworld) : Prop := Forall fresh ms ∧ rtc rc_step (RW ms []) s.
