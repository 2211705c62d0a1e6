(** Closing consumers: KafkaConsumer.Close (transports/kafka.go:756-759) with the goroutines it stops, the
    partitions (581-614), the message loop (651-728) and the goroutine of 718-724; websocketConsumer.Close
    (transports/websockets.go:479-482) with the loop of 326-468; muxConsumer.Close (transports/resolver.go:172-176).

    Simplifications.
    - Handling a message is one step of the loop; it does not get stuck (a reorg message waits for a second
      consumer, see Ready.v).
    - The channel [messages] is unbounded and the drumline (601) does not hold anybody up for ever.
    - PartitionConsumer.Close stops the feed, lets go of messages not yet taken and ends the range over
      Messages() (sarama's documentation); a goroutine may still take some while that goes on.
    - shutdownWg is the number of goroutines between Add (582) and Done (583).
    - A partition delivers a finite list of messages until it is closed. *)
From Verif Require Import Base Lru Types Wire Kafka Feed.

(** * Kafka *)
(** The channel pc.Messages(): open, being closed, closed. *)
Inductive source := SrcOpen | SrcDrain | SrcShut.
(** The goroutine of a partition: not scheduled yet (before 582), between messages, at the barrier (595-596),
    with a message in hand (599-613), over. *)
Inductive gphase := GNew | GNext | GWait (m : fmsg) | GHold (m : fmsg) | GEnd.
Record gpart := GP {
  g_log : list fmsg;      (* what pc.Messages() will still deliver *)
  g_src : source;
  g_phase : gphase;
  g_warm : bool;
  g_start : Z;            (* startOffset *)
  g_got : list fmsg       (* what the goroutine has taken *)
}.
(** 718-724: before closing partition [k], while that closes, before and after the end *)
Inductive closer := CloPart (k : nat) | CloDrain (k : nat) | CloWait | CloEnd.
(** 756-759: sending on quit, waiting for shutdownWg, returned *)
Inductive ccall := CaQuit | CaWait | CaBack.
Record cstate := CS {
  s_parts : list gpart;
  s_chan : list (nat * fmsg);   (* messages *)
  s_closed : bool;              (* messages is closed *)
  s_done : list (nat * fmsg);   (* what the loop has handled *)
  s_loop : bool;                (* the message loop runs *)
  s_closers : list closer;
  s_calls : list ccall
}.
Definition active (p : gpart) : Prop := match g_phase p with GNew | GEnd => False | _ => True end.
Definition at_barrier (p : gpart) : Prop := g_warm p = true ∨ ∃ m, g_phase p = GWait m.

(** [None]: a panic *)
Inductive close_step : cstate → option cstate → Prop :=
| SBegin ps ch cl dn lp co ca i p : ps !! i = Some p → g_phase p = GNew →                           (* 581-586 *)
    close_step (CS ps ch cl dn lp co ca) (Some (CS (<[i := GP (g_log p) (g_src p) GNext (g_warm p) (g_start p) (g_got p)]> ps) ch cl dn lp co ca))
| SRecv ps ch cl dn lp co ca i p m l : ps !! i = Some p → g_phase p = GNext → g_log p = m :: l →     (* 589-592 *)
    close_step (CS ps ch cl dn lp co ca)
      (Some (CS (<[i := GP l (g_src p) (if negb (g_warm p) && bool_decide (g_start p <= fm_off m)%Z then GWait m else GHold m)
                         (g_warm p) (g_start p) (g_got p ++ [m])]> ps) ch cl dn lp co ca))
| SRelease ps ch cl dn lp co ca i p m : ps !! i = Some p → g_phase p = GWait m → Forall at_barrier ps →  (* 595-597 *)
    close_step (CS ps ch cl dn lp co ca) (Some (CS (<[i := GP (g_log p) (g_src p) (GHold m) true (g_start p) (g_got p)]> ps) ch cl dn lp co ca))
| SPut ps ch dn lp co ca i p m : ps !! i = Some p → g_phase p = GHold m →                            (* 613 *)
    close_step (CS ps ch false dn lp co ca)
      (Some (CS (<[i := GP (g_log p) (g_src p) GNext (g_warm p) (g_start p) (g_got p)]> ps) (ch ++ [(i, m)]) false dn lp co ca))
| SPutClosed ps ch dn lp co ca i p m : ps !! i = Some p → g_phase p = GHold m →                      (* send on a closed channel *)
    close_step (CS ps ch true dn lp co ca) None
| SOver ps ch cl dn lp co ca i p : ps !! i = Some p → g_phase p = GNext → g_src p = SrcShut → g_log p = [] →
    close_step (CS ps ch cl dn lp co ca) (Some (CS (<[i := GP (g_log p) (g_src p) GEnd (g_warm p) (g_start p) (g_got p)]> ps) ch cl dn lp co ca))
| STake ps x ch cl dn co ca :                                                                       (* 653-695 *)
    close_step (CS ps (x :: ch) cl dn true co ca) (Some (CS ps ch cl (dn ++ [x]) true co ca))
| SLoopEnd ps dn co ca :                                                                            (* 654-656 *)
    close_step (CS ps [] true dn true co ca) (Some (CS ps [] true dn false co ca))
| SCall ps ch cl dn lp co ca :                                                                      (* 756 *)
    close_step (CS ps ch cl dn lp co ca) (Some (CS ps ch cl dn lp co (ca ++ [CaQuit])))
| SQuit ps ch cl dn co ca j : ca !! j = Some CaQuit →                                               (* 757, 717-718 *)
    close_step (CS ps ch cl dn true co ca) (Some (CS ps ch cl dn true (co ++ [CloPart 0]) (<[j := CaWait]> ca)))
| SClose ps ch cl dn lp co ca c k p : co !! c = Some (CloPart k) → ps !! k = Some p →               (* 719-720, beginning *)
    close_step (CS ps ch cl dn lp co ca)
      (Some (CS (<[k := GP (g_log p) (match g_src p with SrcOpen => SrcDrain | x => x end) (g_phase p) (g_warm p) (g_start p) (g_got p)]> ps) ch cl dn lp
                (<[c := CloDrain k]> co) ca))
| SDrop ps ch cl dn lp co ca i p m l : ps !! i = Some p → g_src p = SrcDrain → g_log p = m :: l →
    close_step (CS ps ch cl dn lp co ca) (Some (CS (<[i := GP l SrcDrain (g_phase p) (g_warm p) (g_start p) (g_got p)]> ps) ch cl dn lp co ca))
| SShut ps ch cl dn lp co ca i p : ps !! i = Some p → g_src p = SrcDrain → g_log p = [] →
    close_step (CS ps ch cl dn lp co ca) (Some (CS (<[i := GP [] SrcShut (g_phase p) (g_warm p) (g_start p) (g_got p)]> ps) ch cl dn lp co ca))
| SClosed ps ch cl dn lp co ca c k p : co !! c = Some (CloDrain k) → ps !! k = Some p → g_src p = SrcShut →  (* 720, end *)
    close_step (CS ps ch cl dn lp co ca) (Some (CS ps ch cl dn lp (<[c := CloPart (S k)]> co) ca))
| SAll ps ch cl dn lp co ca c : co !! c = Some (CloPart (length ps)) →                              (* 721 *)
    close_step (CS ps ch cl dn lp co ca) (Some (CS ps ch cl dn lp (<[c := CloWait]> co) ca))
| SFinish ps ch dn lp co ca c : co !! c = Some CloWait → Forall (λ p, ¬ active p) ps →              (* 722-723 *)
    close_step (CS ps ch false dn lp co ca) (Some (CS ps ch true dn lp (<[c := CloEnd]> co) ca))
| SFinishAgain ps ch dn lp co ca c : co !! c = Some CloWait → Forall (λ p, ¬ active p) ps →         (* close of a closed channel *)
    close_step (CS ps ch true dn lp co ca) None
| SBack ps ch cl dn lp co ca j : ca !! j = Some CaWait → Forall (λ p, ¬ active p) ps →              (* 758 *)
    close_step (CS ps ch cl dn lp co ca) (Some (CS ps ch cl dn lp co (<[j := CaBack]> ca))).

Definition goes (s s' : cstate) : Prop := close_step s (Some s').
(** 553-617: what the partitions will deliver, and their startOffset.  If Start failed there is no message
    loop ([up] is false). *)
Definition close_init (up : bool) (l : list (list fmsg * Z)) : cstate :=
  CS (map (λ x, GP x.1 SrcOpen GNew false x.2 []) l) [] false [] up [] [].

(** * Websocket *)
(** websockets.go:326-468: at the head of the loop, dialling (327), reading (334-467), over *)
Inductive lphase := LTop | LDial | LRead | LOver.
(** The value of c.conn: the connection being read, an earlier one, nil (after a failed Dial, 327) *)
Inductive lconn := ConnCur | ConnOld | ConnNil.
Record wlife := WL {
  l_phase : lphase;
  l_conn : lconn;
  l_open : bool;      (* the connection being read has not been closed *)
  l_buf : nat;        (* frames that have arrived and are not yet read *)
  l_read : nat;       (* frames processed *)
  l_quit : bool;
  l_half : nat        (* calls of Close that have set quit and not yet closed the connection *)
}.
Inductive wlife_step : wlife → option wlife → Prop :=
| LQuit c o b r h : wlife_step (WL LTop c o b r true h) (Some (WL LOver c o b r true h))              (* 326 *)
| LAgain c o b r h : wlife_step (WL LTop c o b r false h) (Some (WL LDial c o b r false h))
| LConnect c o b r q h : wlife_step (WL LDial c o b r q h) (Some (WL LRead ConnCur true 0 r q h))     (* 327 *)
| LFail c o b r q h : wlife_step (WL LDial c o b r q h) (Some (WL LTop ConnNil o b r q h))            (* 328-333 *)
| LArrive c b r q h : wlife_step (WL LRead c true b r q h) (Some (WL LRead c true (S b) r q h))
| LFrame c o b r q h : wlife_step (WL LRead c o (S b) r q h) (Some (WL LRead c o b (S r) q h))        (* 381-466 *)
| LError c o r q h : wlife_step (WL LRead c o 0 r q h) (Some (WL LTop ConnOld o 0 r q h))             (* 382-385 *)
| LCloseQuit p c o b r q h : wlife_step (WL p c o b r q h) (Some (WL p c o b r true (S h)))           (* 480 *)
| LCloseConn p c o b r q h : c ≠ ConnNil →                                                            (* 481 *)
    wlife_step (WL p c o b r q (S h)) (Some (WL p c (match c with ConnCur => false | _ => o end) b r q h))
| LCloseNil p o b r q h : wlife_step (WL p ConnNil o b r q (S h)) None.                               (* nil pointer *)
Definition wgoes (s s' : wlife) : Prop := wlife_step s (Some s').
Definition wlife_init : wlife := WL LTop ConnNil false 0 0 false 0.

(** * Several brokers: resolver.go:172-176.  Closing a member returns, never returns or panics. *)
Inductive closing := Returns | Never | Panics.
Fixpoint mux_close (l : list closing) : closing :=
  match l with [] => Returns | Returns :: r => mux_close r | x :: _ => x end.
