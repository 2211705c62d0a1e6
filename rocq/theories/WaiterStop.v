(** The waiter with the bounded channel of its announcements and Stop (waiter/waiter.go:53-63, 156-159), around Waiter.v.

    Simplifications: the send of one announcement is one step, taken when the channel has room (until then the sender waits, and an
    attempt changes nothing).  Unsubscribe (cardinal-types) returns when no send to the channel is in progress, and none follows. *)
From Verif Require Import Base Waiter.

(** waiter.go:54 *)
Definition ann_cap : nat := 1024.
(** [v_on]: the channel is subscribed; [v_open]: it is not closed; [v_calls]: calls of Stop between their two statements;
    [v_loop]: the goroutine of waiter.go:61-102 is in its loop. *)
Record wsrv := Srv { v_w : wst; v_on : bool; v_open : bool; v_calls : nat; v_loop : bool }.
Definition v_init : wsrv := Srv w_init true true 0 true.
Definition set_w (v : wsrv) (s : wst) : wsrv := Srv s (v_on v) (v_open v) (v_calls v) (v_loop v).

Definition by_w (v : wsrv) (a : waction) : outcome wsrv := s ← wstep (v_w v) a; Ok (set_w v s).

Inductive sact :=
| SAct (a : waction)
| SUnsub      (* waiter.go:157 *)
| SClose.     (* waiter.go:158 *)

Definition sstep (v : wsrv) (x : sact) : outcome wsrv :=
  match x with
  | SAct (AAnnounce h n ch) =>
    if v_on v then
      if v_open v then
        if bool_decide (length (w_queue (v_w v)) < ann_cap) then by_w v (AAnnounce h n ch) else Ok v
      else Panic
    else Ok v
  | SAct ARecv =>
    if v_loop v then
      match w_queue (v_w v), v_open v with
      | [], false => Ok (Srv (v_w v) (v_on v) (v_open v) (v_calls v) false)
      | _, _ => by_w v ARecv
      end
    else Ok v
  | SAct a => by_w v a
  | SUnsub => Ok (Srv (v_w v) false (v_open v) (S (v_calls v)) (v_loop v))
  | SClose =>
    match v_calls v with
    | 0 => Ok v
    | S k => if v_open v then Ok (Srv (v_w v) (v_on v) false k (v_loop v)) else Panic
    end
  end.
Definition srun (tr : list sact) (v : wsrv) : outcome wsrv := foldM sstep tr v.
