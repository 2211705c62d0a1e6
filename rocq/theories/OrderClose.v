(** The goroutine of the ordering layer and Close (delivery/ordering.go:62-100, 365-371).

    What handling a batch or a notice does is in Ordering.v; here only when it happens.  The channels hold 100 values (62-63).
    Simplifications: handling is one action between taking a value and the next turn, and may last any time; the
    errors of the subscriptions (83-86) never come, since nobody else ends them; times are in milliseconds.  A value sent
    while the goroutine is blocked in the select is handed to it at once, as the runtime does. *)
From Verif Require Import Base Types Ordering.

Definition chan_cap : nat := 100.            (* 62-63 *)
Definition idle_time : Z := 250.             (* 87 *)
Definition close_time : Z := 1000.           (* 368 *)
(** Where the goroutine is: entering the select with a timer started at [t], blocked in it, about to look for a quit message
    (91), handling a value (69-82), or gone (93-95). *)
Inductive lpos := LEnter (t : Z) | LBlocked (t : Z) | LPoll | LBusy (x : omp_input) | LGone.
(** A call of Close (366-370): since when it waits; or it returned, without or with the warning. *)
Inductive closer := KWait (t : Z) | KStopped | KWarned.
Record oloop := OL { l_now : Z; l_batches : list omp_input; l_notices : list omp_input; l_at : lpos; l_done : list omp_input; l_close : list closer }.
Definition ol_new (now : Z) : oloop := OL now [] [] (LEnter now) [] [].

Inductive lact :=
| XTick (dt : N)              (* time goes by *)
| XSend (x : omp_input)       (* consumer.go: a batch or a notice is sent to the channel *)
| XTake (notice : bool)       (* 69, 78: the select takes from a channel *)
| XBlock                      (* 68: nothing is ready *)
| XFire                       (* 87: the timer *)
| XFinish                     (* 77, 80: handled *)
| XQuit (i : nat)             (* 92-95, 367: the quit message of call [i] is received *)
| XAgain                      (* 96: no quit message *)
| XClose                      (* 365 *)
| XTimeout (i : nat).         (* 368-369 *)
Definition is_notice (x : omp_input) : bool := match x with InReorg _ _ => true | _ => false end.
Definition is_waiting (c : closer) : bool := match c with KWait _ => true | _ => false end.
(** [None]: not possible now. *)
Definition l_step (a : lact) (s : oloop) : option oloop :=
  let (now, bs, ns, at_, dn, cs) := s in
  match a with
  | XTick dt => Some (OL (now + Z.of_N dt) bs ns at_ dn cs)
  | XSend x =>
    match at_ with
    | LGone => None                                          (* 93-94: no longer subscribed *)
    | LBlocked _ => Some (OL now bs ns (LBusy x) dn cs)
    | _ =>
      if is_notice x then if bool_decide (length ns < chan_cap) then Some (OL now bs (ns ++ [x]) at_ dn cs) else None
      else if bool_decide (length bs < chan_cap) then Some (OL now (bs ++ [x]) ns at_ dn cs) else None
    end
  | XTake notice =>
    match at_, notice, bs, ns with
    | LEnter _, true, _, x :: r => Some (OL now bs r (LBusy x) dn cs)
    | LEnter _, false, x :: r, _ => Some (OL now r ns (LBusy x) dn cs)
    | _, _, _, _ => None
    end
  | XBlock =>
    match at_, bs, ns with
    | LEnter t, [], [] => if bool_decide (now < t + idle_time)%Z then Some (OL now [] [] (LBlocked t) dn cs) else None
    | _, _, _ => None
    end
  | XFire =>
    match at_ with
    | LEnter t | LBlocked t => if bool_decide (t + idle_time <= now)%Z then Some (OL now bs ns LPoll dn cs) else None
    | _ => None
    end
  | XFinish => match at_ with LBusy x => Some (OL now bs ns (LEnter now) (dn ++ [x]) cs) | _ => None end
  | XQuit i =>
    match at_, cs !! i with
    | LPoll, Some (KWait _) => Some (OL now bs ns LGone dn (<[i := KStopped]> cs))
    | _, _ => None
    end
  | XAgain =>
    match at_ with
    | LPoll => if existsb is_waiting cs then None else Some (OL now bs ns (LEnter now) dn cs)
    | _ => None
    end
  | XClose => Some (OL now bs ns at_ dn (cs ++ [KWait now]))
  | XTimeout i =>
    match cs !! i with
    | Some (KWait t) => if bool_decide (t + close_time <= now)%Z then Some (OL now bs ns at_ dn (<[i := KWarned]> cs)) else None
    | _ => None
    end
  end.
Fixpoint l_run (s : oloop) (l : list lact) : option oloop :=
  match l with [] => Some s | a :: r => s' ← l_step a s; l_run s' r end.
