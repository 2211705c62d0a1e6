(** The consumer of all partitions of a topic (utils/kafka.go). *)
From Verif Require Import Base Types.

(** One partition with the goroutine that forwards its messages (utils/kafka.go:39-43).  [tp_queue] are the messages in sarama's
    channel, [tp_hand] the one received and not yet passed on (40-41), [tp_run] says whether the loop still runs, [tp_open]
    whether the partition's consumer has not been closed.  Simplification: sarama's channel is not bounded (a full one only delays
    the broker's messages). *)
Record tpart := TP { tp_queue : list msg; tp_hand : option msg; tp_run : bool; tp_open : bool }.
Definition tp_new : tpart := TP [] None true true.
(** Where [Close] has got to (utils/kafka.go:53-58): not called, about to close partition [k], returned (with an error or not). *)
Inductive tclosing := NotClosing | ClosingAt (k : nat) | Returned (err : bool).
(** utils/kafka.go:15-19.  Messages in the channel and received from it carry the number of their partition. *)
Record tcons := TC { tc_parts : list tpart; tc_cap : nat; tc_buf : list (nat * msg); tc_got : list (nat * msg); tc_close : tclosing }.

(** utils/kafka.go:21-47 [NewTopicConsumer], once connected: [partitions] is the broker's answer, for each partition whether
    ConsumePartition succeeds.  Returns whether there was an error (then the caller gets no consumer), and what runs afterwards:
    the goroutines started before the error go on (37-38). *)
Fixpoint open_all (l : list bool) : bool * list tpart :=
  match l with
  | [] => (false, [])
  | false :: _ => (true, [])                                                   (* 38 *)
  | true :: r => let '(e, ps) := open_all r in (e, tp_new :: ps)               (* 37, 39-44 *)
  end.
Definition new_topic_consumer (buffer : Z) (partitions : option (list bool)) : outcome (bool * tcons) :=
  if (buffer <? 0)%Z then Panic                                                (* 32, make *)
  else match partitions with
       | None => Ok (true, TC [] (Z.to_nat buffer) [] [] NotClosing)           (* 33-35 *)
       | Some l => let '(e, ps) := open_all l in Ok (e, TC ps (Z.to_nat buffer) [] [] NotClosing)
       end.

(** One action of somebody. *)
Inductive tact :=
| TIn (i : nat) (m : msg)      (* the broker delivers a message of the partition *)
| TTake (i : nat)              (* 40: the goroutine receives it *)
| TPut (i : nat)               (* 41: and sends it to the common channel *)
| TPass (i : nat)              (* 41: the same without a buffer, together with the receiver *)
| TGet                         (* the user of Messages() receives *)
| TEnd (i : nat)               (* 40: the loop ends, the channel being closed and empty *)
| TCloseBegin                  (* 53: Close is called *)
| TClosePart (err : bool)      (* 55: the next partition is closed, with or without an error *)
| TCloseEnd (err : bool)       (* 57: the last statement *)
| TDrop (i : nat).             (* sarama lets go of a message of a closed partition *)
Definition with_part (s : tcons) (i : nat) (p : tpart) : tcons := TC (<[i := p]> (tc_parts s)) (tc_cap s) (tc_buf s) (tc_got s) (tc_close s).
(** [None]: not possible now. *)
Definition t_step (a : tact) (s : tcons) : option tcons :=
  match a with
  | TIn i m =>
    p ← tc_parts s !! i;
    if tp_open p then Some (with_part s i (TP (tp_queue p ++ [m]) (tp_hand p) (tp_run p) true)) else None
  | TTake i =>
    p ← tc_parts s !! i;
    match tp_run p, tp_hand p, tp_queue p with
    | true, None, m :: q => Some (with_part s i (TP q (Some m) true (tp_open p)))
    | _, _, _ => None
    end
  | TPut i =>
    p ← tc_parts s !! i;
    match tp_hand p with
    | Some m => if bool_decide (length (tc_buf s) < tc_cap s) then
        Some (TC (<[i := TP (tp_queue p) None (tp_run p) (tp_open p)]> (tc_parts s)) (tc_cap s) (tc_buf s ++ [(i, m)]) (tc_got s) (tc_close s))
      else None
    | None => None
    end
  | TPass i =>
    p ← tc_parts s !! i;
    match tp_hand p, tc_cap s with
    | Some m, 0 =>
        Some (TC (<[i := TP (tp_queue p) None (tp_run p) (tp_open p)]> (tc_parts s)) (tc_cap s) (tc_buf s) (tc_got s ++ [(i, m)]) (tc_close s))
    | _, _ => None
    end
  | TGet =>
    match tc_buf s with
    | x :: b => Some (TC (tc_parts s) (tc_cap s) b (tc_got s ++ [x]) (tc_close s))
    | [] => None
    end
  | TEnd i =>
    p ← tc_parts s !! i;
    match tp_run p, tp_hand p, tp_queue p, tp_open p with
    | true, None, [], false => Some (with_part s i (TP [] None false false))
    | _, _, _, _ => None
    end
  | TCloseBegin =>
    match tc_close s with
    | NotClosing => Some (TC (tc_parts s) (tc_cap s) (tc_buf s) (tc_got s) (ClosingAt 0))
    | _ => None
    end
  | TClosePart err =>
    match tc_close s with
    | ClosingAt k =>
      p ← tc_parts s !! k;
      Some (TC (<[k := TP (tp_queue p) (tp_hand p) (tp_run p) false]> (tc_parts s)) (tc_cap s) (tc_buf s) (tc_got s)
        (if err : bool then Returned true else ClosingAt (S k)))
    | _ => None
    end
  | TCloseEnd err =>
    match tc_close s with
    | ClosingAt k => if bool_decide (length (tc_parts s) ≤ k) then Some (TC (tc_parts s) (tc_cap s) (tc_buf s) (tc_got s) (Returned err)) else None
    | _ => None
    end
  | TDrop i =>
    p ← tc_parts s !! i;
    match tp_open p, tp_queue p with
    | false, m :: q => Some (with_part s i (TP q (tp_hand p) (tp_run p) false))
    | _, _ => None
    end
  end.
Fixpoint t_run (s : tcons) (l : list tact) : option tcons :=
  match l with [] => Some s | a :: r => s' ← t_step a s; t_run s' r end.
