(** Counting producers while heartbeats arrive (transports/kafka.go:31-46).

    The map is written by one goroutine (kafka.go:305-318 for a producer, 731-737 for a consumer) and read by the callers of
    ProducerCount (324-326, 740-742), without a lock.  The goroutines are split into the reading of the clock, the beginning and the end of an
    assignment, and the single steps of a range loop.  A step of a range loop during an assignment ends the process (the runtime's
    check "concurrent map iteration and map write"); other simultaneous accesses have the effect of some order, which is the
    runtime's behaviour and not promised by the language.  Simplification: the clock does not run backwards (a monotonic clock) and
    ages do not overflow. *)
From Verif Require Import Base Types Kafka.

(** Where the goroutine with the assignment is (kafka.go:34): between heartbeats, after reading the clock, in the assignment. *)
Inductive writer := WIdle | WTimed (h : hash) (t : Z) | WIn (h : hash) (t : Z).
(** A call of ProducerCount (kafka.go:37-45): the keys the loop has visited, those present at its start it has still to visit, and
    the count; or its result. *)
Inductive pcall := CRun (d : Z) (seen todo : gset hash) (n : nat) | CDone (n : nat).
Record counting := CT { ct_now : Z; ct_pt : gmap hash Z; ct_wr : writer; ct_calls : list pcall }.
Definition ct_new (now : Z) : counting := CT now ∅ WIdle [].                    (* 248, 502 *)

Inductive cact :=
| ATick (dt : N)                          (* time goes by *)
| AHeart (h : hash)                       (* 34: a heartbeat is received and the clock read *)
| AWrite                                  (* 34: the assignment begins *)
| AWritten                                (* and ends *)
| ABegin (d : Z)                          (* 38-39: somebody calls ProducerCount *)
| ANext (i : nat) (k : option hash).      (* 39-43: the loop of call [i] gets to a key, or to its end *)
(** [None]: not possible now; [Some None]: the process ends. *)
Definition c_step (a : cact) (s : counting) : option (option counting) :=
  match a with
  | ATick dt => Some (Some (CT (ct_now s + Z.of_N dt) (ct_pt s) (ct_wr s) (ct_calls s)))
  | AHeart h => match ct_wr s with WIdle => Some (Some (CT (ct_now s) (ct_pt s) (WTimed h (ct_now s)) (ct_calls s))) | _ => None end
  | AWrite => match ct_wr s with WTimed h t => Some (Some (CT (ct_now s) (ct_pt s) (WIn h t) (ct_calls s))) | _ => None end
  | AWritten => match ct_wr s with WIn h t => Some (Some (CT (ct_now s) (tracker_update (ct_pt s) h t) WIdle (ct_calls s))) | _ => None end
  | ABegin d => Some (Some (CT (ct_now s) (ct_pt s) (ct_wr s) (ct_calls s ++ [CRun d ∅ (dom (ct_pt s)) 0])))
  | ANext i k =>
    match ct_calls s !! i with
    | Some (CRun d seen todo n) =>
      match k with
      | Some h =>
        v ← ct_pt s !! h;
        if bool_decide (h ∈ seen) then None else
        match ct_wr s with
        | WIn _ _ => Some None
        | _ =>
          let n' := if bool_decide (ct_now s - v < d)%Z then S n else n in      (* 40-41 *)
          Some (Some (CT (ct_now s) (ct_pt s) (ct_wr s) (<[i := CRun d ({[h]} ∪ seen) (todo ∖ {[h]}) n']> (ct_calls s))))
        end
      | None =>
        if bool_decide (todo = ∅) then
          match ct_wr s with
          | WIn _ _ => Some None
          | _ => Some (Some (CT (ct_now s) (ct_pt s) (ct_wr s) (<[i := CDone n]> (ct_calls s))))  (* 45 *)
          end
        else None
      end
    | _ => None
    end
  end.
(** [Some None] at the end: the process has ended. *)
Fixpoint c_run (s : counting) (l : list cact) : option (option counting) :=
  match l with
  | [] => Some (Some s)
  | a :: r => match c_step a s with Some (Some s') => c_run s' r | Some None => if bool_decide (r = []) then Some None else None | None => None end
  end.
