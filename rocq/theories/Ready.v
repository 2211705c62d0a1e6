(** When a Kafka consumer says that it is ready: transports/kafka.go:581-615 (the goroutines of the
    partitions), 618-646 (the goroutine that waits for them), 647-716 (the message loop).
    Also the consumer that is started on the topic of a reorganisation, 667-680.

    Simplifications.
    - The channel [messages] is unbounded: a full one (512 messages) only delays.
    - The drumline (600-602) only delays.
    - Leaving the barrier (594-597), looking at the high water mark (603-611) and holding the message until there is
      room for it is one step, putting it on the channel (613) is another.
    - The timer of readyWaiter (628) can fire whenever the loop finds the channel empty (it is made when the loop comes back
      to the channel, so a message that is there is taken first); it is lost if nobody listens (713-715), a
      step that does nothing.
    - A message of ReorgType on an ordinary feed (667-680) keeps the loop busy until the second consumer is ready;
      here it is one step of the loop. *)
From Verif Require Import Base Lru Types Wire Consumer Kafka Feed.

(** A partition as opened: what it will deliver, startOffset, its newest offset at that time and in the end. *)
Record opened := Op { op_msgs : list fmsg; op_start : Z; op_newest : Z; op_end : Z }.

(** The goroutine of a partition: between two messages, waiting for the others (595-596), or with a message in hand
    that is to be put on the channel next (613). *)
Inductive phase := PhNext | PhWait (m : fmsg) | PhHold (m : fmsg).
Record cpart := CP { cp_todo : list fmsg; cp_phase : phase; cp_warm : bool; cp_once : bool (* 606-610 has run *) ; cp_op : opened }.
(** The goroutine of 631-646: waiting for the partitions, waiting for the timer, for the reorganisations, done. *)
Inductive signal := SgParts | SgTimer | SgReorgs | SgSent.
Record rstate := RSt {
  rs_parts : list cpart;
  rs_chan : list (nat * fmsg);   (* messages *)
  rs_done : list (nat * fmsg);   (* what the loop has handled *)
  rs_wg : Z;                     (* reorgWg *)
  rs_signal : signal
}.
(** 595-596: every partition has called warmupWg.Done *)
Definition warmed (p : cpart) : Prop := cp_warm p = true ∨ ∃ m, cp_phase p = PhWait m.
(** 599-611; [hw] is pc.HighWaterMarkOffset(), [live] tells whether kc.ready is still set.  The high water mark lies above
    the message and between the newest offset at the start and that in the end. *)
Definition check_mark (live : bool) (hw : Z) (m : fmsg) (once : bool) : bool :=
  once || (live && bool_decide (hw - fm_off m <= 1)%Z).
Definition is_live (g : signal) : bool := match g with SgSent => false | _ => true end.
(** What a message does to reorgWg (657-691), [None] for a panic; compare [Kafka.kc_message]. *)
Definition wg_after (isReorg : bool) (wg : Z) (m : fmsg) : option Z :=
  match fm_key m with
  | [] => Some wg
  | t :: _ =>
    if bool_decide (t = ReorgType) then Some (if isReorg then (wg + 1)%Z else wg)
    else if bool_decide (t = ReorgCompleteType) then if bool_decide (wg <= 0)%Z then None else Some (wg - 1)%Z
    else Some wg
  end.

(** [prompt]: a goroutine with a message in hand puts it on the channel before the
    timer of the loop (one second) fires. *)
Inductive ready_step (prompt isReorg : bool) : rstate → rstate → Prop :=
| RArrive ps ch dn wg g i m todo once o :
    ps !! i = Some (CP (m :: todo) PhNext false once o) → (op_start o ≤ fm_off m)%Z →
    ready_step prompt isReorg (RSt ps ch dn wg g) (RSt (<[i := CP todo (PhWait m) false once o]> ps) ch dn wg g)
| RRelease ps ch dn wg g i m todo once o hw :
    ps !! i = Some (CP todo (PhWait m) false once o) → Forall warmed ps → (fm_off m < hw)%Z → (op_newest o ≤ hw ≤ op_end o)%Z →
    ready_step prompt isReorg (RSt ps ch dn wg g)
      (RSt (<[i := CP todo (PhHold m) true (check_mark (is_live g) hw m once) o]> ps) ch dn wg g)
| RPass ps ch dn wg g i m todo warm once o hw :
    ps !! i = Some (CP (m :: todo) PhNext warm once o) → warm = true ∨ (fm_off m < op_start o)%Z → (fm_off m < hw)%Z → (op_newest o ≤ hw ≤ op_end o)%Z →
    ready_step prompt isReorg (RSt ps ch dn wg g)
      (RSt (<[i := CP todo (PhHold m) warm (check_mark (is_live g) hw m once) o]> ps) ch dn wg g)
| RPut ps ch dn wg g i m todo warm once o :
    ps !! i = Some (CP todo (PhHold m) warm once o) →
    ready_step prompt isReorg (RSt ps ch dn wg g) (RSt (<[i := CP todo PhNext warm once o]> ps) (ch ++ [(i, m)]) dn wg g)
| RTake ps i m ch dn wg wg' g :
    wg_after isReorg wg m = Some wg' →
    ready_step prompt isReorg (RSt ps ((i, m) :: ch) dn wg g) (RSt ps ch (dn ++ [(i, m)]) wg' g)
| RParts ps ch dn wg :                                                            (* 633-635 *)
    Forall (λ p, cp_once p = true) ps → ready_step prompt isReorg (RSt ps ch dn wg SgParts) (RSt ps ch dn wg SgTimer)
| RTimer ps dn wg :                                                               (* 636-638, 706-715 *)
    (prompt = true → Forall (λ p, ∀ m, cp_phase p ≠ PhHold m) ps) →
    ready_step prompt isReorg (RSt ps [] dn wg SgTimer) (RSt ps [] dn wg SgReorgs)
| RReady ps ch dn :                                                               (* 639-643 *)
    ready_step prompt isReorg (RSt ps ch dn 0 SgReorgs) (RSt ps ch dn 0 SgSent).

Definition ready_init (os : list opened) : rstate := RSt (map (λ o, CP (op_msgs o) PhNext false false o) os) [] [] 0 SgParts.

(** 556-580: how a partition is opened; [new] is what comes after that, until its newest offset is [fin]. *)
Definition open_part (entry : option Z) (rollback : Z) (start : hash) (get : bool) (l : flog) (new : list fmsg) (fin : Z) : option opened :=
  match warm_start entry rollback start get (fl_part l) with
  | Some (s, so) => Some (Op (from_offset l s ++ new) so (pt_newest (fl_part l)) fin)
  | None => None
  end.
(** 668-677: the consumer of a reorganisation has no token, rollback 0 and an empty start hash;
    its topic has one partition (382). *)
Definition open_reorg : bool → flog → list fmsg → Z → option opened := open_part None 0 zero_hash.
