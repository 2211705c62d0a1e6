(** Model of waiter/waiter.go and of the completion of batches (delivery/consumer.go:76-87,
    delivery/ordering.go:134-138) as a transition system.  A run is any list of actions; an
    action that is not enabled changes nothing.  Goroutines take their steps when the run says so,
    and timers fire at or after their time, never before.
    [Stop] and the capacity of the announcement channel are added in WaiterStop.v.
    Times are in nanoseconds. *)
From Verif Require Import Base.

(** Channels: the [waitCh] of a batch, identified by a number for the batch, and the channels
    made for block numbers at waiter.go:66-68, with a serial number. *)
Inductive wchan := CH (ch : N) | CN (n : Z) (id : N).
#[global] Instance wchan_eq_dec : EqDecision wchan.
Proof. solve_decision. Defined.
#[global] Program Instance wchan_countable : Countable wchan :=
  inj_countable' (λ c, match c with CH x => inl x | CN n i => inr (n, i) end)
    (λ x, match x with inl x => CH x | inr (n, i) => CN n i end) _.
Next Obligation. by intros []. Qed.

(** What is waited for, and waiter.go:106-112 [WaitResult]. *)
Inductive wkey := KHash (h : hash) | KNum (n : Z).
Inductive wresult := Success | Timeout | NotFound.
(** A call of WaitForHashResult or WaitForNumberResult: after the lookup, in the select
    statement, returned. *)
Inductive query :=
| QLooked (k : wkey) (c : wchan) (d : Z)
| QParked (k : wkey) (c : wchan) (deadline : N)
| QDone (k : wkey) (r : wresult).
(** The goroutine started for each announcement (waiter.go:69-99): waiting for one of its channels,
    then sleeping.  [num] is the number to delete besides the hash. *)
Inductive task :=
| TWait (nch : N) (hch : N) (h : hash) (n : Z)
| TSleep (until : N) (h : hash) (num : option Z).

(** [w_queue] are the announcements in the channel [ch]; [w_nil] are the batches whose [waitCh] is
    nil; [w_regs] are the local variables [waitch] of calls of Done in progress. *)
Record wst := WS {
  w_queue : list (hash * Z * N);
  w_hashes : gmap hash N;
  w_numbers : gmap Z N;
  w_closed : gset wchan;
  w_nil : gset N;
  w_regs : gmap N N;
  w_next : N;
  w_tasks : gmap N task;
  w_now : N;
  w_qs : gmap N query
}.
Definition w_init : wst := WS [] ∅ ∅ ∅ ∅ ∅ 0 ∅ 0 ∅.

Inductive waction :=
| AAnnounce (h : hash) (n : Z) (ch : N)   (* waitFeed.Send, consumer.go:258,317 *)
| ARecv                                   (* waiter.go:63-101, one iteration *)
| AWakeHash (id : N)                      (* waiter.go:71-88 *)
| AWakeNum (id : N)                       (* waiter.go:89-97 *)
| AExpire (id : N)                        (* end of the sleep *)
| ATick (d : N)
| ADone (ch : N)                          (* PendingBatch.Done, in one piece *)
| ADoneBegin (k ch : N)                   (* PendingBatch.Done, reading waitCh; [k] is the call *)
| ADoneEnd (k : N)                        (* the rest of the call *)
| ALookup (q : N) (k : wkey) (d : Z)      (* waiter.go:121-126, 142-147 *)
| ASelect (q : N) (timer : bool)          (* waiter.go:127-132, 148-153: entering the select *)
| ATimer (q : N).                         (* the timer of a select fires *)

(** close(c): a select waiting for the channel returns *)
Definition wake_query (c : wchan) (q : query) : query :=
  match q with QParked k c' _ => if bool_decide (c' = c) then QDone k Success else q | _ => q end.
Definition close (c : wchan) (s : wst) : outcome wst :=
  if bool_decide (c ∈ w_closed s) then Panic
  else Ok (WS (w_queue s) (w_hashes s) (w_numbers s) ({[c]} ∪ w_closed s) (w_nil s) (w_regs s) (w_next s) (w_tasks s) (w_now s)
             (wake_query c <$> w_qs s)).

Definition set_qs (s : wst) (q : gmap N query) : wst :=
  WS (w_queue s) (w_hashes s) (w_numbers s) (w_closed s) (w_nil s) (w_regs s) (w_next s) (w_tasks s) (w_now s) q.
Definition set_tasks (s : wst) (t : gmap N task) : wst :=
  WS (w_queue s) (w_hashes s) (w_numbers s) (w_closed s) (w_nil s) (w_regs s) (w_next s) t (w_now s) (w_qs s).
Definition set_maps (s : wst) (h : gmap hash N) (n : gmap Z N) : wst :=
  WS (w_queue s) h n (w_closed s) (w_nil s) (w_regs s) (w_next s) (w_tasks s) (w_now s) (w_qs s).
Definition set_nil (s : wst) (n : gset N) : wst :=
  WS (w_queue s) (w_hashes s) (w_numbers s) (w_closed s) n (w_regs s) (w_next s) (w_tasks s) (w_now s) (w_qs s).
Definition set_regs (s : wst) (r : gmap N N) : wst :=
  WS (w_queue s) (w_hashes s) (w_numbers s) (w_closed s) (w_nil s) r (w_next s) (w_tasks s) (w_now s) (w_qs s).

(** waiter.go:64-100 *)
Definition receive (s : wst) : wst :=
  match w_queue s with
  | [] => s
  | (h, n, ch) :: r =>
    let '(nch, numbers, next) := match w_numbers s !! n with
      | Some c => (c, w_numbers s, w_next s)
      | None => (w_next s, <[n := w_next s]> (w_numbers s), w_next s + 1)%N
      end in
    WS r (<[h := ch]> (w_hashes s)) numbers (w_closed s) (w_nil s) (w_regs s) (next + 1)
       (<[next := TWait nch ch h n]> (w_tasks s)) (w_now s) (w_qs s)
  end.

Definition sixty : N := 60000000000.
(** waiter.go:121-126, 142-147 *)
Definition find (s : wst) (k : wkey) : option wchan :=
  match k with KHash h => CH <$> w_hashes s !! h | KNum n => CN n <$> w_numbers s !! n end.

(** consumer.go:77-81 *)
Definition done (s : wst) (ch : N) : outcome wst :=
  if bool_decide (ch ∈ w_nil s) then Ok s else close (CH ch) (set_nil s ({[ch]} ∪ w_nil s)).

Definition wstep (s : wst) (a : waction) : outcome wst :=
  match a with
  | AAnnounce h n ch =>
    Ok (WS (w_queue s ++ [(h, n, ch)]) (w_hashes s) (w_numbers s) (w_closed s) (w_nil s) (w_regs s) (w_next s) (w_tasks s) (w_now s) (w_qs s))
  | ARecv => Ok (receive s)
  | AWakeHash id =>
    match w_tasks s !! id with
    | Some (TWait nch hch h n) =>
      if bool_decide (CH hch ∈ w_closed s) then
        s ← (if bool_decide (CN n nch ∈ w_closed s) then Ok s else close (CN n nch) s);   (* 73-80 *)
        Ok (set_tasks s (<[id := TSleep (w_now s + sixty) h (Some n)]> (w_tasks s)))
      else Ok s
    | _ => Ok s
    end
  | AWakeNum id =>
    match w_tasks s !! id with
    | Some (TWait nch hch h n) =>
      if bool_decide (CN n nch ∈ w_closed s)
      then Ok (set_tasks s (<[id := TSleep (w_now s + sixty) h None]> (w_tasks s)))
      else Ok s
    | _ => Ok s
    end
  | AExpire id =>
    match w_tasks s !! id with
    | Some (TSleep until h num) =>
      if bool_decide (until ≤ w_now s)%N then
        Ok (set_maps (set_tasks s (delete id (w_tasks s))) (delete h (w_hashes s))
              (match num with Some n => delete n (w_numbers s) | None => w_numbers s end))
      else Ok s
    | _ => Ok s
    end
  | ATick d => Ok (WS (w_queue s) (w_hashes s) (w_numbers s) (w_closed s) (w_nil s) (w_regs s) (w_next s) (w_tasks s) (w_now s + d) (w_qs s))
  | ADone ch => done s ch
  | ADoneBegin k ch => Ok (if bool_decide (ch ∈ w_nil s) then s else set_regs s (<[k := ch]> (w_regs s)))
  | ADoneEnd k =>
    match w_regs s !! k with
    | Some ch => close (CH ch) (set_regs (set_nil s ({[ch]} ∪ w_nil s)) (delete k (w_regs s)))
    | None => Ok s
    end
  | ALookup q k d =>
    match w_qs s !! q with
    | Some _ => Ok s
    | None => Ok (set_qs s (<[q := match find s k with Some c => QLooked k c d | None => QDone k NotFound end]> (w_qs s)))
    end
  | ASelect q timer =>
    match w_qs s !! q with
    | Some (QLooked k c d) =>
      Ok (set_qs s (<[q :=
        if bool_decide (d ≤ 0)%Z && timer then QDone k Timeout
        else if bool_decide (c ∈ w_closed s) then QDone k Success
        else QParked k c (w_now s + Z.to_N d)]> (w_qs s)))
    | _ => Ok s
    end
  | ATimer q =>
    match w_qs s !! q with
    | Some (QParked k c deadline) =>
      if bool_decide (deadline ≤ w_now s)%N then Ok (set_qs s (<[q := QDone k Timeout]> (w_qs s))) else Ok s
    | _ => Ok s
    end
  end.
Definition wrun (tr : list waction) (s : wst) : outcome wst := foldM wstep tr s.

(** ordering.go:134-138 [ChainUpdate.Done]; the batches' wait channels *)
Definition update_done (added removed : list N) (s : wst) : outcome wst := foldM done (added ++ removed) s.
