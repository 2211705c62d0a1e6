(** The consumer with its bounded channels: the transport's goroutine, which calls ProcessMessage (delivery/consumer.go:271-401)
    once for every message, the goroutine of the ordering layer (delivery/ordering.go:66-100) and the goroutines of the application,
    which receive what is sent to the subscribers.  A send waits until its channel accepts (a full channel blocks), so that each
    goroutine may have to wait for another one.

    Simplifications.  The subscriptions are those made before the first message, and they remain (Feed.v treats subscribing and
    unsubscribing).  The sends of one Feed.Send may happen in any order.  What a call sends is determined when it begins and is then
    sent piece by piece; the two goroutines share nothing but the channels.  A discard request (consumer.go:247-252) that arrives
    during a call is received by the next one (System.v allows it earlier; [me_evict] is unused here).  An application takes an item from its
    channel, works on it for some time and takes the next one; [u_on] says whether it still receives.  Close, timeouts and
    messages that arrive later are not part of this model. *)
From Verif Require Import Base Lru Types Avro Wire GoPath Consumer Ordering SpecChain System.

(** What is sent on a channel: the sends of the message processor and those of the ordering layer. *)
Definition item : Type := mp_event + omp_event.
(** The feeds: waitFeed, feed, reorgFeed of the message processor (consumer.go:195-197), updateFeed and reorgFeed of the ordering
    layer (ordering.go:32-33).  A discard request goes to no subscriber. *)
Inductive kind := KWaiters | KBatches | KNotices | KUpdates | KReorgs.
#[global] Instance kind_eq_dec : EqDecision kind.
Proof. solve_decision. Defined.
Definition kind_of (x : item) : option kind :=
  match x with
  | inl (EWaiter _ _ _ _) => Some KWaiters
  | inl (EBatch _) => Some KBatches
  | inl (EReorg _ _) => Some KNotices
  | inr (EvUpdate _ _) => Some KUpdates
  | inr (EvReorg _ _) => Some KReorgs
  | inr (EvEvict _) => None
  end.

(** A channel subscribed to a feed with its capacity, what is in it and, for an application, what it is working on and has finished
    (for the ordering layer: what it has taken). *)
Record sub := Sub { u_kind : kind; u_cap : nat; u_on : bool; u_buf : list item; u_hand : option item; u_got : list item }.
(** A send on the channel: into the buffer if there is room, or directly to a waiting receiver. *)
Definition accept (x : item) (u : sub) : option sub :=
  if bool_decide (length (u_buf u) < u_cap u) then Some (Sub (u_kind u) (u_cap u) (u_on u) (u_buf u ++ [x]) (u_hand u) (u_got u))
  else match u_buf u, u_hand u with
       | [], None => if u_on u then Some (Sub (u_kind u) (u_cap u) (u_on u) [] (Some x) (u_got u)) else None
       | _, _ => None
       end.
(** ordering.go:62-65: the ordering layer's own two channels; what is taken from them is worked on by [omp_step]. *)
Definition chan_cap : nat := 100.
Definition own_subs : list sub := [Sub KBatches chan_cap false [] None []; Sub KNotices chan_cap false [] None []].

(** Outstanding sends: each item with the subscribers (positions in [q_subs]) that have not accepted it. *)
Definition sends := list (item * list nat).
(** [q_in]: the messages the transport has yet to pass on, with the choices made while each is processed; [q_put] and [q_pub]: the
    sends that the current call of the message processor and that of the ordering layer have yet to do. *)
Record pipe := Pipe {
  q_in : list (msg * menv); q_mp : mp; q_put : sends; q_omp : omp; q_pub : sends; q_subs : list sub }.

(** Feed.Send: to every channel subscribed. *)
Definition targets (us : list sub) (x : item) : list nat :=
  filter (λ i, u_kind <$> us !! i = kind_of x) (seq 0 (length us)).
Definition send_all (us : list sub) (xs : list item) : sends := map (λ x, (x, targets us x)) xs.

(** One of the sends of the first outstanding item. *)
Definition send_one (i : nat) (q : sends) (us : list sub) : option (sends * list sub) :=
  match q with
  | (x, l) :: r =>
    if bool_decide (i ∈ l) then
      match us !! i with
      | Some u => match accept x u with Some u' => Some ((x, filter (λ j, j ≠ i) l) :: r, <[i := u']> us) | None => None end
      | None => None
      end
    else None
  | [] => None
  end.

Inductive pact :=
| AMsg                          (* the transport passes on a message *)
| APut (i : nat) | APutDone     (* the message processor sends *)
| ATake (o : order) (i : nat)   (* the ordering layer takes from its channel 0 or 1 *)
| APub (i : nat) | APubDone     (* the ordering layer sends *)
| ARecv (i : nat) | AWork (i : nat).   (* an application receives; it has finished its work *)

Definition take_input (x : item) : option omp_input :=
  match x with inl (EBatch pb) => Some (InBatch pb) | inl (EReorg n h) => Some (InReorg n h) | _ => None end.

(** One step; the result [Some None] is a goroutine that panicked (or recursed for ever). *)
Definition pstep (c : mp_config) (a : pact) (s : pipe) : option (option pipe) :=
  let (inp, st, put, om, pub, us) := s in
  match a with
  | AMsg =>
    match put, inp with
    | [], (m, e) :: r =>
      match process c e st m with
      | Ok (st', _) =>
        Some (Some (Pipe r st' (send_all us (map inl (drop (length (mp_out st)) (mp_out st')))) om pub us))
      | _ => Some None
      end
    | _, _ => None
    end
  | APut i => match send_one i put us with Some (put', us') => Some (Some (Pipe inp st put' om pub us')) | None => None end
  | APutDone => match put with (x, []) :: r => Some (Some (Pipe inp st r om pub us)) | _ => None end
  | ATake o i =>
    match pub, us !! i with
    | [], Some u =>
      if bool_decide (i < 2) then
        match u_buf u with
        | x :: b =>
          match take_input x with
          | Some y =>
            match omp_step om (o, y) with
            | Ok om' =>
              Some (Some (Pipe inp st put om' (send_all us (map inr (drop (length (o_out om)) (o_out om'))))
                            (<[i := Sub (u_kind u) (u_cap u) (u_on u) b (u_hand u) (u_got u ++ [x])]> us)))
            | _ => Some None
            end
          | None => None
          end
        | [] => None
        end
      else None
    | _, _ => None
    end
  | APub i => match send_one i pub us with Some (pub', us') => Some (Some (Pipe inp st put om pub' us')) | None => None end
  | APubDone =>
    match pub with
    | (x, []) :: r =>
      Some (Some (Pipe inp (match x with inr (EvEvict n) => evict_older_than st n | _ => st end) put om r us))
    | _ => None
    end
  | ARecv i =>
    match us !! i with
    | Some u =>
      if bool_decide (2 ≤ i) && u_on u then
        match u_buf u, u_hand u with
        | x :: b, None => Some (Some (Pipe inp st put om pub (<[i := Sub (u_kind u) (u_cap u) (u_on u) b (Some x) (u_got u)]> us)))
        | _, _ => None
        end
      else None
    | None => None
    end
  | AWork i =>
    match us !! i with
    | Some u =>
      match u_hand u with
      | Some x => Some (Some (Pipe inp st put om pub (<[i := Sub (u_kind u) (u_cap u) (u_on u) (u_buf u) None (u_got u ++ [x])]> us)))
      | None => None
      end
    | None => None
    end
  end.
(** [None]: the process is gone. *)
Definition pflow (c : mp_config) (s s' : option pipe) : Prop :=
  ∃ p a, s = Some p ∧ (∀ o i, a = ATake o i → order_ok o) ∧ pstep c a p = Some s'.

(** The start: nothing is sent yet; the application's subscribers have empty channels of any capacity. *)
Definition idle_sub (u : sub) : Prop := u_buf u = [] ∧ u_hand u = None ∧ u_got u = [].
Definition pstart (c : mp_config) (cfg : config) (ms : list (msg * menv)) (apps : list sub) (s : pipe) : Prop :=
  ∃ st om, mc_thr c = cfg_threshold cfg ∧ mp_new c (cfg_last_num cfg) = Ok st ∧ new_omp cfg = Ok om ∧
    Forall idle_sub apps ∧ Forall (λ x : msg * menv, menv_ok x.2 ∧ ∀ k, me_evict x.2 k = []) ms ∧
    s = Pipe ms st [] om [] (own_subs ++ apps).

(** Running a schedule, for concrete cases. *)
Fixpoint prun (c : mp_config) (l : list pact) (s : pipe) : option (option pipe) :=
  match l with
  | [] => Some (Some s)
  | a :: r => match pstep c a s with Some (Some s') => prun c r s' | x => x end
  end.
