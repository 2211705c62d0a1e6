(** A consumer with its waiter and the application (waiter/waiter.go, transports/kafka.go:764-769,
    transports/websockets.go:490-495): the announcements of the message processor reach the waiter, and
    the application calls Done on blocks of the updates it got.  The consumer is given by its
    transitions, by what its message processor sent and by what its ordering layer published.

    Simplifications: the waiter gets every announcement made after it subscribed (waiter.go:58), in
    order (the channel of 1024 entries only makes the sender wait).  The application calls Done
    on single blocks in any order and as often as it likes, but does not overlap the calls (see
    C35); ChainUpdate.Done (delivery/ordering.go:134-138) is one such sequence. *)
From Verif Require Import Base Lru Types Consumer Ordering SpecChain Waiter.

(** consumer.go:258, 317 *)
Definition announcements (o : list mp_event) : list waction :=
  omap (λ ev, match ev with EWaiter h _ n ch => Some (AAnnounce h n ch) | _ => None end) o.
(** consumer.go:76-87 *)
Definition done_action (pb : pending_batch) : list waction :=
  match pb_wait pb with Some ch => [ADone ch] | None => [] end.
(** What the waiter, its callers and the clock do by themselves. *)
Definition internal (a : waction) : Prop :=
  match a with AAnnounce _ _ _ | ADone _ | ADoneBegin _ _ | ADoneEnd _ => False | _ => True end.

(** The consumer, the actions of the waiter so far, the calls of Done so far. *)
Record joint (Y : Type) := Joint { j_y : Y; j_tr : list waction; j_done : list pending_batch }.
Arguments Joint {Y}. Arguments j_y {Y}. Arguments j_tr {Y}. Arguments j_done {Y}.

Section joint.
  Context {Y : Type} (step : Y → Y → Prop) (out : Y → list mp_event) (upd : Y → list omp_event).
  Inductive joint_step : joint Y → joint Y → Prop :=
  | JConsumer y y' tr d : step y y' →
      joint_step (Joint y tr d) (Joint y' (tr ++ announcements (drop (length (out y)) (out y'))) d)
  | JWaiter y tr d a : internal a → joint_step (Joint y tr d) (Joint y (tr ++ [a]) d)
  | JDone y tr d pb : pb ∈ all_added (upd y) ∨ pb ∈ all_removed (upd y) →
      joint_step (Joint y tr d) (Joint y (tr ++ done_action pb) (d ++ [pb])).
  (** The waiter is made when the consumer is in some state it can reach. *)
  Definition joint_run (reach : Y → Prop) (j : joint Y) : Prop :=
    ∃ y0, reach y0 ∧ rtc joint_step (Joint y0 [] []) j.
End joint.
