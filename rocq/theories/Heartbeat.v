(** Heartbeats of producers and the number of producers a participant sees: transports/kafka.go:303-318, 328-330 (a producer
    sends), 31-46, 305-318, 731-742 (a producer or consumer hears and counts).

    One participant counts; any number of producers send.  A producer that counts ignores its own heartbeats (293) and is not
    one of them.  Times are in milliseconds.

    Simplifications.
    - A producer deals with a tick at the moment it fires, and a heartbeat is heard at most [D] after it was sent ([D] is a
      parameter of an execution; it covers the broker, the network and the goroutines).
    - Reading [healthy] (310) and the assignment of SetHealth (329) are single steps; the code does not synchronise them.
    - The loop of ProducerCount is one step ([tracker_count], Kafka.v); Counting.v splits it.
    - The identifiers of producers differ (they are random, kafka.go:229-231); a stopped producer does not come back under its
      identifier. *)
From Verif Require Import Base Lru Types Kafka.

(** kafka.go:306 *)
Definition period : Z := 30000.

(** A running producer: [healthy] and the next tick. *)
Record prod := Prod { b_healthy : bool; b_next : Z }.
Record fleet := Fl {
  f_now : Z;
  f_prods : gmap hash prod;
  f_gone : gset hash;           (* stopped *)
  f_air : list (hash * Z);      (* heartbeats sent, with the time, and not heard yet *)
  f_pt : tracker
}.
Definition fl_new (now : Z) : fleet := Fl now ∅ ∅ [] ∅.

Inductive fact :=
| FAdd (h : hash)               (* 303-306 *)
| FHealth (h : hash) (b : bool) (* 328-330 *)
| FTick (h : hash)              (* 309-312 *)
| FHear (i : nat)               (* 315-316, 734-735 *)
| FStop (h : hash)              (* the process ends *)
| FPass (dt : N).

(** None: impossible in this state. *)
Definition f_step (D : Z) (a : fact) (s : fleet) : option fleet :=
  let '(Fl now ps gone air pt) := s in
  match a with
  | FAdd h =>
    match ps !! h with
    | Some _ => None
    | None => if bool_decide (h ∈ gone) then None else Some (Fl now (<[h := Prod true (now + period)]> ps) gone air pt)
    end
  | FHealth h b =>
    match ps !! h with
    | Some p => Some (Fl now (<[h := Prod b (b_next p)]> ps) gone air pt)
    | None => None
    end
  | FTick h =>
    match ps !! h with
    | Some p =>
      if bool_decide (b_next p = now) then
        Some (Fl now (<[h := Prod (b_healthy p) (now + period)]> ps) gone (if b_healthy p then air ++ [(h, now)] else air) pt)
      else None
    | None => None
    end
  | FHear i =>
    match air !! i with
    | Some (h, _) => Some (Fl now ps gone (delete i air) (tracker_update pt h now))
    | None => None
    end
  | FStop h =>
    match ps !! h with
    | Some _ => Some (Fl now (delete h ps) ({[h]} ∪ gone) air pt)
    | None => None
    end
  | FPass dt =>
    let t := (now + Z.of_N dt)%Z in
    if bool_decide (map_Forall (λ _ p, t <= b_next p)%Z ps ∧ Forall (λ x, t <= x.2 + D)%Z air)
    then Some (Fl t ps gone air pt) else None
  end.

Fixpoint f_run (D : Z) (s : fleet) (l : list fact) : option fleet :=
  match l with
  | [] => Some s
  | a :: r => match f_step D a s with Some s' => f_run D s' r | None => None end
  end.
