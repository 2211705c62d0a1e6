(** Specification for C77: what a websocket consumer is to make of its connections. *)
From Verif Require Import Base Types Producer Consumer Websocket SpecWebsocket WsSystem WsStart.

(** A connection: the identifier of the call, the messages with the map orders, and whether a read failed. *)
Record link := Link { n_id : N; n_msgs : list ((list hash → list hash) * gframe); n_broke : bool }.
Definition link_add (x : (list hash → list hash) * gframe) (k : link) : link := Link (n_id k) (n_msgs k ++ [x]) (n_broke k).
Definition link_break (k : link) : link := Link (n_id k) (n_msgs k) true.
(** The connections of an execution, the latest first. *)
Definition links_step (ks : list link) (l : wlabel) : list link :=
  match l, ks with
  | LDialed id, _ => Link id [] false :: ks
  | LFrame o f, k :: r => link_add (o, f) k :: r
  | LBreak, k :: r => link_break k :: r
  | _, _ => ks
  end.
Definition links (ls : list wlabel) : list link := foldl links_step [] ls.

(** The subscription the server confirmed, and what followed. *)
Fixpoint confirmed (id : N) (ms : list ((list hash → list hash) * gframe))
    : option (N * list ((list hash → list hash) * gframe)) :=
  match ms with
  | [] => None
  | (_, GResp id' (RId s)) :: r => if bool_decide (id' = id) then Some (s, r) else confirmed id r
  | _ :: r => confirmed id r
  end.
(** The notifications of a subscription.  A message that does not say what it is counts as the one before ([m]). *)
Fixpoint notes (s : N) (m : option item) (ms : list ((list hash → list hash) * gframe)) : list delivery :=
  match ms with
  | [] => []
  | (o, f) :: r =>
    match f with
    | GEmpty => notes s m r
    | GNote s' i => if bool_decide (s' = s) then (o, i) :: notes s (Some i) r else notes s None r
    | GOther => notes s None r
    | GJunk | GResp _ _ => match m with Some i => (o, i) :: notes s m r | None => notes s m r end
    end
  end.
Definition expected (k : link) : list delivery :=
  match confirmed (n_id k) (n_msgs k) with Some (s, r) => notes s None r | None => [] end.

(** A server that confirms first and then sends notifications and empty messages only. *)
Definition orderly (s : N) (k : link) : Prop :=
  ∃ o r, n_msgs k = (o, GResp (n_id k) (RId s)) :: r ∧
    Forall (λ x, match x.2 with GNote _ _ | GEmpty | GOther => True | _ => False end) r.
(** What it sent for this subscription. *)
Definition sent_for (s : N) (k : link) : list item :=
  omap (λ x, match x.2 with GNote s' i => if bool_decide (s' = s) then Some i else None | _ => None end) (n_msgs k).

(** Where to continue: the last block completed, or where the consumer was told to start. *)
Definition reached (n : Z) (h : hash) (st : wsc) : Z * hash :=
  match last (blocks_out st) with Some pb => (pb_num pb, pb_hash pb) | None => (n, h) end.
(** How often the application was told that the consumer is ready. *)
Definition told_ready (st : wsc) : nat := length (omap (λ e, match e with WReady => Some tt | _ => None end) (c_out st)).
