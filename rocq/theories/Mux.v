(** Model of transports/resolver.go: choice of the transport by URL and the multiplexed producer and
    consumer.  Not modelled: logging, the [Ready] channel of a multiplexed consumer, [Close]. *)
From Coq Require Import Strings.String.
From Verif Require Import Base Types Avro GoText.

(** ** Broker URLs *)
Definition cardinal_prefix : bytes := str "cardinal://"%string.
Definition scheme_sep : bytes := str "://"%string.
(** strings.Split(s, "://")[0]: the text before the first separator, all of it if there is none *)
Fixpoint before_sep (s : bytes) : bytes :=
  match s with
  | [] => []
  | b :: r => if bool_decide (scheme_sep `prefix_of` s) then [] else b :: before_sep r
  end.
Definition protocol (url : bytes) : bytes := before_sep (trim_prefix url cardinal_prefix).

(** The constructor called and the URL handed to it.  [KWebsocket] for producers is
    NewWebsocketProducer, for consumers newWebsocketConsumer. *)
Inductive transport := TKafka (url : bytes) | TWebsocket (url : bytes) | TNull.
(** resolver.go:17-25 [ResolveProducer]; [None] is the "unknown producer protocol" error *)
Definition resolve_producer (url : bytes) : option transport :=
  if bool_decide (protocol url = str "kafka"%string) then Some (TKafka (trim_prefix url cardinal_prefix)) else None.
(** resolver.go:27-36 [ResolveProducerWithResumer] *)
Definition resolve_producer_resumer (url : bytes) : option transport :=
  let p := protocol url in
  if bool_decide (p = str "ws"%string) || bool_decide (p = str "wss"%string) then Some (TWebsocket (trim_prefix url cardinal_prefix))
  else if bool_decide (p = str "kafka"%string) then Some (TKafka (trim_prefix url cardinal_prefix))
  else None.
(** resolver.go:58-73 [resolveConsumer].  The URL is passed on as it is; newWebsocketConsumer
    removes the prefix itself (websockets.go:314), kafkaConsumerWithOMP does not. *)
Definition resolve_consumer (url : bytes) : option transport :=
  let p := protocol url in
  if bool_decide (p = str "kafka"%string) then Some (TKafka url)
  else if bool_decide (p = str "ws"%string) || bool_decide (p = str "wss"%string) then Some (TWebsocket (trim_prefix url cardinal_prefix))
  else if bool_decide (p = str "null"%string) then Some TNull
  else None.
(** kafka.go:69,148,485: the broker addresses, the part of the URL up to the first '/', '?' or
    '#' after the scheme, split at commas (url.Parse: authority without user information) *)
Definition url_end (b : byte) : bool := bool_decide (b ∈ [x2f; x3f; x23]).
Fixpoint authority (s : bytes) : bytes :=
  match s with [] => [] | b :: r => if url_end b then [] else b :: authority r end.
Definition kafka_brokers (url : bytes) : list bytes := split_byte x2c (authority (trim_prefix url (str "kafka://"%string))).
(** resolver.go:75-91 [ResumptionForTimestamp]: [token] is kafkaResumptionForTimestamp *)
Fixpoint resumption_for {P : Type} (url : P → bytes) (token : P → option bytes) (l : list P) (results : list bytes) : option bytes :=
  match l with
  | [] => Some (join_byte x3b results)
  | bp :: r =>
    if bool_decide (protocol (url bp) = str "kafka"%string)
    then match token bp with Some t => resumption_for url token r (results ++ [t]) | None => None end
    else if bool_decide (protocol (url bp) = str "null"%string) then resumption_for url token r results
    else None
  end.

(** ** Multiplexed producer.  Members have states in [S] and errors in [E]; [f] is a call. *)
Section mux.
  Context {S E : Type}.
  (** resolver.go:258-278, loop of AddBlock and SendBatch *)
  Fixpoint mux_loop (f : S → S * option E) (l : list S) (errs : list E) : list S * list E :=
    match l with
    | [] => ([], errs)
    | p :: r =>
      let '(p, e) := f p in
      let '(r, errs) := mux_loop f r (match e with Some x => errs ++ [x] | None => errs end) in
      (p :: r, errs)
    end.
  (** resolver.go:265-266,276-277 *)
  Definition mux_call (f : S → S * option E) (l : list S) : list S * option E :=
    let '(l, errs) := mux_loop f l [] in (l, head errs).

  (** resolver.go:280-298 [Reorg]; a successful member returns a function, applied to the member
      when the reorganisation is done.  The result lists the functions with the members'
      positions; the returned function calls them in order. *)
  Fixpoint mux_reorg_loop (f : S → S * (E + (S → S))) (l : list S) (i : nat) (errs : list E) (fns : list (nat * (S → S)))
    : list S * list E * list (nat * (S → S)) :=
    match l with
    | [] => ([], errs, fns)
    | p :: r =>
      let '(p, x) := f p in
      let '(r, errs, fns) :=
        match x with
        | inl e => mux_reorg_loop f r (i + 1) (errs ++ [e]) fns
        | inr fn => mux_reorg_loop f r (i + 1) errs (fns ++ [(i, fn)])
        end in
      (p :: r, errs, fns)
    end.
  Definition mux_reorg (f : S → S * (E + (S → S))) (l : list S) : list S * option E * list (nat * (S → S)) :=
    let '(l, errs, fns) := mux_reorg_loop f l 0 [] [] in (l, head errs, fns).
  Definition reorg_finish (fns : list (nat * (S → S))) (l : list S) : list S := foldl (λ l x, alter x.2 x.1 l) l fns.

  (** resolver.go:239-256 [LatestBlockFromFeed] *)
  Definition max_int64 : Z := 9223372036854775807.
  Fixpoint mux_latest_loop (rs : list (E + Z)) (n : Z) (topErr : option E) : Z * option E :=
    match rs with
    | [] => (n, topErr)
    | inl e :: r => mux_latest_loop r n (Some e)
    | inr v :: r => mux_latest_loop r (if bool_decide (v < n)%Z then v else n) topErr
    end.
  Definition mux_latest (rs : list (E + Z)) : Z * option E :=
    let '(n, topErr) := mux_latest_loop rs max_int64 None in
    if bool_decide (n < max_int64)%Z then (n, None) else (0%Z, topErr).

  (** resolver.go:152-165 [Start]; true for an error *)
  Fixpoint mux_start_loop (f : S → S * option E) (l : list S) (n : nat) : list S * nat :=
    match l with
    | [] => ([], n)
    | p :: r =>
      let '(p, e) := f p in
      let '(r, n) := mux_start_loop f r (match e with Some _ => n + 1 | None => n end) in
      (p :: r, n)
    end.
  Definition mux_start (f : S → S * option E) (l : list S) : list S * bool :=
    let '(l', n) := mux_start_loop f l 0 in (l', bool_decide (n = length l)).
  (** resolver.go:144-150,225-231 [ProducerCount]; unsigned 64-bit arithmetic *)
  Definition mux_count (f : S → N) (l : list S) : N := foldl (λ c p, (c + f p) mod 2 ^ 64)%N 0%N l.
  (** resolver.go:205-212 [WhyNotReady] *)
  Fixpoint mux_why (f : S → bytes) (l : list S) : bytes :=
    match l with
    | [] => str "no consumers to report"%string
    | p :: r => match f p with [] => mux_why f r | v => v end
    end.
  (** resolver.go:129-142 [Waiter]; [None] stands for the null waiter *)
  Fixpoint mux_waiter {W : Type} (f : S → option W) (l : list S) : option W :=
    match l with
    | [] => None
    | p :: r => match f p with Some w => Some w | None => mux_waiter f r end
    end.
End mux.
