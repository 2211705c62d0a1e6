(** Multiplexed producers and consumers and the choice of transports: C39-C41, C48. *)
From Coq Require Import Strings.String.
From Verif Require Import Base Types Avro GoText Mux SpecMux MuxFacts.

(** ** C39.  AddBlock and SendBatch reach every member; the error is the first member's. *)
Theorem C39_calls {S E : Type} (f : S → S * option E) (l l' : list S) r :
  mux_call f l = (l', r) →
  length l' = length l ∧ (∀ i p, l !! i = Some p → l' !! i = Some (f p).1) ∧ first_error (map (λ p, (f p).2) l) r.
Proof. exact (mux_call_spec f l l' r). Qed.
Print Assumptions C39_calls.

(** Reorg also reaches every member; finishing it runs the function of each member that returned
    one, and only those. *)
Theorem C39_reorg {S E : Type} (f : S → S * (E + (S → S))) (l l' : list S) r fns :
  mux_reorg f l = (l', r, fns) →
  l' = map (λ p, (f p).1) l ∧
  first_error (map (λ p, match (f p).2 with inl e => Some e | inr _ => None end) l) r ∧
  reorg_finish fns l' = map (λ p, match (f p).2 with inl _ => (f p).1 | inr fn => fn (f p).1 end) l.
Proof. exact (mux_reorg_spec f l l' r fns). Qed.
Print Assumptions C39_reorg.

(** Three members counting their calls, the second one failing. *)
Example C39_case : let f (p : nat) := (p + 10, if bool_decide (p = 2) then Some "broken"%string else None) in
  mux_call f [1; 2; 3] = ([11; 12; 13], Some "broken"%string) ∧ mux_call f [1; 3] = ([11; 13], None).
Proof. by split; vm_compute. Qed.
Example C39_reorg_case : let f (p : nat) := (p + 10, if bool_decide (p = 2) then inl "broken"%string else inr (Nat.add 100)) in
  match mux_reorg f [1; 2; 3] with (l, r, fns) => l = [11; 12; 13] ∧ r = Some "broken"%string ∧ reorg_finish fns l = [111; 12; 113] end.
Proof. vm_compute. done. Qed.

(** ** C40.  The smallest reported number, if no member reports the largest 64-bit number; if no
    member reports a number, an error of a member. *)
Theorem C40_minimum_partial {E : Type} (rs : list (E + Z)) :
  (∀ v, inr v ∈ rs → (v < max_int64)%Z) →
  let '(n, err) := mux_latest rs in
  ((∃ v, inr v ∈ rs) → inr n ∈ rs ∧ err = None ∧ ∀ v, inr v ∈ rs → (n ≤ v)%Z) ∧
  ((∀ v, inr v ∉ rs) → n = 0%Z ∧ (rs ≠ [] → ∃ e, err = Some e ∧ inl e ∈ rs)).
Proof. exact (mux_latest_spec rs). Qed.
Print Assumptions C40_minimum_partial.

Example C40_case : mux_latest [inr 12; inl "down"%string; inr 7; inr 9]%Z = (7%Z, None) ∧ mux_latest [inl "a"; inl "b"]%string = (0%Z, Some "b"%string).
Proof. by split; vm_compute. Qed.

(** No producers: no number is reported, yet there is no error. *)
Theorem C40_no_producers_refuted : ∃ rs : list (string + Z), (∀ v, inr v ∉ rs) ∧ (mux_latest rs).2 = None.
Proof. exists []. split; [|by vm_compute]. intros v Hv. by apply elem_of_nil in Hv. Qed.
Print Assumptions C40_no_producers_refuted.
(** The largest number counts as no number: an error, or zero without an error. *)
Theorem C40_maximum_refuted :
  (∃ rs : list (string + Z), inr max_int64 ∈ rs ∧ (mux_latest rs).2 ≠ None) ∧
  (∃ rs : list (string + Z), (∀ x, x ∈ rs → x = inr max_int64) ∧ rs ≠ [] ∧ mux_latest rs = (0%Z, None)).
Proof.
  split.
  - exists [inr max_int64; inl "down"%string]. split; [left|by vm_compute].
  - exists [inr max_int64]. split; [|split; [done|by vm_compute]]. intros x Hx. by apply elem_of_list_singleton in Hx.
Qed.
Print Assumptions C40_maximum_refuted.

(** ** C41. *)
Theorem C41_start {S E : Type} (f : S → S * option E) (l l' : list S) b :
  mux_start f l = (l', b) →
  length l' = length l ∧ (∀ i p, l !! i = Some p → l' !! i = Some (f p).1) ∧ (b = true ↔ ∀ p, p ∈ l → (f p).2 ≠ None).
Proof. exact (mux_start_spec f l l' b). Qed.
Print Assumptions C41_start.
Theorem C41_count {S : Type} (f : S → N) (l : list S) :
  (foldr (λ p c, (f p + c)%N) 0%N l < 2 ^ 64)%N → mux_count f l = foldr (λ p c, (f p + c)%N) 0%N l.
Proof. exact (mux_count_spec f l). Qed.
Print Assumptions C41_count.
(** The reason reported is a member's, unless every member is silent. *)
Theorem C41_why {S : Type} (f : S → bytes) (l : list S) :
  (∃ pre p post, l = pre ++ p :: post ∧ (∀ q, q ∈ pre → f q = []) ∧ f p ≠ [] ∧ mux_why f l = f p) ∨
  ((∀ p, p ∈ l → f p = []) ∧ mux_why f l = str "no consumers to report"%string).
Proof. exact (mux_why_spec f l). Qed.
Print Assumptions C41_why.
Theorem C41_waiter {S W : Type} (f : S → option W) (l : list S) :
  (∃ pre p post w, l = pre ++ p :: post ∧ (∀ q, q ∈ pre → f q = None) ∧ f p = Some w ∧ mux_waiter f l = Some w) ∨
  ((∀ p, p ∈ l → f p = None) ∧ mux_waiter f l = None).
Proof. exact (mux_waiter_spec f l). Qed.
Print Assumptions C41_waiter.

Example C41_case : let f (p : nat) := (p + 10, if bool_decide (2 ≤ p) then Some "broken"%string else None) in
  mux_start f [2; 1; 3] = ([12; 11; 13], false) ∧ mux_start f [2; 3] = ([12; 13], true) ∧ mux_start f [] = ([], true) ∧
  mux_count N.of_nat [2; 1; 3] = 6%N ∧ mux_why (λ p, if bool_decide (p = 1) then [] else str "slow"%string) [1; 1; 3] = str "slow"%string ∧
  mux_waiter (λ p, if bool_decide (p = 1) then None else Some p) [1; 3; 4] = Some 3.
Proof. vm_compute. done. Qed.

(** ** C48.  The text before the first "://", after an optional "cardinal://", selects the
    transport; everything else is refused. *)
Theorem C48_producers url t : resolve_producer_resumer url = Some t ↔
  ∃ u, stripped url u ∧ (((has_scheme url (str "ws"%string) ∨ has_scheme url (str "wss"%string)) ∧ t = TWebsocket u) ∨
    (has_scheme url (str "kafka"%string) ∧ t = TKafka u)).
Proof. exact (resolve_producer_spec url t). Qed.
Print Assumptions C48_producers.
Theorem C48_plain_producers url t : resolve_producer url = Some t ↔
  ∃ u, stripped url u ∧ has_scheme url (str "kafka"%string) ∧ t = TKafka u.
Proof. exact (resolve_plain_spec url t). Qed.
Print Assumptions C48_plain_producers.
Theorem C48_consumers url t : resolve_consumer url = Some t ↔
  (has_scheme url (str "kafka"%string) ∧ t = TKafka url) ∨
  ((has_scheme url (str "ws"%string) ∨ has_scheme url (str "wss"%string)) ∧ ∃ u, stripped url u ∧ t = TWebsocket u) ∨
  (has_scheme url (str "null"%string) ∧ t = TNull).
Proof. exact (resolve_consumer_spec url t). Qed.
Print Assumptions C48_consumers.
(** Tokens for a time: available iff all URLs are Kafka URLs with a token or null URLs; the
    Kafka tokens are joined by semicolons. *)
Theorem C48_timestamps {P : Type} (url : P → bytes) (token : P → option bytes) (l : list P) :
  (∀ t, resumption_for url token l [] = Some t → ∃ ts, t = join_byte x3b ts ∧
     Forall (λ bp, (has_scheme (url bp) (str "kafka"%string) ∧ token bp ≠ None) ∨ has_scheme (url bp) (str "null"%string)) l ∧
     ∀ tok, tok ∈ ts ↔ ∃ bp, bp ∈ l ∧ has_scheme (url bp) (str "kafka"%string) ∧ token bp = Some tok) ∧
  (Forall (λ bp, (has_scheme (url bp) (str "kafka"%string) ∧ token bp ≠ None) ∨ has_scheme (url bp) (str "null"%string)) l →
     resumption_for url token l [] ≠ None).
Proof. exact (timestamps_spec url token l). Qed.
Print Assumptions C48_timestamps.

Definition ex_url : bytes := str "cardinal://kafka://host:9092,other:9092/topic"%string.
Example C48_case :
  resolve_producer_resumer ex_url = Some (TKafka (str "kafka://host:9092,other:9092/topic"%string)) ∧
  resolve_producer_resumer (str "wss://h"%string) = Some (TWebsocket (str "wss://h"%string)) ∧
  resolve_producer_resumer (str "null://"%string) = None ∧ resolve_producer (str "ws://h"%string) = None ∧
  resolve_consumer (str "null://"%string) = Some TNull ∧ resolve_consumer (str "http://kafka://h"%string) = None ∧
  has_scheme ex_url (str "kafka"%string) ∧ ¬ has_scheme ex_url (str "ws"%string).
Proof.
  split_and!; try by vm_compute.
  - exists (str "kafka://host:9092,other:9092/topic"%string). split; [by left|]. right. by exists (str "host:9092,other:9092/topic"%string).
  - intros H. apply protocol_scheme in H; [|apply (bool_decide_unpack _); by vm_compute]. by vm_compute in H.
Qed.
Example C48_timestamps_case : resumption_for fst snd
  [(str "kafka://a"%string, Some (str "t:0=4"%string)); (str "null://"%string, None); (str "cardinal://kafka://b"%string, Some (str "t:1=5"%string))] []
  = Some (str "t:0=4;t:1=5"%string).
Proof. by vm_compute. Qed.

(** A Kafka consumer does not remove "cardinal://": from the URL whose producer writes to the
    brokers host and other, the consumer connects to a broker named "cardinal:". *)
Theorem C48_consumer_prefix_refuted : ∃ url u v,
  resolve_producer_resumer url = Some (TKafka u) ∧ resolve_consumer url = Some (TKafka v) ∧
  kafka_brokers u = [str "host:9092"%string; str "other:9092"%string] ∧ kafka_brokers v = [str "cardinal:"%string].
Proof. exists ex_url, (str "kafka://host:9092,other:9092/topic"%string), ex_url. split_and!; by vm_compute. Qed.
Print Assumptions C48_consumer_prefix_refuted.
(** A websocket URL accepted for a consumer has no token for a time. *)
Theorem C48_timestamp_websocket_refuted : ∃ url, resolve_consumer url ≠ None ∧
  ∀ token, resumption_for (λ u : bytes, u) token [url] [] = None.
Proof. exists (str "ws://host"%string). split; [by vm_compute|]. intros token. by vm_compute. Qed.
Print Assumptions C48_timestamp_websocket_refuted.
