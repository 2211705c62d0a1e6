(** What a producer has to do with a block, a sub-batch and a history of calls. *)
From Verif Require Import Base Types Avro Wire SpecWire GoPath Producer SpecBlock.

(** The prefix under which a key travels, and the topic, for a given schema. *)
Definition prefix_of_key (p : producer) (k : bytes) : option bytes := fst <$> route (p_schema p) k.
Definition topic_of_key (p : producer) (k : bytes) : topic := from_option snd (p_default p) (route (p_schema p) k).

(** Messages of a topic, in order. *)
Definition on_topic (tm : topics) (t : topic) : list pmsg := default [] (tm !! t).

(** The messages a block sends on a topic, apart from its header. *)
Inductive own_message (p : producer) (a : block_args) (t : topic) : pmsg → Prop :=
| OwnUpdate k v x : ba_updates a !! k = Some v → route (p_schema p) k = Some (x, t) →
    own_message p a t (PMsg (key_of (KUpdate (ba_hash a) k)) v)
| OwnDelete k x : k ∈ ba_deletes a → route (p_schema p) k = Some (x, t) →
    own_message p a t (PMsg (key_of (KDelete (ba_hash a) k)) []).

(** A header entry with two roles, or a sub-batch without a proper id. *)
Definition inline (mt : bytes → option bytes) (a : block_args) (k : bytes) : Prop :=
  mt k = None ∧ (k ∈ dom (ba_updates a) ∨ k ∈ ba_deletes a).
Definition zero_sub (a : block_args) : Prop := ∃ k, ba_batches a !! k = Some zero_hash.
Definition two_roles (mt : bytes → option bytes) (a : block_args) : Prop :=
  ∃ k, (k ∈ dom (ba_batches a) ∧ inline mt a k) ∨
       (k ∈ dom (ba_batches a) ∧ ∃ x, mt x = Some k ∧ (x ∈ dom (ba_updates a) ∨ x ∈ ba_deletes a)) ∨
       (inline mt a k ∧ ∃ x, mt x = Some k ∧ (x ∈ dom (ba_updates a) ∨ x ∈ ba_deletes a)).

(** Lexicographic order of strings. *)
Definition before (a b : bytes) : Prop :=
  a `prefix_of` b ∨ ∃ p x y a' b', a = p ++ x :: a' ∧ b = p ++ y :: b' ∧ (byte_N x < byte_N y)%N.
(** The parts a sub-batch is sent in: the deletes, if any, then one part per key, in sorted order. *)
Definition is_parts (deletes : list bytes) (update : gmap bytes bytes) (ps : list part) : Prop :=
  ∃ ks, Sorted before ks ∧ NoDup ks ∧ (∀ k, k ∈ ks ↔ k ∈ dom update) ∧
    ps = (match deletes with [] => [] | _ => [Part deletes ∅] end) ++
         map (λ k, Part [] {[k := default [] (update !! k)]}) ks.

(** Calls of a producer. *)
Inductive call :=
| CAdd (o : aorder) (a : block_args)
| CSend (ord : list bytes → list bytes) (id : hash) (deletes : list bytes) (update : gmap bytes bytes).
Definition call_ok (x : call) : Prop :=
  match x with CAdd o _ => aorder_ok o | CSend ord _ _ _ => ∀ l, ord l ≡ₚ l end.
Definition step (p : producer) (x : call) : producer :=
  match x with
  | CAdd o a => fst (add_block p o a)
  | CSend ord id deletes update => fst (send_batch p ord id deletes update)
  end.
Definition calls (p : producer) (l : list call) : producer := foldl step p l.
(** The block announces the sub-batch. *)
Definition announces (a : block_args) (id : hash) : Prop := ∃ k, ba_batches a !! k = Some id.
Definition refused (mt : bytes → option bytes) (a : block_args) : Prop := zero_sub a ∨ two_roles mt a.
(** Last announced by the accepted block [a] and not sent since. *)
Definition awaiting (mt : bytes → option bytes) (l : list call) (id : hash) (a : block_args) : Prop :=
  ∃ pre o post, l = pre ++ CAdd o a :: post ∧ announces a id ∧ ¬ refused mt a ∧
    (∀ ord d u, CSend ord id d u ∉ post) ∧ (∀ o' a', CAdd o' a' ∈ post → ¬ announces a' id).
(** No refused block named the id (see C16). *)
Definition no_refused_mention (mt : bytes → option bytes) (l : list call) (id : hash) : Prop :=
  ∀ o a, CAdd o a ∈ l → refused mt a → ¬ announces a id.

(** The numbers in the header of the block fit their types on the wire. *)
Definition args_ok (mt : bytes → option bytes) (a : block_args) : Prop :=
  in_int64 (ba_num a) ∧ hash_ok (ba_parent a) ∧ (∀ id, announces a id → hash_ok id) ∧
  ∀ x, in_int32 (Z.of_nat (count_of mt (Block a (λ _, [])) x)).

(** A plain text: the expression with a caret in front finds the text itself, at the start of keys
    beginning with it. *)
Definition plain_text (compile : bytes → option finder) (i : bytes) : Prop :=
  has_prefix i [caret] = false ∧ i ≠ [] ∧ is_Some (compile i) ∧
  ∃ f, compile (caret :: i) = Some f ∧ ∀ k, f k = if has_prefix k i then i else [].
(** A directory: a text ending with a slash. *)
Definition directory (i : bytes) : Prop := ∃ q, i = q ++ [slash].
(** A clean relative path. *)
Definition relative_path (k : bytes) : Prop :=
  ∃ cs, cs ≠ [] ∧ Forall (λ c, c ≠ [] ∧ slash ∉ c ∧ c ≠ [dot] ∧ c ≠ [dot; dot]) cs ∧ k = join_slash cs.

(** Two producers called alike, each with its own iteration orders. *)
Inductive same_call : call → call → Prop :=
| SameAdd o1 o2 a : same_call (CAdd o1 a) (CAdd o2 a)
| SameSend r1 r2 id d u : same_call (CSend r1 id d u) (CSend r2 id d u).
