(** What it means to submit a block: which messages it is split into, which of them a consumer
    needs, and which data the consumer must end up with.  Independent of the producer and
    consumer models, except for the data types on the wire and the path lookup (GoPath.v). *)
From Verif Require Import Base Types Avro Wire SpecWire GoPath.
From Verif Require Import Producer.

(** A submitted block: the arguments of AddBlock and, for each sub-batch id, the parts it is
    sent in (a part: deleted keys, updated keys). *)
Record part := Part { pt_deletes : list bytes; pt_updates : gmap bytes bytes }.
Record block := Block { bk_args : block_args; bk_parts : hash → list part }.

Section spec.
  (** [mt k]: the prefix under which key [k] travels in a message of its own, if any. *)
  Variable mt : bytes → option bytes.
  Variable b : block.
  Let a := bk_args b.
  Let h := ba_hash a.

  (** Number of updates and deletes travelling under prefix [p]. *)
  Definition count_of (p : bytes) : nat :=
    size (filter (λ k, mt k = Some p) (dom (ba_updates a))) +
    size (filter (λ k, mt k = Some p) (ba_deletes a)).

  (** The entries of the block header. *)
  Inductive header_entry : bytes → batch_record → Prop :=
  | HValue k v : ba_updates a !! k = Some v → mt k = None → k ∉ ba_deletes a → header_entry k (BR v 0 zero_hash false)
  | HDelete k : k ∈ ba_deletes a → mt k = None → header_entry k (BR [] 0 zero_hash true)
  | HBatch k id : ba_batches a !! k = Some id → header_entry k (BR [] 0 id false)
  | HCount p : count_of p ≠ 0 → header_entry p (BR [] (Z.of_nat (count_of p)) zero_hash false).
  Definition is_header (x : batch) : Prop :=
    b_num x = ba_num a ∧ b_weight x = bigint_bytes (ba_weight a) ∧ b_parent x = ba_parent a ∧
    ∀ k r, b_updates x !! k = Some r ↔ header_entry k r.

  (** Sub-batch ids announced by the block. *)
  Definition announced (id : hash) : Prop := ∃ x, ba_batches a !! x = Some id.

  (** The messages of the block: kind (hence key) and value. *)
  Inductive sent : message_kind → bytes → Prop :=
  | SentHeader x es : is_header x → es ≡ₚ map_to_list (b_updates x) → sent (KBatch h) (encode_batch x es)
  | SentUpdate k v p : ba_updates a !! k = Some v → mt k = Some p → sent (KUpdate h k) v
  | SentDelete k v p : k ∈ ba_deletes a → mt k = Some p → sent (KDelete h k) v
  | SentSubHead id : announced id → sent (KSubHead h id) (avro_int (Z.of_nat (length (bk_parts b id))))
  | SentSubMsg id i pt es : announced id → bk_parts b id !! i = Some pt → es ≡ₚ map_to_list (pt_updates pt) →
      sent (KSubMsg h id (Z.of_nat i)) (encode_sub (pt_deletes pt) es).

  (** A delivered copy of a message of the block. *)
  Definition copy_of (m : msg) : Prop :=
    ∃ k, m_key m = key_of k ∧ sent k (m_val m) ∧ sized (length (m_val m)).

  (** [tr]: the prefixes the consumer tracks. *)
  Variable tr : bytes → bool.

  Definition tracked_id (id : hash) : Prop := ∃ x, ba_batches a !! x = Some id ∧ tr x = true.
  (** The messages a consumer has to wait for. *)
  Inductive needed : message_kind → Prop :=
  | NHeader : needed (KBatch h)
  | NUpdate k p : k ∈ dom (ba_updates a) → mt k = Some p → tr p = true → needed (KUpdate h k)
  | NDelete k p : k ∈ ba_deletes a → mt k = Some p → tr p = true → needed (KDelete h k)
  | NSubHead id : tracked_id id → needed (KSubHead h id)
  | NSubMsg id i : tracked_id id → i < length (bk_parts b id) → needed (KSubMsg h id (Z.of_nat i)).

  (** The data the consumer must end up with. *)
  Inductive has_value : bytes → bytes → Prop :=
  | VOwn k v : ba_updates a !! k = Some v → tr (default k (mt k)) = true → has_value k v
  | VPart id i pt k v : tracked_id id → bk_parts b id !! i = Some pt → pt_updates pt !! k = Some v → has_value k v.
  Inductive has_delete : bytes → Prop :=
  | DOwn k : k ∈ ba_deletes a → tr (default k (mt k)) = true → has_delete k
  | DPart id i pt k : tracked_id id → bk_parts b id !! i = Some pt → k ∈ pt_deletes pt → has_delete k.

  (** The emitted batch carries exactly the submitted data. *)
  Definition exact (pb : pending_batch) : Prop :=
    pb_num pb = ba_num a ∧ pb_weight pb = ba_weight a ∧ pb_parent pb = ba_parent a ∧ pb_hash pb = h ∧
    (∀ k v, pb_values pb !! k = Some v ↔ has_value k v) ∧
    (∀ k, k ∈ pb_deletes pb ↔ has_delete k).
End spec.

(** Well-formed blocks.  The first group are ranges of the Go and avro types; the second is what
    AddBlock checks; the third are the rules an application has to respect:
    - no empty values;
    - a key sent inline is not both updated and deleted;
    - a key travelling under a prefix is a relative path, its prefix is the path itself or one of its
      ancestor directories (written with a trailing slash), and no other prefix in use is;
    - sub-batch ids are used once; parts of sub-batches that set the same key, or a key sent inline,
      agree on its value, and they touch no key that travels under a prefix. *)
Record wf_block (mt : bytes → option bytes) (b : block) : Prop := WF {
  wf_hash : hash_ok (ba_hash (bk_args b));
  wf_parent : hash_ok (ba_parent (bk_args b));
  wf_num : in_int64 (ba_num (bk_args b));
  wf_count : ∀ p, in_int32 (Z.of_nat (count_of mt b p));
  wf_parts : ∀ id, announced b id → hash_ok id ∧ in_int32 (Z.of_nat (length (bk_parts b id)));

  wf_nonzero : ∀ id, announced b id → id ≠ zero_hash;
  wf_roles1 : ∀ x id, ba_batches (bk_args b) !! x = Some id →
     (x ∈ dom (ba_updates (bk_args b)) ∨ x ∈ ba_deletes (bk_args b) → mt x ≠ None) ∧ count_of mt b x = 0;
  wf_roles2 : ∀ x, (x ∈ dom (ba_updates (bk_args b)) ∨ x ∈ ba_deletes (bk_args b)) → mt x = None → count_of mt b x = 0;

  wf_values : ∀ k v, ba_updates (bk_args b) !! k = Some v → v ≠ [];
  wf_inline : ∀ k, mt k = None → k ∈ dom (ba_updates (bk_args b)) → k ∉ ba_deletes (bk_args b);
  wf_paths : ∀ k p, (k ∈ dom (ba_updates (bk_args b)) ∨ k ∈ ba_deletes (bk_args b)) → mt k = Some p →
     rooted k = false ∧ p ∈ lookup_keys k ∧ (∀ q, q ∈ lookup_keys k → count_of mt b q ≠ 0 → q = p);
  wf_ids : ∀ x y id, ba_batches (bk_args b) !! x = Some id → ba_batches (bk_args b) !! y = Some id → x = y;
  wf_part_keys : ∀ id i pt k, announced b id → bk_parts b id !! i = Some pt →
     (∀ v w, pt_updates pt !! k = Some v → ba_updates (bk_args b) !! k = Some w → mt k = None ∧ v = w) ∧
     (k ∈ pt_deletes pt → k ∈ ba_deletes (bk_args b) → mt k = None);
  wf_part_disj : ∀ id i pt id' i' pt' k v v', announced b id → announced b id' →
     bk_parts b id !! i = Some pt → bk_parts b id' !! i' = Some pt' →
     pt_updates pt !! k = Some v → pt_updates pt' !! k = Some v' → v = v'
}.
