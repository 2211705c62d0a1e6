(** Model of delivery/producer.go. *)
From Verif Require Import Base Avro Wire.

(** delivery/types.go:123-126, producer.go:48-54 [message] *)
Record pmsg := PMsg { pm_key : bytes; pm_val : bytes }.

(** A compiled regular expression, as far as the producer uses it: the text found by
    FindString, the empty text for no match.  Compilation is a parameter of [new_producer]. *)
Definition finder := bytes → bytes.
Definition topic := bytes.

(** producer.go:11-20 *)
Record producer := Prod {
  p_schema : list (finder * topic);
  p_default : topic;
  p_pending : gmap hash (topic * hash)         (* batch id -> topic, block *)
}.

(** strings.HasPrefix(s, p) *)
Definition has_prefix (s p : bytes) : bool := bool_decide (p `prefix_of` s).
Definition caret : byte := x5e.

Inductive new_error := NOverlap | NCompile.
(** producer.go:22-41 [NewProducer]; [es] lists the schema map in iteration order. *)
Fixpoint new_schema (compile : bytes → option finder) (schema : gmap bytes topic) (es : list (bytes * topic))
  : new_error + list (finder * topic) :=
  match es with
  | [] => inr []
  | (i, t) :: r =>
    if bool_decide (Exists (λ j, i ≠ j ∧ has_prefix i j = true) (map_to_list schema).*1) then inl NOverlap  (* 26-30 *)
    else match compile i with
      | None => inl NCompile
      | Some f =>
        match (if has_prefix i [caret] then Some f else compile (caret :: i)) with    (* 33-36 *)
        | None => inl NCompile
        | Some f => match new_schema compile schema r with inl e => inl e | inr s => inr ((f, t) :: s) end
        end
      end
  end.
Definition new_producer (compile : bytes → option finder) (default : topic) (schema : gmap bytes topic)
    (es : list (bytes * topic)) : new_error + producer :=
  match new_schema compile schema es with inl e => inl e | inr s => inr (Prod s default ∅) end.

(** producer.go:70-81,89-99,115-120: the first schema entry matching a key *)
Fixpoint route (schema : list (finder * topic)) (k : bytes) : option (bytes * topic) :=
  match schema with
  | [] => None
  | (f, t) :: r => match f k with [] => route r k | _ => Some (f k, t) end
  end.

Definition topics := gmap topic (list pmsg).
Definition add_msg (tm : topics) (t : topic) (m : pmsg) : topics := <[t := default [] (tm !! t) ++ [m]]> tm.
(** counts[prefix]++ *)
Definition count_up (c : gmap bytes Z) (p : bytes) : gmap bytes Z := <[p := (default 0 (c !! p) + 1)%Z]> c.

(** Local variables topicMessages, counts, b.Updates *)
Record add_state := AS { as_tm : topics; as_counts : gmap bytes Z; as_ups : gmap bytes batch_record }.

(** producer.go:68-85 *)
Definition add_update (sch : list (finder * topic)) (h : hash) (s : add_state) (x : bytes * bytes) : add_state :=
  match route sch x.1 with
  | Some (p, t) => AS (add_msg (as_tm s) t (PMsg (get_key BatchMsgType [hash_bytes h; x.1]) x.2))
                      (count_up (as_counts s) p) (as_ups s)
  | None => AS (as_tm s) (as_counts s) (<[x.1 := BR x.2 0 zero_hash false]> (as_ups s))
  end.
(** producer.go:87-103 *)
Definition add_delete (sch : list (finder * topic)) (h : hash) (s : add_state) (k : bytes) : add_state :=
  match route sch k with
  | Some (p, t) => AS (add_msg (as_tm s) t (PMsg (get_key BatchDeleteMsgType [hash_bytes h; k]) []))
                      (count_up (as_counts s) p) (as_ups s)
  | None => AS (as_tm s) (as_counts s) (<[k := BR [] 0 zero_hash true]> (as_ups s))
  end.

Inductive add_error := AInvalidBatch | APrefixConflict.
(** producer.go:105-122; the entries registered in p.pendingBatches before an error stay there. *)
Fixpoint add_batches (p : producer) (h : hash) (bs : list (bytes * hash)) (ups : gmap bytes batch_record)
  : producer * (add_error + gmap bytes batch_record) :=
  match bs with
  | [] => (p, inr ups)
  | (k, id) :: r =>
    if bool_decide (id = zero_hash) then (p, inl AInvalidBatch)
    else match ups !! k with
      | Some _ => (p, inl APrefixConflict)
      | None =>
        let t := match route (p_schema p) k with Some (_, t) => t | None => p_default p end in
        add_batches (Prod (p_schema p) (p_default p) (<[id := (t, h)]> (p_pending p))) h r
          (<[k := BR [] 0 id false]> ups)
      end
  end.
(** producer.go:123-126 *)
Fixpoint add_counts (cs : list (bytes * Z)) (ups : gmap bytes batch_record) : add_error + gmap bytes batch_record :=
  match cs with
  | [] => inr ups
  | (k, c) :: r =>
    match ups !! k with
    | Some _ => inl APrefixConflict
    | None => add_counts r (<[k := BR [] c zero_hash false]> ups)
    end
  end.

(** The iteration orders of the five loops over maps in AddBlock (the last one inside the
    avro encoder). *)
Record aorder := AO {
  ao_upd : list (bytes * bytes) → list (bytes * bytes);
  ao_del : list bytes → list bytes;
  ao_bat : list (bytes * hash) → list (bytes * hash);
  ao_cnt : list (bytes * Z) → list (bytes * Z);
  ao_hdr : list (bytes * batch_record) → list (bytes * batch_record)
}.
Definition aorder_ok (o : aorder) : Prop :=
  (∀ l, ao_upd o l ≡ₚ l) ∧ (∀ l, ao_del o l ≡ₚ l) ∧ (∀ l, ao_bat o l ≡ₚ l) ∧
  (∀ l, ao_cnt o l ≡ₚ l) ∧ (∀ l, ao_hdr o l ≡ₚ l).
Definition id_aorder : aorder := AO id id id id id.

(** Arguments of AddBlock.  The weight is a non-nil, non-negative *big.Int. *)
Record block_args := BA {
  ba_num : Z; ba_hash : hash; ba_parent : hash; ba_weight : N;
  ba_updates : gmap bytes bytes; ba_deletes : gset bytes; ba_batches : gmap bytes hash
}.

(** producer.go:56-132 [AddBlock] *)
Definition add_block (p : producer) (o : aorder) (a : block_args) : producer * (add_error + topics) :=
  let s := AS {[p_default p := []]} ∅ ∅ in
  let s := foldl (add_update (p_schema p) (ba_hash a)) s (ao_upd o (map_to_list (ba_updates a))) in
  let s := foldl (add_delete (p_schema p) (ba_hash a)) s (ao_del o (elements (ba_deletes a))) in
  let '(p, r) := add_batches p (ba_hash a) (ao_bat o (map_to_list (ba_batches a))) (as_ups s) in
  (p, match r with
      | inl e => inl e
      | inr ups =>
        match add_counts (ao_cnt o (map_to_list (as_counts s))) ups with
        | inl e => inl e
        | inr ups =>
          let b := Batch (ba_num a) (bigint_bytes (ba_weight a)) (ba_parent a) ups in
          inr (add_msg (as_tm s) (p_default p)
                 (PMsg (get_key BatchType [hash_bytes (ba_hash a)]) (encode_batch b (ao_hdr o (map_to_list ups)))))
        end
      end).

(** Lexicographic order on strings, as used by sort.Strings. *)
Fixpoint bytes_leb (a b : bytes) : bool :=
  match a, b with
  | [], _ => true
  | _ :: _, [] => false
  | x :: a', y :: b' =>
    let m := byte_N x in let n := byte_N y in
    if (m <? n)%N then true else if (n <? m)%N then false else bytes_leb a' b'
  end.
Definition bytes_le (a b : bytes) : Prop := bytes_leb a b = true.
#[global] Instance bytes_le_dec a b : Decision (bytes_le a b).
Proof. unfold bytes_le. apply _. Defined.

(** producer.go:142-164: the entries of a sub-batch, numbered from [i] *)
Fixpoint send_entries (h id : hash) (i : Z) (vals : list bytes) : list pmsg :=
  match vals with
  | [] => []
  | v :: r => PMsg (get_key SubBatchMsgType [hash_bytes h; hash_bytes id; avro_int i]) v :: send_entries h id (i + 1)%Z r
  end.
(** producer.go:134-167 [SendBatch]; [None] is ErrUnknownBatch; [ord] is the order of the loop
    over [update]. *)
Definition send_batch (p : producer) (ord : list bytes → list bytes) (id : hash) (deletes : list bytes)
    (update : gmap bytes bytes) : producer * option topics :=
  match p_pending p !! id with
  | None => (p, None)
  | Some (t, h) =>
    let ks := merge_sort bytes_le (ord (map_to_list update).*1) in                 (* 150-154 *)
    let vals := (match deletes with [] => [] | _ => [encode_sub deletes []] end) ++
                map (λ k, encode_sub [] [(k, default [] (update !! k))]) ks in
    let es := send_entries h id 0 vals in
    (Prod (p_schema p) (p_default p) (delete id (p_pending p)),
     Some {[t := PMsg (get_key SubBatchHeaderType [hash_bytes h; hash_bytes id]) (avro_int (Z.of_nat (length es))) :: es]})
  end.

(** producer.go:173-180 *)
Definition reorg_msg (num : Z) (h : hash) : pmsg := PMsg (get_key ReorgType [hash_bytes h]) (avro_int num).
Definition reorg_done_msg (num : Z) (h : hash) : pmsg := PMsg (get_key ReorgCompleteType [hash_bytes h]) (avro_int num).
