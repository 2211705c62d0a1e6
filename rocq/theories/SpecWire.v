(** What message keys say: the seven kinds of messages of delivery/types.go:97-106. *)
From Verif Require Import Base Avro Wire.

Inductive message_kind :=
| KBatch (h : hash)                          (* header of block h *)
| KSubHead (h id : hash)                     (* header of sub-batch id of block h *)
| KSubMsg (h id : hash) (index : Z)          (* entry of sub-batch id *)
| KUpdate (h : hash) (path : bytes)
| KDelete (h : hash) (path : bytes)
| KReorg (h : hash)
| KReorgDone (h : hash).

(** The keys as the producer builds them (producer.go:75,94,128,145,159,165,174,179). *)
Definition key_of (k : message_kind) : bytes :=
  match k with
  | KBatch h => get_key BatchType [hash_bytes h]
  | KSubHead h id => get_key SubBatchHeaderType [hash_bytes h; hash_bytes id]
  | KSubMsg h id i => get_key SubBatchMsgType [hash_bytes h; hash_bytes id; avro_int i]
  | KUpdate h p => get_key BatchMsgType [hash_bytes h; p]
  | KDelete h p => get_key BatchDeleteMsgType [hash_bytes h; p]
  | KReorg h => get_key ReorgType [hash_bytes h]
  | KReorgDone h => get_key ReorgCompleteType [hash_bytes h]
  end.

Definition kind_hash (k : message_kind) : hash :=
  match k with
  | KBatch h | KSubHead h _ | KSubMsg h _ _ | KUpdate h _ | KDelete h _ | KReorg h | KReorgDone h => h
  end.

(** Hashes are 32-byte values and indices fit in an int32. *)
Definition kind_ok (k : message_kind) : Prop :=
  hash_ok (kind_hash k) ∧
  match k with
  | KSubHead _ id => hash_ok id
  | KSubMsg _ id i => hash_ok id ∧ in_int32 i
  | _ => True
  end.

(** A header whose numbers fit their Go and avro types. *)
Definition record_ok (r : batch_record) : Prop := in_int32 (br_count r) ∧ hash_ok (br_sub r).
Definition batch_ok (b : batch) : Prop :=
  in_int64 (b_num b) ∧ hash_ok (b_parent b) ∧ map_Forall (λ _ r, record_ok r) (b_updates b).
