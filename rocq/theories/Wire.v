(** Model of delivery/types.go: records on the wire and message keys. *)
From Verif Require Import Base Avro Types.

(** types.go:37-42 [BatchRecord] *)
Record batch_record := BR { br_value : bytes; br_count : Z; br_sub : hash; br_delete : bool }.
(** types.go:22-28 [Batch] ([Hash] is not part of the schema and set by the consumer) *)
Record batch := Batch { b_num : Z; b_weight : bytes; b_parent : hash; b_updates : gmap bytes batch_record }.
(** types.go:45-48 [SubBatchRecord] *)
Record sub_record := SR { sr_delete : list bytes; sr_updates : gmap bytes bytes }.

(** types.go:70-79: record "update", fields value, count, delete, subbatch.  The Go field
    Count is an int written through an avro int: reduced to 32 bits. *)
Definition enc_record (r : batch_record) : bytes :=
  write_bytes (br_value r) ++ write_int (int32 (br_count r)) ++ write_bool (br_delete r) ++ hash_bytes (br_sub r).
Definition dec_record (l : bytes) : option (batch_record * bytes) :=
  '(v, l) ← read_bytes l; '(c, l) ← read_int l; '(d, l) ← read_bool l; '(s, l) ← read_fixed 32 l;
  Some (BR v c (bytes_hash s) d, l).

(** types.go:30-35,59-82 [Batch.EncodeAvro]; [es] is the order in which the map encoder
    visits the entries of [Updates]. *)
Definition encode_batch (b : batch) (es : list (bytes * batch_record)) : bytes :=
  write_long (b_num b) ++ write_bytes (b_weight b) ++ hash_bytes (b_parent b) ++
  write_blocks (write_entry enc_record) es.
(** types.go:135-139 [UnmarshalBatch], consumer.go:306-307; trailing bytes are ignored. *)
Definition decode_batch (l : bytes) : option batch :=
  '(n, l) ← read_long l; '(w, l) ← read_bytes l; '(p, l) ← read_fixed 32 l;
  '(es, _) ← read_blocks (read_entry dec_record) l;
  Some (Batch n w (bytes_hash p) (map_of_entries es)).

(** types.go:50-55,83-90 [SubBatchRecord.EncodeAvro]; [es]: order of the updates map. *)
Definition encode_sub (deletes : list bytes) (es : list (bytes * bytes)) : bytes :=
  write_blocks write_bytes deletes ++ write_blocks (write_entry write_bytes) es.
(** consumer.go:118-119 *)
Definition decode_sub (l : bytes) : option sub_record :=
  '(ds, l) ← read_blocks read_bytes l;
  '(es, _) ← read_blocks (read_entry read_bytes) l;
  Some (SR ds (map_of_entries es)).

(** types.go:116-121 [AvroInt] and its inverse avro.Unmarshal(intSchema, _, &int) *)
Definition avro_int (x : Z) : bytes := write_int (int32 x).
Definition decode_int (l : bytes) : option Z := fst <$> read_int l.

(** types.go:95-106 [MessageType] *)
Definition BatchType : byte := x00.
Definition SubBatchHeaderType : byte := x01.
Definition SubBatchMsgType : byte := x02.
Definition BatchMsgType : byte := x03.
Definition BatchDeleteMsgType : byte := x04.
Definition ReorgType : byte := x05.
Definition ReorgCompleteType : byte := x06.
Definition PingType : byte := xff.

(** types.go:108-114 [GetKey] *)
Definition get_key (t : byte) (components : list bytes) : bytes := t :: concat components.
