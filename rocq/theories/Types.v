(** Data types of delivery/types.go and delivery/consumer.go shared by several models. *)
From Verif Require Import Base.

(** delivery/types.go:123-133 [ResumptionMessage]: key, value, offset, source.
    [Time()] only feeds metrics (consumer.go:82-86,336) and is omitted. *)
Record msg := Msg { m_key : bytes; m_val : bytes; m_src : bytes; m_off : Z }.

(** delivery/consumer.go:26-42 [PendingBatch].  [Weight] is a [*big.Int] obtained with
    SetBytes, hence a natural number.  [waitCh] is a channel identity ([None] = nil).
    [time] (metrics only) is omitted. *)
Record pending_batch := PB {
  pb_num : Z;
  pb_weight : N;
  pb_parent : hash;
  pb_hash : hash;
  pb_values : gmap bytes bytes;
  pb_deletes : gset bytes;
  pb_res : gmap bytes Z;             (* resumption *)
  pb_resdef : gmap bytes Z;          (* resumptionDefaults *)
  pb_prefixes : gmap bytes Z;        (* prefixes *)
  pb_batches : gmap hash (list bool);(* batches *)
  pb_pbatches : gset hash;           (* pendingBatches *)
  pb_pmsgs : gmap bytes msg;         (* pendingMessages *)
  pb_wait : option N;                (* waitCh *)
  pb_frp : bool                      (* failedReconstructPanic *)
}.

(** A batch with the given header and no payload: used by transports/websockets.go:61-68,410-417
    and in examples ([Values], [Deletes] empty, everything else Go's zero value). *)
Definition bare_batch (num : Z) (weight : N) (parent hash : hash) : pending_batch :=
  PB num weight parent hash ∅ ∅ ∅ ∅ ∅ ∅ ∅ ∅ None false.
