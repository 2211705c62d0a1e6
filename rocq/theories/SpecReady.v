(** Specification for C59 and C60: partitions, and the topic of a reorganisation. *)
From Verif Require Import Base Types Wire Kafka SpecKafka Feed SpecFeed Ready.

(** A partition delivers its messages in the order of their offsets, from startOffset up to its end. *)
Record opened_ok (o : opened) : Prop := OpenedOk {
  oo_sorted : StronglySorted (λ a b, fm_off a < fm_off b)%Z (op_msgs o);
  oo_low : Forall (λ m, op_start o ≤ fm_off m)%Z (op_msgs o);
  oo_high : Forall (λ m, fm_off m < op_end o)%Z (op_msgs o);
  oo_end : (op_newest o ≤ op_end o)%Z
}.
(** What comes after the partition was opened *)
Definition arrives (l : flog) (new : list fmsg) (fin : Z) : Prop :=
  StronglySorted (λ a b, fm_off a < fm_off b)%Z new ∧ Forall (λ m, pt_newest (fl_part l) ≤ fm_off m < fin)%Z new ∧ (pt_newest (fl_part l) ≤ fin)%Z.
(** A partition as it was opened by the consumer. *)
Definition opened_from (o : opened) : Prop := ∃ entry rb start get l new fin,
  log_ok l ∧ arrives l new fin ∧ open_part entry rb start get l new fin = Some o.
(** Its last message is the one before its end. *)
Definition ends_held (o : opened) : Prop := ∃ m, last (op_msgs o) = Some m ∧ fm_off m = (op_end o - 1)%Z.
Definition key_type (m : fmsg) : option byte := head (fm_key m).
(** The message loop can handle it whatever came before. *)
Definition no_reorg_done (m : fmsg) : Prop := key_type m ≠ Some ReorgCompleteType.
Definition sent (s : rstate) : Prop := rs_signal s = SgSent.
(** What the loop has handled of partition [i] *)
Definition handled (s : rstate) (i : nat) : list fmsg := put_out i (rs_done s).

(** The topic of a reorganisation: a beginning, messages about blocks, an end. *)
Definition reorg_topic (ms : list fmsg) : Prop := ∃ b ds e, ms = b :: ds ++ [e] ∧
  key_type b = Some ReorgType ∧ key_type e = Some ReorgCompleteType ∧
  Forall (λ m, key_type m ≠ Some ReorgType ∧ key_type m ≠ Some ReorgCompleteType) ds.
(** It is read from the second message on, or earlier. *)
Definition opened_early (l : flog) : Prop :=
  fl_msgs l = [] ∨ ∃ m, fl_msgs l = [m] ∧ pt_newest (fl_part l) = (fm_off m + 1)%Z.
(** It was complete when the consumer came to it. *)
Definition opened_late (l : flog) : Prop :=
  ∃ e, last (fl_msgs l) = Some e ∧ key_type e = Some ReorgCompleteType ∧ pt_newest (fl_part l) = (fm_off e + 1)%Z.
