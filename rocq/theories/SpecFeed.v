(** What the Kafka transport has to do when it starts. *)
From Verif Require Import Base Lru Types Avro Wire SpecWire GoText Producer Consumer Kafka SpecKafka Feed.

(** A partition as Kafka keeps it: offsets grow and lie between the oldest and the newest. *)
Definition log_ok (l : flog) : Prop :=
  partition_ok (fl_part l) ∧ StronglySorted (λ a b, fm_off a < fm_off b)%Z (fl_msgs l) ∧
  Forall (λ m, held (fl_part l) (fm_off m)) (fl_msgs l).
(** The messages among the last 100 offsets. *)
Definition recent (l : flog) (m : fmsg) : Prop := m ∈ fl_msgs l ∧ (pt_newest (fl_part l) - 100 ≤ fm_off m)%Z.
(** The header of a block with number [n]. *)
Definition header_number (m : fmsg) (n : Z) : Prop :=
  head (fm_key m) = Some BatchType ∧ ∃ b, decode_batch (fm_val m) = Some b ∧ b_num b = n.
(** The scan of a partition was not cut short: at least as many messages were received as the last
    100 offsets hold. *)
Definition all_read (s : scan) : Prop :=
  length (filter (λ m, pt_newest (fl_part (sc_log s)) - 100 ≤ fm_off m)%Z (fl_msgs (sc_log s))) ≤ sc_read s.

(** The last message of the partition, and of what arrives later, has the offset before the newest. *)
Definition end_held (f : feeding) : Prop :=
  (pt_newest (fl_part (fd_log f)) ≤ fd_end f)%Z ∧
  ∃ m, last (fl_msgs (fd_log f) ++ fd_new f) = Some m ∧ fm_off m = (fd_end f - 1)%Z.
(** Later messages have later offsets, up to the end. *)
Definition feeding_ok (f : feeding) : Prop :=
  log_ok (fd_log f) ∧ StronglySorted (λ a b, fm_off a < fm_off b)%Z (fd_new f) ∧
  Forall (λ m, pt_newest (fl_part (fd_log f)) ≤ fm_off m < fd_end f)%Z (fd_new f) ∧ (pt_newest (fl_part (fd_log f)) ≤ fd_end f)%Z.
(** Keys that do not make a reader panic. *)
Definition key_long (m : fmsg) : Prop := head (fm_key m) = Some BatchType → 33 ≤ length (fm_key m).

(** What partition [i] has put out, in order. *)
Definition put_out (i : nat) (out : list (nat * fmsg)) : list fmsg := (filter (λ x, x.1 = i) out).*2.

(** Topic names that can be told apart in a token: Kafka allows letters, digits, '.', '_' and '-'. *)
Definition legal_topic (t : bytes) : Prop := semicolon ∉ t ∧ equals_sign ∉ t ∧ x3a ∉ t.
(** What a broker answers when asked for a timestamp: the first offset with a message of that time or
    later, -1 if there is none; [time] gives the times of the messages. *)
Definition offset_for (p : partition) (time : Z → Z) (ts o : Z) : Prop :=
  (held p o ∧ (ts ≤ time o)%Z ∧ ∀ q, held p q → (q < o)%Z → (time q < ts)%Z) ∨
  (o = (-1)%Z ∧ ∀ q, held p q → (time q < ts)%Z).
(** The same partition later on: old messages may be gone, new ones may have come. *)
Definition later (p p' : partition) : Prop := (pt_oldest p ≤ pt_oldest p')%Z ∧ (pt_newest p ≤ pt_newest p')%Z.
