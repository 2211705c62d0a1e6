(** A Kafka consumer from its token to its chain updates: transports/kafka.go:476-484 (token), 547-579 (where the
    partitions start), 581-615 (their goroutines), 647-695 (the message loop), and the ordered
    message processor behind it.  Composition of Kafka.v, Feed.v and System.v.

    Simplification.  The goroutines meet in a channel: what has been processed is an initial part
    of what the partitions have put out, whatever the interleaving.
    Messages about reorganisations (kafka.go:667-686, 689-690) are not dealt with here. *)
From Verif Require Import Base Lru Types Avro Wire GoPath Producer Consumer SpecCollect Kafka SpecKafka Feed Ordering System.

(** A partition with its name (553, and KafkaResumptionMessage), whether its newest offset can be
    found, and the messages that arrive while the consumer runs. *)
Record fpart := FPt { fp_name : bytes; fp_log : flog; fp_get : bool; fp_new : list fmsg }.
Definition fp_all (f : fpart) : list fmsg := fl_msgs (fp_log f) ++ fp_new f.
Definition fp_msg (f : fpart) (m : fmsg) : msg := Msg (fm_key m) (fm_val m) (fp_name f) (fm_off m).

(** kafka.go:547-579: what each partition will deliver, with startOffset; [None] is an error of Start. *)
Definition open_part (tok : gmap bytes Z) (rb : Z) (h : hash) (f : fpart) : option (list fmsg * Z) :=
  match warm_start (tok !! fp_name f) rb h (fp_get f) (fl_part (fp_log f)) with
  | Some (s, so) => Some (from_offset (fp_log f) s ++ fp_new f, so)
  | None => None
  end.
Fixpoint open_all (tok : gmap bytes Z) (rb : Z) (h : hash) (fs : list fpart) : option (list (list fmsg * Z)) :=
  match fs with
  | [] => Some []
  | f :: r =>
    match open_part tok rb h f, open_all tok rb h r with
    | Some p, Some ps => Some (p :: ps)
    | _, _ => None
    end
  end.
(** kafka.go:653-695: the messages passed on to the message processor (C50). *)
Definition loop_messages (fs : list fpart) (out : list (nat * fmsg)) : list msg :=
  omap (λ x : nat * fmsg, match fs !! x.1 with
        | Some f => if decide (data_message (fp_msg f x.2)) then Some (fp_msg f x.2) else None
        | None => None end) out.

(** A consumer that is given the token [t]: [s] is the state of its partitions, [y] that of its processors. *)
Definition kafka_life (c : mp_config) (cfg : config) (t : bytes) (rb : Z) (fs : list fpart) (s : warming) (y : sys) : Prop :=
  ∃ tok ps, parse_token t = Some tok ∧ open_all tok rb (cfg_last_hash cfg) fs = Some ps ∧
    rtc warm_step (warm_init ps) s ∧ sys_run c cfg y ∧ messages (y_ins y) `prefix_of` loop_messages fs (wm_out s).
