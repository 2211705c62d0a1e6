(** Several Kafka producers publishing the same chain to the same topics (transports/kafka.go:216-373).

    Each producer reads the feed all of them write to (kafka.go:261-303) and drops a block whose header it has read already
    (kafka.go:346-354).  Simplifications: a producer may read the keys on the feed in any order, late, repeatedly or never (the
    partitions, the time since it was started and the last 100 messages it begins with are not distinguished); messages of anybody
    else on the feed are allowed as long as they are not block headers; every message handed to the broker's client counts as on the
    feed, where it stays. *)
From Verif Require Import Base Lru Types Wire Producer Kafka.

(** A producer, with its 32 random bytes (kafka.go:229-231), what happened to it so far, and its state. *)
Record rproducer := RP { rp_self : bytes; rp_evs : list kp_event; rp_kp : kproducer }.
(** Somebody has sent the message (kafka.go:326-344). *)
Definition on_feed (ps : list rproducer) (m : pmsg) : Prop :=
  ∃ p t, p ∈ ps ∧ (t, m) ∈ kp_sent (rp_kp p).
(** What can be read: keys on the feed, and keys of anybody that are not those of headers (kafka.go:284-299). *)
Definition readable (ps : list rproducer) (ev : kp_event) : Prop :=
  match ev with
  | KFeed _ key => (∃ m, on_feed ps m ∧ pm_key m = key) ∨ head key ≠ Some BatchType
  | _ => True
  end.
(** One producer takes one step. *)
Inductive r_step : list rproducer → list rproducer → Prop :=
| RStep ps i p ev kp : ps !! i = Some p → readable ps ev → kp_step (rp_self p) (rp_kp p) ev = Ok kp →
    r_step ps (<[i := RP (rp_self p) (rp_evs p ++ [ev]) kp]> ps).
Definition r_run : list rproducer → list rproducer → Prop := rtc r_step.
