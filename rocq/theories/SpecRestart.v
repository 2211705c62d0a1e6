(** Specification for C58: what a feed must hold for a consumer to be restarted. *)
From Verif Require Import Base Types Avro Wire SpecWire GoPath Producer SpecBlock Consumer SpecCollect SpecToken SpecSystem
  Kafka SpecKafka Feed SpecFeed Restart.

(** A feed: partitions with different names that can be told apart in a token. *)
Record feed_ok (fs : list fpart) : Prop := FeedOk {
  fo_log : ∀ f, f ∈ fs → log_ok (fp_log f);
  fo_new : ∀ f m, f ∈ fs → m ∈ fp_new f → (pt_newest (fl_part (fp_log f)) ≤ fm_off m)%Z;
  fo_names : NoDup (map fp_name fs);
  fo_legal : ∀ f, f ∈ fs → legal_source (fp_name f)
}.
(** Nothing but messages of the chain [bs], heartbeats and the like. *)
Definition feed_from (mt : bytes → option bytes) (bs : list block) (fs : list fpart) : Prop :=
  ∀ f m, f ∈ fs → m ∈ fp_all f → data_message (fp_msg f m) → only_from mt bs [fp_msg f m].
(** The messages [ms] were read from the same partitions, earlier. *)
Definition read_before (ms : list msg) (fs : list fpart) : Prop :=
  ∀ m, m ∈ ms → ∃ f, f ∈ fs ∧ fp_name f = m_src m ∧ (0 ≤ m_off m < pt_newest (fl_part (fp_log f)))%Z ∧ in_int64 (m_off m).

(** The messages that determine the token of block [h]: its own, and those read before its header. *)
Definition marks (ms : list msg) (h : hash) (m : msg) : Prop :=
  (m ∈ ms ∧ about h m) ∨ ∃ ms1 m0 ms2, ms = ms1 ++ m0 :: ms2 ∧ header_of h m0 ∧ m ∈ ms1.
(** Message [x] of partition [f] does not lie more than [rb] offsets behind them, and what
    lies in between is still held. *)
Definition in_reach (rb : Z) (ms : list msg) (h : hash) (f : fpart) (x : fmsg) : Prop :=
  ∀ m, marks ms h m → m_src m = fp_name f →
    (m_off m ≤ fm_off x)%Z ∨
    (m_off m ≤ fm_off x + rb)%Z ∧ ((pt_oldest (fl_part (fp_log f)) ≤ m_off m - rb)%Z ∨ (m_off m < rb)%Z).
(** A message of that kind is in reach. *)
Definition reachable (rb : Z) (ms : list msg) (h : hash) (fs : list fpart) (kd : message_kind) : Prop :=
  ∃ f x, f ∈ fs ∧ x ∈ fp_all f ∧ fm_key x = key_of kd ∧ in_reach rb ms h f x.
(** What determines the token is still held. *)
Definition marks_held (ms : list msg) (h : hash) (fs : list fpart) : Prop :=
  ∀ f m, f ∈ fs → marks ms h m → m_src m = fp_name f → (pt_oldest (fl_part (fp_log f)) ≤ m_off m)%Z.
