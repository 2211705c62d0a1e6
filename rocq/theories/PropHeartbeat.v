(** C78: the number of producers and their health. *)
From Verif Require Import Base Lru Types Kafka Heartbeat SpecCounting SpecHeartbeat HeartbeatFacts.

(** C78.  If heartbeats take at most [D], and [d] is longer than 30 seconds and [D], at least the producers that have been healthy
    for more than 30 seconds and [D] are counted; whatever [d] is, at most those that are healthy or were less than [D + d] ago. *)
Theorem C78_count : ∀ D now l s d, (0 <= D)%Z → f_run D (fl_new now) l = Some s →
  ((period + D < d)%Z → at_most (long_healthy now l (period + D)) (tracker_count (f_pt s) (f_now s) d)) ∧
  at_least (lately_healthy now l (D + d)) (tracker_count (f_pt s) (f_now s) d).
Proof. exact beats_counted. Qed.
Print Assumptions C78_count.

(** C78.  The same for one producer: when it was heard last. *)
Theorem C78_heard : ∀ D now l s h, (0 <= D)%Z → f_run D (fl_new now) l = Some s → long_healthy now l (period + D) h →
  ∃ v, f_pt s !! h = Some v ∧ (f_now s - v <= period + D)%Z.
Proof. exact healthy_heard. Qed.
Print Assumptions C78_heard.
Theorem C78_silent : ∀ D now l s h v d, (0 <= D)%Z → f_run D (fl_new now) l = Some s → f_pt s !! h = Some v → (f_now s - v < d)%Z →
  lately_healthy now l (D + d) h.
Proof. exact heard_lately. Qed.
Print Assumptions C78_silent.

(** C78.  The bounds on ticks and delays never contradict one another: every execution can go on to a later time. *)
Theorem C78_goes_on : ∀ D now l s, (0 <= D)%Z → f_run D (fl_new now) l = Some s →
  ∃ r s', f_run D (fl_new now) (l ++ r) = Some s' ∧ f_now s' = (f_now s + 1)%Z.
Proof. exact clock_runs. Qed.
Print Assumptions C78_goes_on.

(** What an execution came to: the time and the count. *)
Definition counts (x : option fleet) (d : Z) : option (Z * nat) := (λ s, (f_now s, tracker_count (f_pt s) (f_now s) d)) <$> x.
Lemma counts_ok x d t n : counts x d = Some (t, n) → ∃ s, x = Some s ∧ f_now s = t ∧ tracker_count (f_pt s) (f_now s) d = n.
Proof. destruct x as [s|]; [|done]. intros [= <- <-]. by exists s. Qed.

(** C78, refuted: a new producer is counted.  It sends nothing for 30 seconds. *)
Theorem C78_new_refuted : ∃ l s, f_run 1000 (fl_new 0) l = Some s ∧ status 0 l 1 = Some (true, 0%Z) ∧ f_now s = 29999%Z ∧
  tracker_count (f_pt s) (f_now s) 90000 = 0.
Proof.
  exists [FAdd 1; FPass 29999]. destruct (counts_ok (f_run 1000 (fl_new 0) [FAdd 1; FPass 29999]) 90000 29999 0) as (s & E & Et & Ec); [by vm_compute|].
  exists s. by split.
Qed.
Print Assumptions C78_new_refuted.

(** C78, refuted: an unhealthy producer is not counted.  It still is, until its last heartbeat is [d] old. *)
Theorem C78_unhealthy_refuted : ∃ l s, f_run 1000 (fl_new 0) l = Some s ∧ status 0 l 1 = Some (false, 30000%Z) ∧ f_now s = 120999%Z ∧
  tracker_count (f_pt s) (f_now s) 90000 = 1.
Proof.
  exists [FAdd 1; FPass 30000; FTick 1; FHealth 1 false; FPass 1000; FHear 0; FPass 29000; FTick 1; FPass 30000; FTick 1; FPass 30000; FTick 1; FPass 999].
  destruct (counts_ok (f_run 1000 (fl_new 0) [FAdd 1; FPass 30000; FTick 1; FHealth 1 false; FPass 1000; FHear 0; FPass 29000; FTick 1; FPass 30000; FTick 1;
    FPass 30000; FTick 1; FPass 999]) 90000 120999 1) as (s & E & Et & Ec); [by vm_compute|].
  exists s. by split.
Qed.
Print Assumptions C78_unhealthy_refuted.

(** C78, refuted: any [d] longer than 30 seconds will do.  The delays of two heartbeats may differ. *)
Theorem C78_short_refuted : ∃ l s, f_run 1000 (fl_new 0) l = Some s ∧ long_healthy 0 l (period + 1000) 1 ∧
  tracker_count (f_pt s) (f_now s) (period + 500) = 0.
Proof.
  exists [FAdd 1; FPass 30000; FTick 1; FHear 0; FPass 30000; FTick 1; FPass 500].
  destruct (counts_ok (f_run 1000 (fl_new 0) [FAdd 1; FPass 30000; FTick 1; FHear 0; FPass 30000; FTick 1; FPass 500]) (period + 500) 60500 0)
    as (s & E & Et & Ec); [by vm_compute|].
  exists s. split; [done|]. split; [|done]. exists 0%Z. split; [done|]. done.
Qed.
Print Assumptions C78_short_refuted.

(** * A run of the model *)
Definition fleet_run : list fact :=
  [FAdd 1; FPass 10000; FAdd 2; FPass 20000; FTick 1; FPass 700; FHear 0; FPass 9300; FTick 2; FPass 20000; FTick 1; FHear 1; FHear 0; FPass 10000; FTick 2].
(** C78: two producers, both healthy for more than 50 seconds (heartbeats take at most 20); the second heartbeats cross. *)
Example C78_case : ∃ s, f_run 20000 (fl_new 0) fleet_run = Some s ∧ f_now s = 70000%Z ∧ tracker_count (f_pt s) (f_now s) 90000 = 2 ∧
  long_healthy 0 fleet_run (period + 20000) 1 ∧ long_healthy 0 fleet_run (period + 20000) 2 ∧ (period + 20000 < 90000)%Z.
Proof.
  destruct (counts_ok (f_run 20000 (fl_new 0) fleet_run) 90000 70000 2) as (s & E & Et & Ec); [by vm_compute|].
  exists s. split; [done|]. split; [done|]. split; [done|]. split; [exists 0%Z; by split|]. split; [exists 10000%Z; by split|]. done.
Qed.
