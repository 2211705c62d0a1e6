(** C75: counting producers while heartbeats arrive. *)
From Verif Require Import Base Types Counting SpecPipeline SpecCounting CountingFacts.

(** C75.  In every execution that does not end the process, a finished call of ProducerCount returned at least the number of
    producers whose heartbeats had been dealt with when it began and that are younger than [d] even at the end, and at most the
    number of those dealt with by the end that are younger than [d] measured from the beginning. *)
Theorem C75_count : ∀ now l1 d l2 s n, c_run (ct_new now) (l1 ++ ABegin d :: l2) = Some (Some s) → ct_calls s !! begun l1 = Some (CDone n) →
  at_most (alive (heard now l1) (time_after now (l1 ++ ABegin d :: l2)) d) n ∧
  at_least (alive (heard now (l1 ++ ABegin d :: l2)) (time_after now l1) d) n.
Proof. exact counted. Qed.
Print Assumptions C75_count.

(** C75.  A call whose loop runs on between two assignments inevitably returns. *)
Theorem C75_ends : ∀ now l s i, c_run (ct_new now) l = Some (Some s) → i < begun l → (∀ h t, ct_wr s ≠ WIn h t) →
  inevitably (loops i) (λ s', ∃ n, ct_calls s' !! i = Some (CDone n)) s.
Proof. exact counting_ends. Qed.
Print Assumptions C75_ends.

(** C75, refuted: asking for the number of producers is safe at any time.  A heartbeat arriving during the loop ends the process. *)
Theorem C75_safe_refuted : ∃ now l, c_run (ct_new now) l = Some None ∧ begun l = 1.
Proof. exists 0%Z, [AHeart 1%N; AWrite; AWritten; ABegin 100%Z; AHeart 2%N; AWrite; ANext 0 (Some 1%N)]. split; [by vm_compute|done]. Qed.
Print Assumptions C75_safe_refuted.

(** * A run of the model *)
Definition beats : list cact :=
  [AHeart 1%N; AWrite; AWritten; ATick 50; AHeart 2%N; AWrite; AWritten; ATick 20].
Definition asked : list cact :=
  [ANext 0 (Some 2%N); AHeart 3%N; AWrite; AWritten; ANext 0 (Some 3%N); ATick 40; ANext 0 (Some 1%N); AHeart 4%N; AWrite; AWritten; ANext 0 None].
(** C75: producer 1 grows too old during the loop and 3 is heard in time; 4 comes after the last key. *)
Example C75_case : ∃ s, c_run (ct_new 0) (beats ++ ABegin 100 :: asked) = Some (Some s) ∧ ct_calls s !! begun beats = Some (CDone 2) ∧
  heard 0 beats = [(1%N, 0%Z); (2%N, 50%Z)] ∧ heard 0 (beats ++ ABegin 100 :: asked) = [(1%N, 0%Z); (2%N, 50%Z); (3%N, 70%Z); (4%N, 110%Z)] ∧
  time_after 0 beats = 70%Z ∧ time_after 0 (beats ++ ABegin 100 :: asked) = 110%Z.
Proof.
  destruct (c_run (ct_new 0) (beats ++ ABegin 100 :: asked)) as [[s|]|] eqn:E; [|vm_compute in E; discriminate|vm_compute in E; discriminate].
  exists s. assert (G : ct_calls s !! begun beats = Some (CDone 2)) by (vm_compute in E; injection E as <-; by vm_compute).
  split; [done|]. split; [done|]. split; [by vm_compute|]. split; [by vm_compute|]. split; by vm_compute.
Qed.
