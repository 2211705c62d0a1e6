(** Facts about the calls of Ready (C65). *)
From Verif Require Import Base ReadyCalls SpecShutdown SpecReadyCalls ShutdownFacts ShutdownFacts2.

Lemma lookup_snoc_cases {A} (l : list A) x i y : (l ++ [x]) !! i = Some y → l !! i = Some y ∨ i = length l ∧ x = y.
Proof. intros [H|[Hi H]]%lookup_app_Some; [by left|]. apply list_lookup_singleton_Some in H as [? <-]. right. split; [lia|done]. Qed.

Definition chan_fits (c : rchan) (m : member) : Prop :=
  match c, m with
  | ChShared, (MNot | MOffer | MTaken | MNil) | ChOwn, (MNil | MNull) | ChBroadcast, MWs _ => True
  | _, _ => False
  end.
Definition all_fit (l : list rchan) (ms : list member) : Prop := ∀ i c m, l !! i = Some c → ms !! i = Some m → chan_fits c m.
Definition call_ok (ms : list member) (c : rcall) : Prop :=
  match c with
  | RCollect l => length l ≤ length ms ∧ all_fit l ms
  | RSelect l => length l = length ms ∧ all_fit l ms
  | RSend i | RTold i => ∃ m, ms !! i = Some m ∧ caught_up m
  end.
Definition served (c : rcall) : Prop := match c with RSend _ | RTold _ => True | _ => False end.
Record rcinv (s : rworld) : Prop := RcInv {
  rc_calls : Forall (call_ok (rw_members s)) (rw_calls s);
  rc_taken : ∀ m, m ∈ rw_members s → m = MTaken ∨ m = MNil → ∃ c, c ∈ rw_calls s ∧ served c
}.
Lemma fits_own m : chan_fits (ready_chan m) m.
Proof. by destruct m. Qed.
(** A member can change in this way. *)
Definition later (m m' : member) : Prop :=
  (m, m') ∈ [(MNot, MOffer); (MOffer, MTaken); (MTaken, MNil); (MWs false, MWs true)].
Lemma later_cases m m' : later m m' → (m = MNot ∧ m' = MOffer) ∨ (m = MOffer ∧ m' = MTaken) ∨ (m = MTaken ∧ m' = MNil) ∨ (m = MWs false ∧ m' = MWs true).
Proof. unfold later. rewrite !elem_of_cons, elem_of_nil. naive_solver. Qed.
Lemma call_later ms i m m' c : ms !! i = Some m → later m m' → call_ok ms c → call_ok (<[i := m']> ms) c.
Proof.
  intros Hm Hl%later_cases. assert (Hfit : ∀ l, all_fit l ms → all_fit l (<[i:=m']> ms)).
  { intros l Hf k d n Hk Hn. apply list_lookup_insert_Some in Hn as [(<- & <- & _)|[_ Hn]]; [|by eapply Hf].
    assert (H := Hf _ _ _ Hk Hm). destruct d; destruct Hl as [[-> ->]|[[-> ->]|[[-> ->]|[-> ->]]]]; done. }
  destruct c as [l|l|k|k]; cbn.
  - rewrite insert_length. intros [? ?]. auto.
  - rewrite insert_length. intros [? ?]. auto.
  - intros (n & Hn & Hc). destruct (decide (i = k)) as [->|Hne]; [|exists n; by rewrite list_lookup_insert_ne].
    exists m'. split; [apply list_lookup_insert; by eapply lookup_lt_Some|]. rewrite Hm in Hn. injection Hn as <-.
    destruct Hl as [[-> ->]|[[-> ->]|[[-> ->]|[-> ->]]]]; done.
  - intros (n & Hn & Hc). destruct (decide (i = k)) as [->|Hne]; [|exists n; by rewrite list_lookup_insert_ne].
    exists m'. split; [apply list_lookup_insert; by eapply lookup_lt_Some|]. rewrite Hm in Hn. injection Hn as <-.
    destruct Hl as [[-> ->]|[[-> ->]|[[-> ->]|[-> ->]]]]; done.
Qed.
Lemma served_insert (cs : list rcall) (j : nat) c c' : cs !! j = Some c → (served c → served c') → (∃ x, x ∈ cs ∧ served x) → ∃ x, x ∈ <[j := c']> cs ∧ served x.
Proof.
  intros Hj Hc (x & [k Hk]%elem_of_list_lookup & Hx). destruct (decide (j = k)) as [->|Hne].
  - exists c'. split; [|apply Hc; congruence]. apply elem_of_list_lookup. exists k. apply list_lookup_insert. by eapply lookup_lt_Some.
  - exists x. split; [|done]. apply elem_of_list_lookup. exists k. by rewrite list_lookup_insert_ne.
Qed.
Lemma taken_later (ms : list member) i m' x : x ∈ <[i := m']> ms → x = m' ∨ x ∈ ms.
Proof. intros [k Hk]%elem_of_list_lookup. apply list_lookup_insert_Some in Hk as [(_ & -> & _)|[_ Hk]]; [by left|right; by eapply elem_of_list_lookup_2]. Qed.
Lemma rcinv_step s s' : rcinv s → rc_step s s' → rcinv s'.
Proof.
  intros [H1 H2] [E|E]; inversion E; subst; clear E; cbn in *.
  - constructor; cbn; [eapply Forall_impl; [done|]; intros c; eapply call_later; [done|by repeat constructor]|].
    intros x [->|Hx]%taken_later [|]; try done; eauto.
  - constructor; cbn; [eapply Forall_impl; [done|]; intros c; eapply call_later; [done|by repeat constructor]|].
    intros x [->|Hx]%taken_later [|]; try done; eauto.
  - constructor; cbn; [apply Forall_app; split; [done|]; apply Forall_singleton; split; [cbn; lia|intros i c m Hi; done]|].
    intros x Hx Hm. destruct (H2 x Hx Hm) as (c & Hc & Hs). exists c. split; [apply elem_of_app; by left|done].
  - rename H into Hj, H0 into Hm. constructor; cbn.
    + apply Forall_insert; [done|]. destruct (Forall_at _ _ _ _ H1 Hj) as [L F]. cbn. rewrite app_length. cbn. apply lookup_lt_Some in Hm as Hlt. split; [lia|].
      intros i c n Hi Hn. apply lookup_snoc_cases in Hi as [Hi|[-> <-]]; [by eapply F|]. rewrite Hm in Hn. injection Hn as <-. apply fits_own.
    + intros x Hx Ht. eapply served_insert; [done| |by eapply H2]. done.
  - rename H into Hj, H0 into Hl. constructor; cbn.
    + apply Forall_insert; [done|]. by destruct (Forall_at _ _ _ _ H1 Hj) as [L F].
    + intros x Hx Ht. eapply served_insert; [done| |by eapply H2]. done.
  - rename H into Hj, H0 into Hi. destruct (Forall_at _ _ _ _ H1 Hj) as [L F]. constructor; cbn.
    + apply Forall_insert; [done|]. destruct (lookup_lt_is_Some_2 ms i) as [m Hm]; [rewrite <- L; by eapply lookup_lt_Some|].
      exists m. split; [done|]. assert (X := F _ _ _ Hi Hm). by destruct m.
    + intros x Hx Ht. eapply served_insert; [done| |by eapply H2]. done.
  - rename H into Hj, H0 into Hi, H3 into Hm. constructor; cbn.
    + apply Forall_insert; [done|]. by exists (MWs true).
    + intros x Hx Ht. eapply served_insert; [done| |by eapply H2]. done.
  - rename H into Hj, H0 into Hi, H3 into Hm. constructor; cbn.
    + apply Forall_insert; [eapply Forall_impl; [done|]; intros c; eapply call_later; [done|by repeat constructor]|].
      exists MTaken. split; [apply list_lookup_insert; by eapply lookup_lt_Some|done].
    + intros x _ _. exists (RSend i). split; [|done]. apply elem_of_list_lookup. exists j. apply list_lookup_insert. by eapply lookup_lt_Some.
  - rename H into Hm. constructor; cbn; [eapply Forall_impl; [done|]; intros c; eapply call_later; [done|by repeat constructor]|].
    intros x [->|Hx]%taken_later Ht; [|by eauto]. eapply (H2 MTaken); [by eapply elem_of_list_lookup_2|by left].
  - rename H into Hj. constructor; cbn.
    + apply Forall_insert; [done|]. exact (Forall_at _ _ _ _ H1 Hj).
    + intros x Hx Ht. eapply served_insert; [done| |by eapply H2]. done.
Qed.
Lemma rcinv_reach ms s : rc_run ms s → rcinv s.
Proof.
  intros [Hf Hr]. assert (H0 : rcinv (RW ms [])).
  { constructor; cbn; [by apply Forall_nil|]. intros m Hm Ht. rewrite Forall_forall in Hf. destruct (Hf _ Hm) as [->|[->| ->]]; naive_solver. }
  clear Hf. induction Hr as [|a b c E _ IH]; [done|]. by eapply IH, rcinv_step.
Qed.

Lemma ready_truthful ms s i j : rc_run ms s → rw_calls s !! j = Some (RTold i) → ∃ m, rw_members s !! i = Some m ∧ caught_up m.
Proof. intros H%rcinv_reach Hj. exact (Forall_at _ _ _ _ (rc_calls _ H) Hj). Qed.

(** * Progress *)
Definition ccost (n : nat) (c : rcall) : nat := match c with RCollect l => (n - length l) + 3 | RSelect _ => 2 | RSend _ => 1 | RTold _ => 0 end.
Definition mcost (m : member) : nat := match m with MOffer => 2 | MTaken => 1 | _ => 0 end.
Definition rcost (s : rworld) : nat := sum_list_with (ccost (length (rw_members s))) (rw_calls s) + sum_list_with mcost (rw_members s).
Lemma rcost_step s s' : rc_inner s s' → rcost s' < rcost s.
Proof.
  intros E. inversion E; subst; clear E; unfold rcost; cbn [rw_members rw_calls]; rewrite ?insert_length;
    repeat match goal with |- context [sum_list_with ?f (<[?i := ?y]> ?l)] =>
      match goal with Hx : l !! i = Some ?x |- _ => let Hi := fresh "Q" in assert (Hi := sum_insert f l i x y Hx); revert Hi; generalize (sum_list_with f (<[i := y]> l)); intros ? ? end end;
    cbn [ccost mcost] in *; rewrite ?app_length in *; cbn [length] in *; try lia.
  apply lookup_lt_Some in H0. lia.
Qed.
Lemma rcost_steps k s s' : nsteps rc_inner k s s' → k + rcost s' ≤ rcost s.
Proof. induction 1 as [|k a b c E _ IH]; [lia|]. apply rcost_step in E. lia. Qed.

Lemma ready_stuck s j c : rcinv s → (∀ s', ¬ rc_inner s s') → rw_calls s !! j = Some c → (∃ i, c = RTold i) ∨
  ∃ l, c = RSelect l ∧ length l = length (rw_members s) ∧
    ∀ i d m, l !! i = Some d → rw_members s !! i = Some m → (d = ChShared ∧ m ≠ MOffer ∧ m ≠ MNull ∧ m ≠ MWs true) ∨ (d = ChBroadcast ∧ m = MWs false).
Proof.
  destruct s as [ms cs]. intros [H1 _] Hno Hj. cbn in *. assert (Hok := Forall_at _ _ _ _ H1 Hj).
  destruct c as [l|l|i|i]; cbn in Hok.
  - exfalso. destruct Hok as [L _]. destruct (decide (length l = length ms)) as [El|Hne]; [eapply Hno; by eapply RcSelect|].
    destruct (lookup_lt_is_Some_2 ms (length l)) as [m Hm]; [lia|]. eapply Hno. by eapply RcCollect.
  - right. exists l. destruct Hok as [L F]. split; [done|]. split; [done|]. intros i d m Hd Hm. assert (X := F _ _ _ Hd Hm). destruct d.
    + left. split; [done|]. split; [|by destruct m]. intros ->. eapply Hno. by eapply RcShared.
    + exfalso. eapply Hno. by eapply RcOwn.
    + right. split; [done|]. destruct m as [| | | |b|]; try done. destruct b; [|done]. exfalso. eapply Hno. by eapply RcBroadcast.
  - exfalso. eapply Hno. by eapply RcTold.
  - left. by exists i.
Qed.

Definition hopeful (ms : list member) (c : rcall) : Prop :=
  match c with RCollect l | RSelect l => ∃ i m, ms !! i = Some m ∧ tells_all m ∧ l !! i ≠ Some ChShared | _ => True end.
Lemma hopeful_later ms i m m' c : ms !! i = Some m → later m m' → hopeful ms c → hopeful (<[i := m']> ms) c.
Proof.
  intros Hm Hl%later_cases. assert (Hf : ∀ l : list rchan, (∃ i m, ms !! i = Some m ∧ tells_all m ∧ l !! i ≠ Some ChShared) →
    ∃ k n, <[i:=m']> ms !! k = Some n ∧ tells_all n ∧ l !! k ≠ Some ChShared).
  { intros l (k & n & Hn & Ht & Hk). exists k, n. split; [|done]. rewrite list_lookup_insert_ne; [done|]. intros ->. rewrite Hm in Hn. injection Hn as <-.
    unfold tells_all in Ht. destruct Hl as [[-> ->]|[[-> ->]|[[-> ->]|[-> ->]]]]; naive_solver. }
  destruct c; cbn; auto.
Qed.
Lemma hopeful_step s s' j : (∃ c, rw_calls s !! j = Some c ∧ hopeful (rw_members s) c) → rc_inner s s' → ∃ c, rw_calls s' !! j = Some c ∧ hopeful (rw_members s') c.
Proof.
  intros (c & Hc & Hh) E.
  assert (Hins : ∀ (cs : list rcall) (k : nat) d d' ms, cs !! j = Some c → cs !! k = Some d → (hopeful ms d → hopeful ms d') → hopeful ms c → ∃ c, <[k := d']> cs !! j = Some c ∧ hopeful ms c).
  { clear. intros cs k d d' ms Hc Hd Hi Hh. destruct (decide (k = j)) as [->|Hne].
    - exists d'. split; [apply list_lookup_insert; by eapply lookup_lt_Some|]. apply Hi. congruence.
    - exists c. by rewrite list_lookup_insert_ne. }
  inversion E; subst; clear E; cbn in *.
  - eapply Hins; [done|done| |done]. intros (i & n & Hn & Ht & Hi). exists i, n. split; [done|]. split; [done|].
    intros [?|[-> Hr]]%lookup_snoc_cases; [done|]. assert (n = m) as -> by congruence. unfold tells_all in Ht. destruct Ht as [->|[->| ->]]; done.
  - eapply Hins; done.
  - eapply Hins; done.
  - eapply Hins; done.
  - eapply Hins; [done|done|done|]. eapply hopeful_later; [done|by repeat constructor|done].
  - exists c. split; [done|]. eapply hopeful_later; [done|by repeat constructor|done].
  - eapply Hins; done.
Qed.
Lemma ready_told ms s j l : rc_run ms s → has tells_all s → rw_calls s !! j = Some (RCollect l) → l = [] → will_be_told s j.
Proof.
  intros Hr%rcinv_reach Ht Hj ->. exists (rcost s). intros k s' Hn. split; [apply rcost_steps in Hn; lia|].
  assert (Hh : ∃ c, rw_calls s !! j = Some c ∧ hopeful (rw_members s) c).
  { exists (RCollect []). split; [done|]. unfold has in Ht. apply Exists_exists in Ht as (m & [i Hi]%elem_of_list_lookup & Hm). by exists i, m. }
  clear Hj Ht. induction Hn as [a|k a b c E _ IH].
  - intros Hno. destruct Hh as (c & Hc & Hh). destruct (ready_stuck _ _ _ Hr Hno Hc) as [[i ->]|(l & -> & L & Hl)]; [by exists i|exfalso].
    destruct Hh as (i & m & Hm & Ht & Hi). destruct (lookup_lt_is_Some_2 l i) as [d Hd]; [rewrite L; by eapply lookup_lt_Some|].
    destruct (Hl _ _ _ Hd Hm) as [(-> & _)|(_ & ->)]; [done|]. unfold tells_all in Ht. naive_solver.
  - apply IH; [by eapply rcinv_step; [|right]|by eapply hopeful_step].
Qed.
(** One call only *)
Lemma caught_later m m' : later m m' → caught_up m → caught_up m'.
Proof. intros [[-> ->]|[[-> ->]|[[-> ->]|[-> ->]]]]%later_cases; done. Qed.
Lemma has_insert ms i m m' : Exists caught_up ms → ms !! i = Some m → caught_up m' → Exists caught_up (<[i := m']> ms).
Proof.
  intros (x & [k Hk]%elem_of_list_lookup & Hx)%Exists_exists Hm Hc. apply Exists_exists. destruct (decide (i = k)) as [->|Hne].
  - exists m'. split; [|done]. apply elem_of_list_lookup. exists k. apply list_lookup_insert. by eapply lookup_lt_Some.
  - exists x. split; [|done]. apply elem_of_list_lookup. exists k. by rewrite list_lookup_insert_ne.
Qed.
Lemma has_step s s' : has caught_up s → rc_inner s s' → has caught_up s' ∧ length (rw_calls s') = length (rw_calls s).
Proof.
  intros H E. inversion E; subst; clear E; cbn in *; rewrite ?insert_length; (split; [|done]); try exact H; by eapply has_insert.
Qed.
Lemma ready_told_single ms s : rc_run ms s → has caught_up s → length (rw_calls s) = 1 → will_be_told s 0.
Proof.
  intros Hr%rcinv_reach Ht Hl. exists (rcost s). intros k s' Hn. split; [apply rcost_steps in Hn; lia|].
  induction Hn as [a|k a b c E _ IH].
  - intros Hno. destruct (rw_calls a) as [|c [|]] eqn:Ec; [done| |done].
    destruct (ready_stuck a 0 c Hr Hno) as [[i ->]|(l & -> & L & Hl')]; [by rewrite Ec|exists i; by rewrite Ec|exfalso].
    unfold has in Ht. apply Exists_exists in Ht as (m & Hin & Hm). assert (Hin' := Hin). apply elem_of_list_lookup in Hin' as [i Hi].
    destruct (lookup_lt_is_Some_2 l i) as [d Hd]; [rewrite L; by eapply lookup_lt_Some|].
    assert (Hnt : ¬ (m = MTaken ∨ m = MNil)).
    { intros Hmt. destruct (rc_taken _ Hr m Hin Hmt) as (x & Hx & Hs). rewrite Ec in Hx. apply elem_of_list_singleton in Hx as ->. done. }
    destruct (Hl' _ _ _ Hd Hi) as [(-> & X1 & X2 & X3)|(_ & ->)]; [|by destruct Hm].
    destruct Hm as [Hm1 Hm2]. destruct m as [| | | |[]|]; naive_solver.
  - destruct (has_step _ _ Ht E) as [Ht' Hl']. apply IH; [by eapply rcinv_step; [|right]|done|congruence].
Qed.

(** A call that comes too late. *)
Lemma missed_later ms i m m' l : ms !! i = Some m → later m m' → missed ms l → missed (<[i := m']> ms) l.
Proof.
  intros Hm Hl%later_cases [L H]. split; [by rewrite insert_length|]. intros k c Hk. destruct (H _ _ Hk) as [-> Hc]. split; [done|].
  destruct (decide (i = k)) as [->|Hne]; [|by rewrite list_lookup_insert_ne]. rewrite list_lookup_insert by (by eapply lookup_lt_Some).
  destruct Hl as [[-> ->]|[[-> ->]|[[-> ->]|[-> ->]]]]; rewrite Hm in Hc; naive_solver.
Qed.
Lemma ready_missed s s' j l : rw_calls s !! j = Some (RSelect l) → missed (rw_members s) l → rtc rc_step s s' → rw_calls s' !! j = Some (RSelect l).
Proof.
  intros Hj Hm Hr. cut (rw_calls s' !! j = Some (RSelect l) ∧ missed (rw_members s') l); [tauto|].
  induction Hr as [|a b c E _ IH]; [done|]. assert (Hb : rw_calls b !! j = Some (RSelect l) ∧ missed (rw_members b) l); [|destruct Hb; auto]. clear IH.
  assert (Hne : ∀ k d, rw_calls a !! k = Some d → d ≠ RSelect l → k ≠ j) by (intros k d Hk Hd ->; congruence).
  assert (Hsel : ∀ k l' i d, rw_calls a !! k = Some (RSelect l') → l' !! i = Some d → (d = ChOwn ∨ d = ChBroadcast ∨ rw_members a !! i = Some MOffer) → k ≠ j).
  { intros k l' i d Hk Hd Hc ->. rewrite Hj in Hk. injection Hk as <-. destruct Hm as [_ Hm]. destruct (Hm _ _ Hd) as [-> Hx]. naive_solver. }
  destruct E as [E|E]; inversion E; subst; clear E; cbn [rw_calls rw_members] in *.
  - split; [done|]. eapply missed_later; [done|by repeat constructor|done].
  - split; [done|]. eapply missed_later; [done|by repeat constructor|done].
  - split; [by apply lookup_app_l_Some|done].
  - split; [|done]. rewrite list_lookup_insert_ne; [done|]. by eapply Hne.
  - split; [|done]. rewrite list_lookup_insert_ne; [done|]. by eapply Hne.
  - split; [|done]. rewrite list_lookup_insert_ne; [done|]. eapply Hsel; [done|done|by left].
  - split; [|done]. rewrite list_lookup_insert_ne; [done|]. eapply Hsel; [done|done|by right; left].
  - rewrite list_lookup_insert_ne; [|eapply Hsel; [done|done|by right; right]]. split; [done|]. eapply missed_later; [done|by repeat constructor|done].
  - split; [done|]. eapply missed_later; [done|by repeat constructor|done].
  - split; [|done]. rewrite list_lookup_insert_ne; [done|]. by eapply Hne.
Qed.
