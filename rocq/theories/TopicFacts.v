(** Proofs for C74. *)
From Verif Require Import Base Types TopicConsumer SpecPipeline SpecTopic.

Lemma of_part_app i l l' : of_part i (l ++ l') = of_part i l ++ of_part i l'.
Proof. unfold of_part. by rewrite filter_app, fmap_app. Qed.
Lemma of_part_one i j m : of_part i [(j, m)] = if bool_decide (j = i) then [m] else [].
Proof. unfold of_part. rewrite filter_cons. cbn. case_bool_decide as H; [by rewrite decide_True|by rewrite decide_False]. Qed.
Lemma of_part_cons i x l : of_part i (x :: l) = of_part i [x] ++ of_part i l.
Proof. by rewrite <- of_part_app. Qed.
Lemma came_app i l l' : came i (l ++ l') = came i l ++ came i l'.
Proof. apply omap_app. Qed.
Lemma t_run_app s l l' : t_run s (l ++ l') = s1 ← t_run s l; t_run s1 l'.
Proof. revert s. induction l as [|a l IH]; intros s; [done|]. cbn. destruct (t_step a s); [apply IH|done]. Qed.
Lemma t_run_snoc s l a s' : t_run s (l ++ [a]) = Some s' ↔ ∃ s1, t_run s l = Some s1 ∧ t_step a s1 = Some s'.
Proof.
  rewrite t_run_app. destruct (t_run s l) as [s1|]; cbn; [|by split; [|intros (? & ? & ?)]]. destruct (t_step a s1) as [s2|] eqn:E; cbn.
  - split; [intros [= <-]; eauto|]. intros (? & [= <-] & ?). congruence.
  - split; [done|]. intros (? & [= <-] & ?). congruence.
Qed.

(** What is on its way in partition [i]. *)
Definition held (p : tpart) : list msg := option_list (tp_hand p) ++ tp_queue p.
Definition out (s : tcons) (i : nat) : list msg := of_part i (tc_got s) ++ of_part i (tc_buf s).
Record tinv (s : tcons) (h : list tact) : Prop := {
  ti_all : ∀ i p, tc_parts s !! i = Some p → tp_open p = true → tp_run p = true ∧ out s i ++ held p = came i h;
  ti_some : ∀ i p, tc_parts s !! i = Some p → out s i ++ held p `sublist_of` came i h;
  ti_end : ∀ i p, tc_parts s !! i = Some p → tp_run p = false → tp_queue p = [] ∧ tp_hand p = None;
  ti_cap : length (tc_buf s) ≤ tc_cap s;
  ti_none : ∀ i, tc_parts s !! i = None → out s i = [] ∧ came i h = [];
}.
(** Only partition [i] is concerned. *)
Lemma tinv_update s h s' a i p p' : tinv s h → tc_parts s !! i = Some p → tc_parts s' = <[i := p']> (tc_parts s) →
  tc_cap s' = tc_cap s → (∀ j, j ≠ i → out s' j = out s j ∧ came j [a] = []) →
  length (tc_buf s') ≤ tc_cap s →
  (tp_open p' = true → tp_open p = true ∧ tp_run p' = tp_run p ∧ out s' i ++ held p' = (out s i ++ held p) ++ came i [a]) →
  out s' i ++ held p' `sublist_of` (out s i ++ held p) ++ came i [a] →
  (tp_run p' = false → tp_queue p' = [] ∧ tp_hand p' = None) →
  tinv s' (h ++ [a]).
Proof.
  intros I Hp Ep Ec Ho Hc H1 H2 H3.
  assert (Hl : ∀ j q, tc_parts s' !! j = Some q → (j = i ∧ q = p') ∨ (j ≠ i ∧ tc_parts s !! j = Some q)).
  { intros j q Hq. rewrite Ep in Hq. destruct (decide (i = j)) as [<-|Hn].
    - rewrite list_lookup_insert in Hq by (by eapply lookup_lt_Some). injection Hq as <-. by left.
    - rewrite list_lookup_insert_ne in Hq by done. by right. }
  split.
  - intros j q [[-> ->]|[Hn Hq]]%Hl Hop.
    + destruct (H1 Hop) as (A1 & A2 & A3). destruct (ti_all _ _ I i p Hp A1) as [B1 B2]. split; [congruence|]. by rewrite A3, B2, came_app.
    + destruct (ti_all _ _ I j q Hq Hop) as [B1 B2]. split; [done|]. destruct (Ho j Hn) as [E1 E2]. by rewrite E1, came_app, E2, app_nil_r.
  - intros j q [[-> ->]|[Hn Hq]]%Hl.
    + rewrite came_app. etrans; [exact H2|]. apply sublist_app; [by apply I|done].
    + destruct (Ho j Hn) as [E1 E2]. rewrite E1, came_app, E2, app_nil_r. by apply I.
  - intros j q [[-> ->]|[Hn Hq]]%Hl; [done|by eapply I].
  - by rewrite Ec.
  - intros j Hj. rewrite Ep in Hj. assert (Hj' : tc_parts s !! j = None).
    { apply lookup_ge_None in Hj. rewrite insert_length in Hj. by apply lookup_ge_None. }
    destruct (Ho j) as [E1 E2]; [intros ->; congruence|]. rewrite E1, came_app, E2, app_nil_r. by apply I.
Qed.
(** No partition is concerned. *)
Lemma tinv_same s h s' a : tinv s h → tc_parts s' = tc_parts s → tc_cap s' = tc_cap s → (∀ j, out s' j = out s j) → (∀ j, came j [a] = []) →
  length (tc_buf s') ≤ tc_cap s → tinv s' (h ++ [a]).
Proof.
  intros I Ep Ec Ho Ha Hc. split.
  - intros j q Hq Hop. rewrite Ep in Hq. rewrite Ho, came_app, Ha, app_nil_r. by apply I.
  - intros j q Hq. rewrite Ep in Hq. rewrite Ho, came_app, Ha, app_nil_r. by apply I.
  - intros j q Hq. rewrite Ep in Hq. by eapply I.
  - by rewrite Ec.
  - intros j Hj. rewrite Ep in Hj. rewrite Ho, came_app, Ha, app_nil_r. by apply I.
Qed.
Lemma out_put s i m j ps c : out (TC ps c (tc_buf s ++ [(i, m)]) (tc_got s) (tc_close s)) j = out s j ++ if bool_decide (i = j) then [m] else [].
Proof. unfold out. cbn [tc_got tc_buf]. by rewrite of_part_app, of_part_one, app_assoc. Qed.
Lemma tinv_step s h a s' : tinv s h → t_step a s = Some s' → tinv s' (h ++ [a]).
Proof.
  intros I H. destruct a as [i m|i|i|i| |i| |err|err|i]; cbn [t_step] in H.
  - destruct (tc_parts s !! i) as [p|] eqn:Hp; [|done]. cbn in H. destruct (tp_open p) eqn:Eo; [|done]. injection H as <-.
    assert (Ei : came i [TIn i m] = [m]) by (cbn; by rewrite bool_decide_eq_true_2).
    assert (Eh : held (TP (tp_queue p ++ [m]) (tp_hand p) (tp_run p) true) = held p ++ [m]) by (unfold held; cbn; by rewrite app_assoc).
    eapply (tinv_update s h _ _ i p); [done|done|reflexivity|done| |apply I| | |].
    + intros j Hn. split; [done|]. cbn. by rewrite bool_decide_eq_false_2.
    + intros _. split; [done|]. split; [done|]. rewrite Ei, Eh. by rewrite <- app_assoc.
    + rewrite Ei, Eh. by rewrite <- app_assoc.
    + cbn. intros Er. destruct (ti_all _ _ I i p Hp Eo) as [B _]. congruence.
  - destruct (tc_parts s !! i) as [p|] eqn:Hp; [|done]. cbn in H. destruct (tp_run p) eqn:Er; [|done]. destruct (tp_hand p) as [|] eqn:Eh; [done|].
    destruct (tp_queue p) as [|m q] eqn:Eq; [done|]. injection H as <-.
    assert (E : held (TP q (Some m) true (tp_open p)) = held p) by (unfold held; cbn; by rewrite Eh, Eq).
    eapply (tinv_update s h _ _ i p); [done|done|reflexivity|done|done|apply I| | |done].
    + intros Ho. rewrite E. cbn in *. by rewrite app_nil_r, Er.
    + rewrite E. cbn. by rewrite app_nil_r.
  - destruct (tc_parts s !! i) as [p|] eqn:Hp; [|done]. cbn in H. destruct (tp_hand p) as [m|] eqn:Eh; [|done].
    case_bool_decide as Hlt; [|done]. injection H as <-.
    assert (E : held p = m :: tp_queue p) by (unfold held; by rewrite Eh).
    eapply (tinv_update s h _ _ i p); [done|done|reflexivity|done| | | | |].
    + intros j Hn. split; [|done]. rewrite out_put. rewrite bool_decide_eq_false_2 by done. by rewrite app_nil_r.
    + cbn. rewrite app_length. cbn. lia.
    + intros Ho. split; [done|]. split; [done|]. rewrite out_put, E, bool_decide_eq_true_2 by done. cbn. by rewrite app_nil_r, <- app_assoc.
    + rewrite out_put, E, bool_decide_eq_true_2 by done. cbn. by rewrite app_nil_r, <- app_assoc.
    + cbn. intros Er. destruct (ti_end _ _ I i p Hp Er) as [? ?]. congruence.
  - destruct (tc_parts s !! i) as [p|] eqn:Hp; [|done]. cbn in H. destruct (tp_hand p) as [m|] eqn:Eh; [|done].
    destruct (tc_cap s) as [|c] eqn:Ec; [|done]. injection H as <-.
    assert (E : held p = m :: tp_queue p) by (unfold held; by rewrite Eh).
    assert (Eb : tc_buf s = []). { apply length_zero_iff_nil. assert (G := ti_cap _ _ I). rewrite Ec in G. lia. }
    assert (Eout : ∀ j ps, out (TC ps 0 (tc_buf s) (tc_got s ++ [(i, m)]) (tc_close s)) j = out s j ++ if bool_decide (i = j) then [m] else []).
    { intros j ps. unfold out. cbn [tc_got tc_buf]. rewrite Eb. cbn. by rewrite !app_nil_r, of_part_app, of_part_one. }
    eapply (tinv_update s h _ _ i p); [done|done|reflexivity|done| | | | |].
    + intros j Hn. split; [|done]. rewrite Eout. rewrite bool_decide_eq_false_2 by done. by rewrite app_nil_r.
    + cbn. rewrite Eb. cbn. lia.
    + intros Ho. split; [done|]. split; [done|]. rewrite Eout, E, bool_decide_eq_true_2 by done. cbn. by rewrite app_nil_r, <- app_assoc.
    + rewrite Eout, E, bool_decide_eq_true_2 by done. cbn. by rewrite app_nil_r, <- app_assoc.
    + cbn. intros Er. destruct (ti_end _ _ I i p Hp Er) as [? ?]. congruence.
  - destruct (tc_buf s) as [|x b] eqn:Eb; [done|]. injection H as <-.
    apply (tinv_same s); [done|done|done| |done|].
    + intros j. unfold out. cbn [tc_got tc_buf]. rewrite Eb, (of_part_cons j x b), of_part_app. by rewrite <- app_assoc.
    + assert (G := ti_cap _ _ I). rewrite Eb in G. cbn in *. lia.
  - destruct (tc_parts s !! i) as [p|] eqn:Hp; [|done]. cbn in H. destruct (tp_run p) eqn:Er; [|done]. destruct (tp_hand p) as [|] eqn:Eh; [done|].
    destruct (tp_queue p) as [|m q] eqn:Eq; [|done]. destruct (tp_open p) eqn:Eo; [done|]. injection H as <-.
    eapply (tinv_update s h _ _ i p); [done|done|reflexivity|done|done|apply I|done| |done].
    unfold held. rewrite Eh, Eq. cbn. rewrite !app_nil_r. reflexivity.
  - destruct (tc_close s) eqn:Ec; [|done|done]. injection H as <-. apply (tinv_same s); try done. apply I.
  - destruct (tc_close s) as [|k|] eqn:Ec; [done| |done]. destruct (tc_parts s !! k) as [p|] eqn:Hp; [|done]. injection H as <-.
    eapply (tinv_update s h _ _ k p); [done|done|reflexivity|done|done|apply I|done| |].
    + cbn. by rewrite app_nil_r.
    + intros Er. by apply (ti_end _ _ I k p).
  - destruct (tc_close s) as [|k|] eqn:Ec; [done| |done]. case_bool_decide; [|done]. injection H as <-. apply (tinv_same s); try done. apply I.
  - destruct (tc_parts s !! i) as [p|] eqn:Hp; [|done]. cbn in H. destruct (tp_open p) eqn:Eo; [done|].
    destruct (tp_queue p) as [|m q] eqn:Eq; [done|]. injection H as <-.
    eapply (tinv_update s h _ _ i p); [done|done|reflexivity|done|done|apply I|done| |].
    + cbn [came omap list_omap]. rewrite app_nil_r. apply sublist_app; [done|]. unfold held. rewrite Eq. cbn. apply sublist_app; [done|by constructor].
    + cbn. intros Er. destruct (ti_end _ _ I i p Hp Er) as [? ?]. congruence.
Qed.

Lemma open_all_parts l : Forall (λ p, p = tp_new) (open_all l).2.
Proof. induction l as [|[] l IH]; cbn; [done| |done]. destruct (open_all l). cbn in *. by constructor. Qed.
Lemma new_tinv b ps e s : new_topic_consumer b ps = Ok (e, s) → tinv s [] ∧ tc_cap s = Z.to_nat b ∧ tc_got s = [] ∧ tc_buf s = [] ∧ tc_close s = NotClosing ∧
  Forall (λ p, p = tp_new) (tc_parts s).
Proof.
  unfold new_topic_consumer. destruct (b <? 0)%Z; [done|]. intros H.
  assert (G : Forall (λ p, p = tp_new) (tc_parts s) ∧ s = TC (tc_parts s) (Z.to_nat b) [] [] NotClosing).
  { destruct ps as [l|]; [|injection H as <- <-; split; [constructor|done]]. assert (F := open_all_parts l). destruct (open_all l) as [e' q]. injection H as <- <-. done. }
  destruct G as [G ->]. split; [|done]. split; cbn.
  - intros i p Hp _. apply (proj1 (Forall_lookup _ _) G) in Hp as ->. done.
  - intros i p Hp. apply (proj1 (Forall_lookup _ _) G) in Hp as ->. done.
  - intros i p Hp. apply (proj1 (Forall_lookup _ _) G) in Hp as ->. done.
  - lia.
  - done.
Qed.
Lemma tinv_run b ps e s0 l s : new_topic_consumer b ps = Ok (e, s0) → t_run s0 l = Some s → tinv s l.
Proof.
  intros H0 Hr. destruct (new_tinv _ _ _ _ H0) as (I & _). revert s Hr. induction l as [|a l IH] using rev_ind; intros s Hr; [by injection Hr as <-|].
  apply t_run_snoc in Hr as (s1 & H1 & H2). eapply tinv_step; [by apply IH|done].
Qed.

(** * Which partitions are closed *)
Definition open_from (s : tcons) (k : nat) : Prop := ∀ i p, tc_parts s !! i = Some p → tp_open p = bool_decide (k ≤ i).
Definition cinv (s : tcons) (h : list tact) : Prop :=
  match tc_close s with
  | NotClosing => open_from s 0 ∧ TClosePart true ∉ h
  | ClosingAt k => open_from s k ∧ TClosePart true ∉ h
  | Returned e => TClosePart true ∉ h → open_from s (length (tc_parts s))
  end.
Lemma open_from_insert s k i p p' cl b g : tc_parts s !! i = Some p → tp_open p' = tp_open p → open_from s k →
  open_from (TC (<[i := p']> (tc_parts s)) (tc_cap s) b g cl) k.
Proof.
  intros Hp Eo H j q Hq. cbn in Hq. destruct (decide (i = j)) as [<-|Hn].
  - rewrite list_lookup_insert in Hq by (by eapply lookup_lt_Some). injection Hq as <-. rewrite Eo. by apply H.
  - rewrite list_lookup_insert_ne in Hq by done. by apply H.
Qed.
Lemma cinv_insert s h a i p p' b g : cinv s h → (∀ e, a ≠ TClosePart e) → tc_parts s !! i = Some p → tp_open p' = tp_open p →
  cinv (TC (<[i := p']> (tc_parts s)) (tc_cap s) b g (tc_close s)) (h ++ [a]).
Proof.
  intros I Ha Hp Eo. unfold cinv in *. cbn [tc_close tc_parts]. destruct (tc_close s) as [|k|e].
  - destruct I as [I1 I2]. split; [by eapply open_from_insert|]. intros [?|?%elem_of_list_singleton]%elem_of_app; [done|]. by eapply Ha.
  - destruct I as [I1 I2]. split; [by eapply open_from_insert|]. intros [?|?%elem_of_list_singleton]%elem_of_app; [done|]. by eapply Ha.
  - intros Hn. rewrite insert_length. eapply open_from_insert; [done|done|]. apply I. intros H. apply Hn, elem_of_app. by left.
Qed.
Lemma cinv_step s h a s' : cinv s h → t_step a s = Some s' → cinv s' (h ++ [a]).
Proof.
  intros I H. destruct a as [i m|i|i|i| |i| |err|err|i]; cbn [t_step] in H; unfold with_part in H.
  - destruct (tc_parts s !! i) as [p|] eqn:Hp; [|done]. cbn in H. destruct (tp_open p) eqn:Eo; [|done]. injection H as <-. by eapply cinv_insert.
  - destruct (tc_parts s !! i) as [p|] eqn:Hp; [|done]. cbn in H. repeat case_match; try done. injection H as <-. by eapply cinv_insert.
  - destruct (tc_parts s !! i) as [p|] eqn:Hp; [|done]. cbn in H. repeat case_match; try done. injection H as <-. by eapply cinv_insert.
  - destruct (tc_parts s !! i) as [p|] eqn:Hp; [|done]. cbn in H. destruct (tp_hand p); [|done]. destruct (tc_cap s) as [|] eqn:Ec; [|done]. injection H as <-.
    rewrite <- Ec. by eapply cinv_insert.
  - destruct (tc_buf s) as [|x b]; [done|]. injection H as <-. unfold cinv in *. cbn [tc_close tc_parts]. destruct (tc_close s) as [|k|e].
    + destruct I as [I1 I2]. split; [done|]. by intros [?|?%elem_of_list_singleton]%elem_of_app.
    + destruct I as [I1 I2]. split; [done|]. by intros [?|?%elem_of_list_singleton]%elem_of_app.
    + intros Hn. apply I. intros ?. apply Hn, elem_of_app. by left.
  - destruct (tc_parts s !! i) as [p|] eqn:Hp; [|done]. cbn in H. destruct (tp_run p), (tp_hand p), (tp_queue p), (tp_open p) eqn:Eo; try done. injection H as <-. by eapply cinv_insert.
  - unfold cinv in *. destruct (tc_close s) as [|k|e] eqn:Ec; [|done|done]. injection H as <-. cbn [tc_close tc_parts]. destruct I as [I1 I2]. split; [done|].
    by intros [?|?%elem_of_list_singleton]%elem_of_app.
  - unfold cinv in I. destruct (tc_close s) as [|k|e] eqn:Ec; [done| |done]. destruct I as [I1 I2]. destruct (tc_parts s !! k) as [p|] eqn:Hp; [|done]. injection H as <-.
    unfold cinv. cbn [tc_close tc_parts]. destruct err.
    { intros []. apply elem_of_app. right. left. }
    split; [|by intros [?|?%elem_of_list_singleton]%elem_of_app].
    intros j q Hq. cbn in Hq. destruct (decide (k = j)) as [<-|Hn].
    + rewrite list_lookup_insert in Hq by (by eapply lookup_lt_Some). injection Hq as <-. cbn. symmetry. apply bool_decide_eq_false_2. lia.
    + rewrite list_lookup_insert_ne in Hq by done. rewrite (I1 j q Hq). apply bool_decide_ext. lia.
  - unfold cinv in I. destruct (tc_close s) as [|k|e] eqn:Ec; [done| |done]. destruct I as [I1 I2]. case_bool_decide as Hk; [|done]. injection H as <-.
    unfold cinv. cbn [tc_close tc_parts]. intros _ j q Hq. cbn in Hq. rewrite (I1 j q Hq). apply lookup_lt_Some in Hq. apply bool_decide_ext. lia.
  - destruct (tc_parts s !! i) as [p|] eqn:Hp; [|done]. cbn in H. destruct (tp_open p) eqn:Eo; [done|]. destruct (tp_queue p); [done|]. injection H as <-. by eapply cinv_insert.
Qed.
Lemma cinv_run b ps e s0 l s : new_topic_consumer b ps = Ok (e, s0) → t_run s0 l = Some s → cinv s l.
Proof.
  intros H0 Hr. destruct (new_tinv _ _ _ _ H0) as (_ & _ & _ & _ & Ec & F).
  assert (I : cinv s0 []).
  { unfold cinv. rewrite Ec. split; [|apply not_elem_of_nil]. intros i p Hp. apply (proj1 (Forall_lookup _ _) F) in Hp as ->. cbn. symmetry. apply bool_decide_eq_true_2. lia. }
  clear -I Hr. revert s Hr. induction l as [|a l IH] using rev_ind; intros s Hr; [by injection Hr as <-|].
  apply t_run_snoc in Hr as (s1 & H1 & H2). eapply cinv_step; [by apply IH|done].
Qed.

(** * Safety *)
Lemma topic_exact b ps e s0 l s i : new_topic_consumer b ps = Ok (e, s0) → t_run s0 l = Some s →
  of_part i (tc_got s) `sublist_of` came i l ∧ (tc_close s = NotClosing → of_part i (tc_got s) `prefix_of` came i l).
Proof.
  intros H0 Hr. assert (I := tinv_run _ _ _ _ _ _ H0 Hr). assert (C := cinv_run _ _ _ _ _ _ H0 Hr).
  destruct (tc_parts s !! i) as [p|] eqn:Hp.
  - split.
    + etrans; [|by apply (ti_some _ _ I i p)]. unfold out. rewrite <- app_assoc. by apply sublist_inserts_r.
    + intros Ec. unfold cinv in C. rewrite Ec in C. destruct C as [C _]. assert (Ho := C i p Hp). rewrite bool_decide_eq_true_2 in Ho by lia.
      destruct (ti_all _ _ I i p Hp Ho) as [_ <-]. unfold out. rewrite <- !app_assoc. by apply prefix_app_r.
  - destruct (ti_none _ _ I i Hp) as [E1 E2]. unfold out in E1. apply app_eq_nil in E1 as [-> _]. rewrite E2. split; [constructor|]. intros _. done.
Qed.
Lemma topic_bounded b ps e s0 l s : new_topic_consumer b ps = Ok (e, s0) → t_run s0 l = Some s →
  in_flight s ≤ Z.to_nat b + length (tc_parts s).
Proof.
  intros H0 Hr. assert (I := tinv_run _ _ _ _ _ _ H0 Hr). assert (Ec : tc_cap s = Z.to_nat b).
  { destruct (new_tinv _ _ _ _ H0) as (_ & <- & _). clear -Hr. revert s0 Hr. induction l as [|a l IH]; intros s0 Hr; [by injection Hr as <-|].
    cbn in Hr. destruct (t_step a s0) as [s1|] eqn:E; [|done]. cbn in Hr. rewrite (IH _ Hr). clear -E.
    destruct a; cbn [t_step] in E; unfold with_part in E.
    all: try (destruct (tc_parts s0 !! i) as [p|]; [|done]; cbn in E).
    all: try (destruct (tc_close s0) as [|k|]; [done| |done]; destruct (tc_parts s0 !! k) as [p|]; [|done]; by injection E as <-).
    all: repeat case_match; by simplify_eq. }
  unfold in_flight. assert (G := ti_cap _ _ I). rewrite Ec in G. assert (F := filter_length (λ p, is_Some (tp_hand p)) (tc_parts s)). lia.
Qed.

(** * Progress *)
Definition weight (p : tpart) : nat := 3 * length (tp_queue p) + 2 * length (option_list (tp_hand p)) + (if tp_run p then 1 else 0).
Definition measure (s : tcons) : nat := sum_list_with weight (tc_parts s) + length (tc_buf s).
Lemma sum_insert ps i p p' : ps !! i = Some p → sum_list_with weight (<[i := p']> ps) + weight p = sum_list_with weight (ps) + weight p'.
Proof.
  revert i. induction ps as [|q ps IH]; intros [|i] H; try done.
  - injection H as ->. cbn -[weight]. lia.
  - specialize (IH i H). change (weight q + sum_list_with weight (<[i:=p']> ps) + weight p = weight q + sum_list_with weight ps + weight p'). lia.
Qed.
Lemma works_less a s s' : works a ∨ (∃ i, a = TDrop i) → t_step a s = Some s' → measure s' < measure s.
Proof.
  intros Ha H. unfold measure. destruct a as [i m|i|i|i| |i| |err|err|i]; cbn [t_step] in H; unfold with_part in H; try (by destruct Ha as [[]|[? [=]]]); clear Ha.
  all: try (destruct (tc_parts s !! i) as [p|] eqn:Hp; [|done]; cbn in H).
  - destruct (tp_run p) eqn:Er, (tp_hand p) eqn:Eh, (tp_queue p) eqn:Eq; try done. injection H as <-. cbn [tc_parts tc_buf].
    assert (G := sum_insert _ _ _ (TP l (Some m) true (tp_open p)) Hp). unfold weight in G at 2 4. cbn in G. rewrite Er, Eh, Eq in G. cbn in G. lia.
  - destruct (tp_hand p) eqn:Eh; [|done]. case_bool_decide; [|done]. injection H as <-. cbn [tc_parts tc_buf]. rewrite app_length.
    assert (G := sum_insert _ _ _ (TP (tp_queue p) None (tp_run p) (tp_open p)) Hp). unfold weight in G at 2 4. cbn in G. rewrite Eh in G. cbn in *. lia.
  - destruct (tp_hand p) eqn:Eh; [|done]. destruct (tc_cap s); [|done]. injection H as <-. cbn [tc_parts tc_buf].
    assert (G := sum_insert _ _ _ (TP (tp_queue p) None (tp_run p) (tp_open p)) Hp). unfold weight in G at 2 4. cbn in G. rewrite Eh in G. cbn in *. lia.
  - destruct (tc_buf s) as [|x b]; [done|]. injection H as <-. cbn. lia.
  - destruct (tp_run p) eqn:Er, (tp_hand p) eqn:Eh, (tp_queue p) eqn:Eq, (tp_open p) eqn:Eo; try done. injection H as <-. cbn [tc_parts tc_buf].
    assert (G := sum_insert _ _ _ (TP [] None false false) Hp). unfold weight in G at 2 4. cbn in G. rewrite Er, Eh, Eq in G. cbn in G. lia.
  - destruct (tp_open p) eqn:Eo, (tp_queue p) eqn:Eq; try done. injection H as <-. cbn [tc_parts tc_buf].
    assert (G := sum_insert _ _ _ (TP l (tp_hand p) (tp_run p) false) Hp). unfold weight in G at 2 4. cbn in G. rewrite Eq in G. cbn in G. lia.
Qed.
Lemma inevitable {S} (step : S → S → Prop) (P I : S → Prop) (m : S → nat) :
  (∀ s s', step s s' → m s' < m s) → (∀ s s', I s → step s s' → I s') → (∀ s, I s → P s ∨ ∃ s', step s s') → ∀ s, I s → inevitably step P s.
Proof.
  intros Hm HI Hp s. remember (m s) as n eqn:En. revert s En. induction (lt_wf n) as [n _ IH]. intros s -> Hs.
  destruct (Hp s Hs) as [?|Hex]; [by apply inev_now|]. apply inev_later; [done|]. intros s' Hst. eapply IH; [by apply Hm|done|by eapply HI].
Qed.
(** Unless nothing is left to pass on, somebody can act. *)
Lemma can_act s h : tinv s h → (∃ s', work s s') ∨ (tc_buf s = [] ∧ ∀ i p, tc_parts s !! i = Some p → held p = [] ∧ (tp_open p = false → tp_run p = false)).
Proof.
  intros I. destruct (tc_buf s) as [|x b] eqn:Eb.
  2: { left. eexists. exists TGet. split; [done|]. cbn. by rewrite Eb. }
  destruct (decide (Exists (λ p, is_Some (tp_hand p)) (tc_parts s))) as [Hx|Hx].
  { left. apply Exists_exists in Hx as (p & [i Hi]%elem_of_list_lookup & [m Hm]). destruct (tc_cap s) as [|c] eqn:Ec.
    - eexists. exists (TPass i). split; [done|]. cbn. rewrite Hi. cbn. by rewrite Hm, Ec.
    - eexists. exists (TPut i). split; [done|]. cbn. rewrite Hi. cbn. rewrite Hm. rewrite bool_decide_eq_true_2; [done|]. rewrite Eb, Ec. cbn. lia. }
  assert (Hn : ∀ i p, tc_parts s !! i = Some p → tp_hand p = None).
  { intros i p Hi. destruct (tp_hand p) eqn:E; [|done]. exfalso. apply Hx, Exists_exists. exists p. split; [by eapply elem_of_list_lookup_2|]. by rewrite E. }
  destruct (decide (Exists (λ p, tp_queue p ≠ []) (tc_parts s))) as [Hq|Hq].
  { left. apply Exists_exists in Hq as (p & [i Hi]%elem_of_list_lookup & Hq). destruct (tp_queue p) as [|m q] eqn:Eq; [done|].
    eexists. exists (TTake i). split; [done|]. cbn. rewrite Hi. cbn. rewrite (Hn _ _ Hi), Eq. destruct (tp_run p) eqn:Er; [done|].
    destruct (ti_end _ _ I _ _ Hi Er) as [? _]. congruence. }
  assert (Hn2 : ∀ i p, tc_parts s !! i = Some p → tp_queue p = []).
  { intros i p Hi. destruct (tp_queue p) eqn:E; [done|]. exfalso. apply Hq, Exists_exists. exists p. split; [by eapply elem_of_list_lookup_2|]. by rewrite E. }
  destruct (decide (Exists (λ p, tp_open p = false ∧ tp_run p = true) (tc_parts s))) as [He|He].
  { left. apply Exists_exists in He as (p & [i Hi]%elem_of_list_lookup & Ho & Er). eexists. exists (TEnd i). split; [done|]. cbn. rewrite Hi. cbn.
    by rewrite Er, Ho, (Hn _ _ Hi), (Hn2 _ _ Hi). }
  right. split; [done|]. intros i p Hi. split; [unfold held; by rewrite (Hn _ _ Hi), (Hn2 _ _ Hi)|]. intros Ho. destruct (tp_run p) eqn:Er; [|done].
  exfalso. apply He, Exists_exists. exists p. split; [by eapply elem_of_list_lookup_2|done].
Qed.
Lemma works_came a i : works a ∨ (∃ i, a = TDrop i) → came i [a] = [].
Proof. intros [H|[j ->]]; [by destruct a|done]. Qed.
Lemma works_close a s s' : works a ∨ (∃ i, a = TDrop i) → t_step a s = Some s' → tc_close s' = tc_close s.
Proof.
  intros Ha H. destruct a as [i m|i|i|i| |i| |err|err|i]; cbn [t_step] in H; unfold with_part in H; try (by destruct Ha as [[]|[? [=]]]); clear Ha.
  all: try (destruct (tc_parts s !! i) as [p|] eqn:Hp; [|done]; cbn in H).
  all: repeat case_match; simplify_eq; done.
Qed.
Lemma topic_delivered b ps e s0 l s : new_topic_consumer b ps = Ok (e, s0) → t_run s0 l = Some s → tc_close s = NotClosing →
  inevitably work (λ s', ∀ i, of_part i (tc_got s') = came i l) s.
Proof.
  intros H0 Hr Hc. assert (I := tinv_run _ _ _ _ _ _ H0 Hr). assert (C := cinv_run _ _ _ _ _ _ H0 Hr).
  apply (inevitable work _ (λ s', ∃ h, tinv s' h ∧ cinv s' h ∧ tc_close s' = NotClosing ∧ ∀ i, came i h = came i l) measure); [| | |by exists l].
  - intros s1 s2 (a & Ha & Hs). eapply works_less; [by left|done].
  - intros s1 s2 (h & J & D & E & Hh) (a & Ha & Hs). exists (h ++ [a]). split; [by eapply tinv_step|]. split; [by eapply cinv_step|].
    split; [by rewrite (works_close a s1 s2) by (done || by left)|]. intros i. rewrite came_app, (works_came a i) by (by left). by rewrite app_nil_r.
  - intros s1 (h & J & D & E & Hh). destruct (can_act s1 h J) as [?|[Eb Hall]]; [by right|left]. intros i. rewrite <- Hh.
    destruct (tc_parts s1 !! i) as [p|] eqn:Hp.
    + unfold cinv in D. rewrite E in D. destruct D as [D _]. assert (Ho := D i p Hp). rewrite bool_decide_eq_true_2 in Ho by lia.
      destruct (ti_all _ _ J i p Hp Ho) as [_ <-]. unfold out. rewrite Eb, (proj1 (Hall i p Hp)). cbn. by rewrite !app_nil_r.
    + destruct (ti_none _ _ J i Hp) as [E1 ->]. unfold out in E1. by apply app_eq_nil in E1 as [-> _].
Qed.
Lemma topic_ends b ps e s0 l s err : new_topic_consumer b ps = Ok (e, s0) → t_run s0 l = Some s → tc_close s = Returned err → TClosePart true ∉ l →
  inevitably work_or_drop (λ s', tc_buf s' = [] ∧ Forall (λ p, tp_run p = false ∧ tp_hand p = None) (tc_parts s')) s.
Proof.
  intros H0 Hr Hc Hn. assert (I := tinv_run _ _ _ _ _ _ H0 Hr). assert (C := cinv_run _ _ _ _ _ _ H0 Hr).
  apply (inevitable work_or_drop _ (λ s', ∃ h, tinv s' h ∧ cinv s' h ∧ tc_close s' = Returned err ∧ TClosePart true ∉ h) measure); [| | |by exists l].
  - intros s1 s2 (a & Ha & Hs). by eapply works_less.
  - intros s1 s2 (h & J & D & E & Hh) (a & Ha & Hs). exists (h ++ [a]). split; [by eapply tinv_step|]. split; [by eapply cinv_step|].
    split; [by rewrite (works_close a s1 s2)|]. intros [?|<-%elem_of_list_singleton]%elem_of_app; [done|]. by destruct Ha as [[]|[? [=]]].
  - intros s1 (h & J & D & E & Hh). destruct (can_act s1 h J) as [(s2 & a & Ha & Hs)|[Eb Hall]].
    { right. exists s2, a. split; [by left|done]. }
    left. split; [done|]. apply Forall_lookup. intros i p Hp. unfold cinv in D. rewrite E in D. assert (Ho := D Hh i p Hp).
    rewrite bool_decide_eq_false_2 in Ho by (apply lookup_lt_Some in Hp; lia). destruct (Hall i p Hp) as [G1 G2]. split; [by apply G2|].
    unfold held in G1. apply app_eq_nil in G1 as [G1 _]. by destruct (tp_hand p).
Qed.
Lemma topic_new b ps : new_topic_consumer b ps = Panic ↔ (b < 0)%Z.
Proof.
  unfold new_topic_consumer. destruct (Z.ltb_spec b 0) as [H|H]; [done|]. split; [|lia]. destruct ps as [l|]; [|done]. by destruct (open_all l).
Qed.
Lemma topic_new_parts b l e s : new_topic_consumer b (Some l) = Ok (e, s) →
  (e = false ↔ Forall (λ x, x = true) l) ∧ (e = false → length (tc_parts s) = length l).
Proof.
  unfold new_topic_consumer. destruct (b <? 0)%Z; [done|]. destruct (open_all l) as [e' q] eqn:E. intros H. injection H as <- <-. cbn [tc_parts].
  revert e' q E. induction l as [|[] l IH]; intros e' q E; cbn in E.
  - injection E as <- <-. by split.
  - destruct (open_all l) as [e2 q2]. injection E as <- <-. destruct (IH _ _ eq_refl) as [A B]. split; [|intros H; cbn; by rewrite (B H)].
    rewrite A. split; [by constructor|]. by intros [_ ?]%Forall_cons.
  - injection E as <- <-. split; [|done]. split; [done|]. by intros [? _]%Forall_cons.
Qed.

(** * A goroutine nobody receives from *)
Lemma stuck_step i m s s' : (∃ p, tc_parts s !! i = Some p ∧ tp_hand p = Some m ∧ tp_run p = true) → length (tc_buf s) = tc_cap s → unreceived s s' →
  (∃ p, tc_parts s' !! i = Some p ∧ tp_hand p = Some m ∧ tp_run p = true) ∧ length (tc_buf s') = tc_cap s'.
Proof.
  intros (p & Hp & Hh & Hr) Hb (a & H1 & H2 & H).
  assert (U : ∀ j q q', tc_parts s !! j = Some q → (j = i → tp_hand q' = tp_hand q ∧ tp_run q' = tp_run q) →
    ∃ p0, <[j := q']> (tc_parts s) !! i = Some p0 ∧ tp_hand p0 = Some m ∧ tp_run p0 = true).
  { intros j q q' Hq Hf. destruct (decide (j = i)) as [->|Hn].
    - exists q'. rewrite list_lookup_insert by (by eapply lookup_lt_Some). destruct (Hf eq_refl) as [-> ->]. simplify_eq. done.
    - exists p. by rewrite list_lookup_insert_ne. }
  destruct a as [j m'|j|j|j| |j| |err|err|j]; cbn [t_step] in H; unfold with_part in H; try done.
  all: try (destruct (tc_parts s !! j) as [q|] eqn:Hq; [|done]; cbn in H).
  - destruct (tp_open q); [|done]. injection H as <-. split; [|done]. by eapply U.
  - destruct (tp_run q) eqn:E1, (tp_hand q) eqn:E2, (tp_queue q); try done. injection H as <-. split; [|done]. eapply U; [done|]. intros ->. simplify_eq.
  - destruct (tp_hand q); [|done]. rewrite bool_decide_eq_false_2 in H by lia. done.
  - by destruct (H1 j).
  - destruct (tp_run q) eqn:E1, (tp_hand q) eqn:E2, (tp_queue q), (tp_open q); try done. injection H as <-. split; [|done]. eapply U; [done|]. intros ->. simplify_eq.
  - destruct (tc_close s); try done. injection H as <-. split; [|done]. by exists p.
  - destruct (tc_close s) as [|k|]; try done. destruct (tc_parts s !! k) as [q|] eqn:Hq; [|done]. injection H as <-. split; [|done]. by eapply U.
  - destruct (tc_close s) as [|k|]; try done. case_bool_decide; [|done]. injection H as <-. split; [|done]. by exists p.
  - destruct (tp_open q), (tp_queue q); try done. injection H as <-. split; [|done]. by eapply U.
Qed.
Lemma topic_stuck i m s s' : (∃ p, tc_parts s !! i = Some p ∧ tp_hand p = Some m ∧ tp_run p = true) → length (tc_buf s) = tc_cap s → rtc unreceived s s' →
  ∃ p, tc_parts s' !! i = Some p ∧ tp_hand p = Some m ∧ tp_run p = true.
Proof.
  intros H1 H2 R. induction R as [s|s s1 s2 Hs R IH]; [done|]. destruct (stuck_step _ _ _ _ H1 H2 Hs). by apply IH.
Qed.
