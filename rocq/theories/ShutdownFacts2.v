(** Facts about closing consumers (C64): results. *)
From Verif Require Import Base Types Wire Kafka Feed SpecFeed Shutdown SpecShutdown ShutdownFacts.
#[local] Arguments put_out : simpl never.

Lemma close_no_panic up l s : rtc goes (close_init up l) s → length (s_calls s) ≤ 1 → ¬ close_step s None.
Proof.
  intros H%cinv_reach Hc E. inversion E; subst; clear E.
  - destruct (Forall_at _ _ _ _ (ci_closed _ _ _ H eq_refl) H0) as [_ Hh]. unfold in_hand in Hh. by rewrite H1 in Hh.
  - assert (He := proj1 (ci_end _ _ _ H) eq_refl). cbn in He. apply elem_of_list_lookup in He as [d Hd].
    assert (Hn := ci_count _ _ _ H). cbn in *. assert (Hf := filter_length (λ c, c ≠ CaQuit) ca).
    apply lookup_lt_Some in Hd as L1. apply lookup_lt_Some in H0 as L2. assert (c = d) by lia. congruence.
Qed.

Lemma close_handled up l s i x p : rtc goes (close_init up l) s → l !! i = Some x → s_parts s !! i = Some p →
  put_out i (s_done s ++ s_chan s) ++ in_hand p = g_got p ∧ g_got p `sublist_of` x.1 ∧ (s_closers s = [] → g_got p `prefix_of` x.1) ∧
  (up = true → s_loop s = false → put_out i (s_done s) = g_got p).
Proof.
  intros H%cinv_reach Hx Hp. destruct (ci_part _ _ _ H _ _ _ Hx Hp) as [A1 A2 A3 A4 A5].
  split; [done|]. split; [etrans; [|exact A3]; by apply sublist_inserts_r|]. split.
  - intros E. eexists. symmetry. apply A5. by apply (Forall_at _ _ _ _ (ci_none _ _ _ H E) Hp).
  - intros -> E. destruct (ci_down _ _ _ H E) as [|[E1 E2]]; [done|].
    destruct (Forall_at _ _ _ _ (ci_closed _ _ _ H E1) Hp) as [_ Hh]. by rewrite E2, Hh, !app_nil_r in A2.
Qed.

(** What does not change any more. *)
Lemma insert_pres {A} (P : A → Prop) l i x y : Forall P l → l !! i = Some x → P y → Forall P (<[i := y]> l).
Proof. intros. by apply Forall_insert. Qed.
Definition cfinal (s : cstate) : Prop := CaBack ∈ s_calls s → ended s.
Lemma begun_step s s' : begun s → goes s s' → begun s'.
Proof. unfold begun. intros H E. inversion E; subst; cbn in *; try done; apply Forall_insert; try done; cbn; try (by destruct (_ && _)); by apply (Forall_at _ _ _ _ H ltac:(eassumption)). Qed.
Lemma ended_step s s' : ended s → goes s s' → ended s' ∧ map g_got (s_parts s') = map g_got (s_parts s).
Proof.
  unfold ended. intros H E.
  assert (Hu : ∀ i p p', s_parts s !! i = Some p → g_got p' = g_got p → g_phase p' = GEnd →
    Forall (λ p, g_phase p = GEnd) (<[i := p']> (s_parts s)) ∧ map g_got (<[i := p']> (s_parts s)) = map g_got (s_parts s)).
  { intros i p p' Hp Hg He. split; [by apply Forall_insert|]. apply list_eq. intros j. rewrite !list_lookup_fmap.
    destruct (decide (i = j)) as [<-|Hne]; [|by rewrite list_lookup_insert_ne].
    rewrite list_lookup_insert by (by eapply lookup_lt_Some). rewrite Hp. cbn. by rewrite Hg. }
  assert (He : ∀ i p, s_parts s !! i = Some p → g_phase p = GEnd) by (intros i p Hp; by apply (Forall_at _ _ _ _ H Hp)).
  inversion E; subst; cbn [s_parts] in *; try done;
    match goal with Hp : ?ps !! ?i = Some ?p |- _ => assert (Hg := He _ _ Hp); try congruence; by apply (Hu _ _ _ Hp) end.
Qed.
Lemma cfinal_step s s' : begun s → cfinal s → goes s s' → cfinal s'.
Proof.
  intros Hb Hf E Hin. assert (Hcase : CaBack ∈ s_calls s ∨ ended s).
  { inversion E; subst; cbn in *; try (by left).
    - apply elem_of_app in Hin as [|Hin%elem_of_list_singleton]; [by left|done].
    - left. apply elem_of_list_lookup in Hin as [d Hd]. apply list_lookup_insert_Some in Hd as [(_ & Hd & _)|[_ Hd]]; [done|]. by eapply elem_of_list_lookup_2.
    - right. unfold ended, begun in *. cbn in *. apply Forall_forall. intros p Hp. rewrite Forall_forall in Hb.
      match goal with Hn : Forall (λ p, ¬ active p) _ |- _ => rewrite Forall_forall in Hn; specialize (Hn _ Hp) end.
      specialize (Hb _ Hp). unfold active in *. by destruct (g_phase p). }
  assert (He : ended s) by (destruct Hcase; auto). by apply (ended_step _ _ He E).
Qed.
Lemma close_returned up l s0 s : rtc goes (close_init up l) s0 → begun s0 → s_calls s0 = [] → rtc goes s0 s → CaBack ∈ s_calls s →
  ended s ∧ ∀ s', rtc goes s s' → map g_got (s_parts s') = map g_got (s_parts s).
Proof.
  intros _ Hb Hc Hr Hin. assert (Hf : cfinal s0) by (intros E; rewrite Hc in E; by apply elem_of_nil in E). clear Hc.
  assert (He : ended s). { induction Hr as [|a b c Hs _ IH]; [by apply Hf|]. apply IH; [by eapply begun_step|done|by eapply cfinal_step]. }
  split; [done|]. intros s' Hr'. clear -He Hr'. induction Hr' as [|a b c Hs _ IH]; [done|].
  destruct (ended_step _ _ He Hs) as [H1 H2]. rewrite IH; done.
Qed.

(** * It comes to an end *)
Definition phcost (p : gpart) : nat := match g_phase p with GNew => 2 | GNext => 1 | GWait _ => 4 | GHold _ => 3 | GEnd => 0 end.
Definition srccost (x : source) : nat := match x with SrcOpen => 2 | SrcDrain => 1 | SrcShut => 0 end.
Definition gcost (p : gpart) : nat := 4 * length (g_log p) + phcost p + srccost (g_src p).
Definition clocost (n : nat) (c : closer) : nat :=
  match c with CloPart k => 2 * (n - k) + 2 | CloDrain k => 2 * (n - k) + 1 | CloWait => 1 | CloEnd => 0 end.
Definition cacost (n : nat) (c : ccall) : nat := match c with CaQuit => 2 * n + 4 | CaWait => 1 | CaBack => 0 end.
Definition ccost (s : cstate) : nat :=
  let n := length (s_parts s) in
  sum_list_with gcost (s_parts s) + length (s_chan s) + sum_list_with (clocost n) (s_closers s) + sum_list_with (cacost n) (s_calls s) + (if s_loop s then 1 else 0).
Lemma sum_insert {A} (f : A → nat) l i x y : l !! i = Some x → sum_list_with f (<[i := y]> l) + f x = sum_list_with f l + f y.
Proof.
  intros H. rewrite (insert_take_drop _ _ _ (lookup_lt_Some _ _ _ H)). rewrite <- (take_drop_middle _ _ _ H) at 3.
  rewrite !sum_list_with_app. cbn. lia.
Qed.
Lemma ccost_step s s' : quietly s s' → ccost s' < ccost s.
Proof.
  intros [E Hl]. inversion E; subst; cbn in Hl; unfold ccost; cbn [s_parts s_chan s_closed s_done s_loop s_closers s_calls];
    rewrite ?insert_length, ?app_length, ?sum_list_with_app; cbn [length sum_list_with];
    repeat match goal with |- context [sum_list_with ?f (<[?i := ?y]> ?l)] =>
      match goal with Hx : l !! i = Some ?x |- _ => assert (Hi := sum_insert f l i x y Hx); revert Hi; generalize (sum_list_with f (<[i := y]> l)); intros ? Hi end end;
    unfold gcost, phcost in *; cbn [g_log g_src g_phase srccost clocost cacost] in *;
    repeat match goal with Hx : g_phase ?p = _ |- _ => rewrite Hx in * | Hx : g_log ?p = _ |- _ => rewrite Hx in * | Hx : g_src ?p = _ |- _ => rewrite Hx in * end;
    cbn [length srccost] in *; try lia.
  - destruct (_ && _); lia.
  - rewrite app_length in Hl. cbn in Hl. lia.
  - assert (Hj := sum_insert (clocost (length ps)) co c (CloPart k) (CloDrain k) ltac:(done)). cbn [clocost] in Hj. destruct (g_src p); cbn [srccost] in *; lia.
  - match goal with Hp : ps !! k = Some p |- _ => apply lookup_lt_Some in Hp end. lia.
Qed.
Lemma ccost_steps k s s' : nsteps quietly k s s' → k + ccost s' ≤ ccost s.
Proof. induction 1 as [|k a b c Hs _ IH]; [lia|]. apply ccost_step in Hs. lia. Qed.

Lemma awaited_step s s' : none_awaited s → goes s s' → none_awaited s'.
Proof.
  intros H E. assert (Hl : length (s_parts s') = length (s_parts s)) by (inversion E; subst; cbn; by rewrite ?insert_length).
  destruct H as [H|H]; [left|right; by rewrite Hl].
  assert (Hu : ∀ i p p', s_parts s !! i = Some p → (g_warm p = true → g_warm p' = true) →
    (∀ m, g_phase p = GWait m → at_barrier p') → Forall at_barrier (<[i := p']> (s_parts s))).
  { intros i p p' Hp Hw Hph. apply Forall_insert; [done|]. destruct (Forall_at _ _ _ _ H Hp) as [Ha|[m Ha]]; [left; auto|by eapply Hph]. }
  inversion E; subst; cbn [s_parts] in *; try done;
    match goal with Hp : ?ps !! ?i = Some ?p |- Forall at_barrier (<[?i := _]> ?ps) => apply (Hu _ _ _ Hp); cbn; [done|] end;
    intros x Hx; first [congruence|by left|by right; exists x].
Qed.

Lemma close_progress up l s : cinv up l s → up = true → none_awaited s → length (s_calls s) = 1 → (∀ s', ¬ quietly s s') →
  s_calls s = [CaBack] ∧ s_loop s = false.
Proof.
  intros H Hup Ha Hc Hno. destruct s as [ps ch cl dn lp co ca]. cbn [s_calls s_loop] in *.
  assert (Hst : ∀ s', goes (CS ps ch cl dn lp co ca) s' → length (s_calls s') = length ca → False) by (intros s' E1 E2; by apply (Hno s')). clear Hno.
  assert (Hpart : ∀ i p, ps !! i = Some p → ∃ x, l !! i = Some x ∧ part_ok (CS ps ch cl dn lp co ca) i x p).
  { intros i p Hp. destruct (lookup_lt_is_Some_2 l i) as [x Hx]; [rewrite <- (ci_len _ _ _ H); by eapply lookup_lt_Some|]. exists x. split; [done|]. by apply (ci_part _ _ _ H). }
  assert (Hq : CaQuit ∉ ca).
  { intros [j Hj]%elem_of_list_lookup. destruct lp.
    - eapply Hst; [eapply SQuit; eassumption|]. cbn. by rewrite insert_length.
    - destruct (ci_down _ _ _ H eq_refl) as [?|[Hcl _]]; [congruence|]. apply (ci_end _ _ _ H) in Hcl. cbn in Hcl.
      assert (Hn := ci_count _ _ _ H). cbn in Hn. destruct ca as [|c [|]]; [done| |done]. destruct j; [|done]. injection Hj as ->. cbn in Hn. destruct co; [by apply elem_of_nil in Hcl|done]. }
  assert (Hco : ∃ c, co = [c]).
  { assert (Hn := ci_count _ _ _ H). cbn in Hn. destruct ca as [|c [|]]; [done| |done]. rewrite filter_cons_True in Hn by (intros ->; apply Hq; left).
    destruct co as [|x [|]]; [done|by exists x|done]. }
  destruct Hco as [c ->]. assert (Hcok := Forall_at _ _ 0 _ (ci_closer _ _ _ H) eq_refl). cbn [s_parts] in Hcok.
  assert (Hclo : (c = CloWait ∨ c = CloEnd) ∧ Forall shut ps).
  { destruct c as [k|k| |]; [exfalso|exfalso|by auto|by auto].
    - destruct Hcok as [Hk _]. destruct (decide (k = length ps)) as [->|Hne]; [eapply Hst; [by apply (SAll _ _ _ _ _ _ _ 0)|done]|].
      destruct (lookup_lt_is_Some_2 ps k) as [q Hq']; [lia|]. eapply Hst; [by apply (SClose _ _ _ _ _ _ _ 0 k q)|done].
    - destruct Hcok as [_ (q & Hq' & Ho)]. destruct (g_src q) eqn:Eq; [done| |].
      + destruct (g_log q) eqn:Elq; [eapply Hst; [apply (SShut _ _ _ _ _ _ _ k q); assumption|done]|eapply Hst; [eapply (SDrop _ _ _ _ _ _ _ k q); eassumption|done]].
      + eapply Hst; [by apply (SClosed _ _ _ _ _ _ _ 0 k q)|done]. }
  destruct Hclo as [Hclo Hshut]. clear Hcok.
  assert (Hend : Forall (λ p, ¬ active p) ps).
  { apply Forall_forall. intros p [i Hp]%elem_of_list_lookup. destruct (Hpart _ _ Hp) as (x & Hx & Hok). unfold active.
    destruct (g_phase p) as [| |m|m|] eqn:Eph; [| | | |tauto]; exfalso.
    - eapply Hst; [eapply SBegin; eassumption|done].
    - assert (Hs := Forall_at _ _ _ _ Hshut Hp). eapply Hst; [eapply SOver; try eassumption|done]. by apply (po_shut _ _ _ _ Hok).
    - eapply Hst; [eapply SRelease; [eassumption|eassumption|]|done]. destruct Ha as [Ha|Ha]; [done|]. cbn in Ha. destruct ps as [|p' [|]]; [done| |done].
      destruct i; [|done]. injection Hp as ->. apply Forall_singleton. right. by exists m.
    - destruct cl.
      + destruct (Forall_at _ _ _ _ (ci_closed _ _ _ H eq_refl) Hp) as [_ Hh]. unfold in_hand in Hh. by rewrite Eph in Hh.
      + eapply Hst; [eapply SPut; eassumption|done]. }
  assert (Hcl : cl = true).
  { destruct cl; [done|exfalso]. destruct Hclo as [->| ->].
    - eapply Hst; [by apply (SFinish _ _ _ _ _ _ 0)|done].
    - assert (E := proj2 (ci_end _ _ _ H)). cbn in E. discriminate E. left. }
  subst cl. split.
  - destruct ca as [|a [|]]; [done| |done]. destruct a; [by exfalso; apply Hq; left| |done]. exfalso.
    eapply Hst; [by apply (SBack _ _ _ _ _ _ _ 0)|done].
  - destruct lp; [exfalso|done]. destruct ch as [|x ch]; [eapply Hst; [apply SLoopEnd|done]|eapply Hst; [apply STake|done]].
Qed.
Lemma close_ends l s : rtc goes (close_init true l) s → none_awaited s → length (s_calls s) = 1 →
  comes_to quietly s (λ s', s_calls s' = [CaBack] ∧ s_loop s' = false).
Proof.
  intros H%cinv_reach Ha Hc. exists (ccost s). intros k s' Hn. split; [apply ccost_steps in Hn; lia|].
  induction Hn as [s|k a b c Hs _ IH]; [by apply (close_progress true l)|]. destruct Hs as [Hs Hl].
  apply IH; [by eapply cinv_step|by eapply awaited_step|congruence].
Qed.

(** * A partition that is waited for in vain *)
Definition vain (s : cstate) : Prop := waits_in_vain s ∧ s_closed s = false ∧ CaBack ∉ s_calls s.
Lemma vain_step s s' : vain s → goes s s' → vain s' ∧ s_loop s' = s_loop s.
Proof.
  intros ((i & j & p & q & m & Hp & Hpp & Hq & Hqw & Hqp & Hql) & Hcl & Hcb) E.
  assert (Hact : ¬ Forall (λ p, ¬ active p) (s_parts s)).
  { intros Hf. assert (Hn := Forall_at _ _ _ _ Hf Hp). apply Hn. unfold active. by rewrite Hpp. }
  assert (Hbar : ¬ Forall at_barrier (s_parts s)).
  { intros Hf. destruct (Forall_at _ _ _ _ Hf Hq) as [?|[x Hx]]; [congruence|by apply (Hqp x)]. }
  assert (Hu : ∀ k r r', s_parts s !! k = Some r → (∀ x, g_phase r = GWait x → g_phase r' = GWait x) → g_warm r' = g_warm r → g_start r' = g_start r →
     (g_warm r = false → (∀ x, g_phase r ≠ GWait x) → Forall (λ x, fm_off x < g_start r)%Z (g_log r) → (∀ x, g_phase r' ≠ GWait x) ∧ Forall (λ x, fm_off x < g_start r)%Z (g_log r')) →
     ∃ i j p q m, <[k := r']> (s_parts s) !! i = Some p ∧ g_phase p = GWait m ∧ <[k := r']> (s_parts s) !! j = Some q ∧ g_warm q = false ∧ (∀ x, g_phase q ≠ GWait x) ∧
       Forall (λ x, fm_off x < g_start q)%Z (g_log q)).
  { intros k r r' Hr H1 H2 H3 H4. exists i, j.
    assert (A : ∃ p, <[k:=r']> (s_parts s) !! i = Some p ∧ g_phase p = GWait m).
    { destruct (decide (k = i)) as [->|]; [exists r'; rewrite list_lookup_insert by (by eapply lookup_lt_Some); split; [done|apply H1; congruence]|].
      exists p. by rewrite list_lookup_insert_ne. }
    assert (B : ∃ q, <[k:=r']> (s_parts s) !! j = Some q ∧ g_warm q = false ∧ (∀ x, g_phase q ≠ GWait x) ∧ Forall (λ x, fm_off x < g_start q)%Z (g_log q)).
    { destruct (decide (k = j)) as [->|]; [|exists q; by rewrite list_lookup_insert_ne]. rewrite Hq in Hr. injection Hr as <-.
      exists r'. rewrite list_lookup_insert by (by eapply lookup_lt_Some). destruct (H4 Hqw Hqp Hql) as [B1 B2]. rewrite H3, H2. done. }
    destruct A as (p1 & A1 & A2). destruct B as (q1 & B1 & B2). by exists p1, q1, m. }
  assert (Hsame : waits_in_vain s) by (by exists i, j, p, q, m). clear Hp Hpp Hq Hqw Hqp Hql.
  inversion E; subst; cbn [s_parts s_closed s_calls s_loop] in *; try done; split; try done; (split; [|split; [done|]]); try done; try exact Hsame; cbn [s_calls].
  3: match goal with Hp0 : ps !! i0 = Some p0 |- _ => apply (Hu _ _ _ Hp0); cbn; try done end.
  3: { intros x Hx. congruence. }
  2: match goal with Hp0 : ps !! i0 = Some p0 |- _ => apply (Hu _ _ _ Hp0); cbn; try done end.
  2: { intros x Hx. congruence. }
  2: { intros Hw _ Hf. match goal with Hl : g_log p0 = _ |- _ => rewrite Hl in Hf end. apply Forall_cons in Hf as [Hf1 Hf2]. split; [|done].
       intros x. rewrite bool_decide_eq_false_2 by lia. rewrite andb_false_r. done. }
  1: match goal with Hp0 : ps !! i0 = Some p0 |- _ => apply (Hu _ _ _ Hp0); cbn; try done end; intros x Hx; congruence.
  - match goal with Hp0 : ps !! i0 = Some p0 |- _ => apply (Hu _ _ _ Hp0); cbn; try done end; intros x Hx; congruence.
  - rewrite elem_of_app, elem_of_list_singleton. naive_solver.
  - intros [d Hd]%elem_of_list_lookup. apply list_lookup_insert_Some in Hd as [(_ & Hd & _)|[_ Hd]]; [done|]. apply Hcb. by eapply elem_of_list_lookup_2.
  - match goal with Hp0 : ps !! k = Some p0 |- _ => apply (Hu _ _ _ Hp0); cbn; done end.
  - match goal with Hp0 : ps !! i0 = Some p0 |- _ => apply (Hu _ _ _ Hp0); cbn; try done end. intros _ Hx Hf. split; [done|].
    match goal with Hl : g_log p0 = _ |- _ => rewrite Hl in Hf end. by apply Forall_cons in Hf as [_ Hf].
  - match goal with Hp0 : ps !! i0 = Some p0 |- _ => apply (Hu _ _ _ Hp0); cbn; try done end.
Qed.
Lemma close_vain s s' : waits_in_vain s → s_closed s = false → CaBack ∉ s_calls s → rtc goes s s' → CaBack ∉ s_calls s' ∧ s_loop s' = s_loop s.
Proof.
  intros H1 H2 H3 Hr. assert (Hv : vain s) by done. clear H1 H2 H3.
  induction Hr as [|a b c Hs _ IH]; [by destruct Hv as (_ & _ & ?)|].
  destruct (vain_step _ _ Hv Hs) as [Hb El]. destruct (IH Hb) as [H1 H2]. split; [done|congruence].
Qed.
Lemma close_failed l s : rtc goes (close_init false l) s → Forall (λ c, c = CaQuit) (s_calls s).
Proof.
  intros H%cinv_reach. assert (Hn := ci_count _ _ _ H). rewrite (ci_fail _ _ _ H eq_refl) in Hn. cbn [length] in Hn.
  apply Forall_forall. intros c Hc. destruct (decide (c = CaQuit)) as [|Hne]; [done|exfalso].
  assert (Hi : c ∈ filter (λ c, c ≠ CaQuit) (s_calls s)) by (by apply elem_of_list_filter).
  destruct (filter _ (s_calls s)); [by apply elem_of_nil in Hi|done].
Qed.

(** * Websocket *)
Record closing_ok (s : wlife) : Prop := ClosingOk {
  wk_quit : l_quit s = true;
  wk_nil : l_conn s ≠ ConnNil;
  wk_phase : l_phase s ≠ LDial;
  wk_open : l_phase s = LRead → l_conn s = ConnCur ∧ (l_open s = true → 0 < l_half s)
}.
Lemma closing_step s s' : closing_ok s → wgoes s s' → closing_ok s'.
Proof.
  intros [H1 H2 H3 H4] E. inversion E; subst; cbn in *; try done; constructor; cbn; try done.
  - intros Hp. destruct (H4 Hp) as [-> H]. split; [done|]. lia.
  - intros Hp. destruct (H4 Hp) as [-> H]. done.
Qed.
Lemma cur_reach s : rtc wgoes wlife_init s → l_phase s = LRead → l_conn s = ConnCur.
Proof.
  intros H. cut (∀ a, rtc wgoes a s → (l_phase a = LRead → l_conn a = ConnCur) → l_phase s = LRead → l_conn s = ConnCur). { intros Hc. by eapply Hc. }
  clear H. intros a. induction 1 as [|a b c E _ IH]; [done|]. intros Ha. apply IH. inversion E; subst; cbn in *; try done.
Qed.
Definition wcost (s : wlife) : nat := l_buf s + match l_phase s with LRead => 2 | LTop => 1 | _ => 0 end + l_half s.
Lemma ws_close s s' : rtc wgoes wlife_init s → l_phase s = LRead → l_quit s = true → 0 < l_half s → rtc wgoes s s' →
  ¬ wlife_step s' None ∧ l_phase s' ≠ LDial ∧
  (l_half s' = 0 → comes_to wquietly s' (λ s'', l_phase s'' = LOver) ∧
     ∀ s'', rtc wquietly s' s'' → l_read s'' ≤ l_read s' + l_buf s').
Proof.
  intros Hr Hp Hq Hh Hs. assert (Hk : closing_ok s).
  { constructor; [done| | |]. - rewrite (cur_reach _ Hr Hp). done. - by rewrite Hp. - intros _. split; [by apply cur_reach|done]. }
  assert (Hk' : closing_ok s'). { clear -Hk Hs. induction Hs as [|a b c E _ IH]; [done|]. by eapply IH, closing_step. }
  clear Hr Hp Hq Hh Hs Hk. split; [|split].
  - intros E. inversion E; subst. by destruct Hk'.
  - apply Hk'.
  - intros H0. assert (Hstep : ∀ a b, closing_ok a → l_half a = 0 → wquietly a b → l_half b = 0 ∧ wcost b < wcost a ∧ l_read b + l_buf b ≤ l_read a + l_buf a).
    { intros a b [K1 K2 K3 K4] Ha [E Hl]. unfold wcost. inversion E; subst; cbn in *; try done; try lia.
      - destruct K4 as [_ K4]; [done|]. specialize (K4 eq_refl). lia. }
    split.
    + exists (wcost s'). intros k s'' Hn. revert Hk' H0. induction Hn as [a|k a b c Hs _ IH]; intros Hk H0.
      * split; [lia|]. intros Hno. destruct a as [ph co op bu re qu ha]. destruct Hk as [K1 K2 K3 K4]. cbn in *. subst.
        destruct ph; [|done| |done]; exfalso.
        -- eapply Hno. split; [apply LQuit|done].
        -- destruct bu; eapply Hno; (split; [apply LError||apply LFrame|done]).
      * destruct (Hstep _ _ Hk H0 Hs) as (B1 & B2 & _). destruct (IH (closing_step _ _ Hk (proj1 Hs)) B1) as [B3 B4]. split; [lia|done].
    + intros s'' Hn. cut (l_read s'' + l_buf s'' ≤ l_read s' + l_buf s'); [lia|]. revert Hk' H0. induction Hn as [a|a b c Hs _ IH]; intros Hk H0; [lia|].
      destruct (Hstep _ _ Hk H0 Hs) as (B1 & _ & B2). specialize (IH (closing_step _ _ Hk (proj1 Hs)) B1). lia.
Qed.

(** A call for which there is no loop left. *)
Lemma close_late s s' j : s_loop s = false → s_calls s !! j = Some CaQuit → rtc goes s s' → s_calls s' !! j = Some CaQuit.
Proof.
  intros Hl Hj Hr. cut (s_loop s' = false ∧ s_calls s' !! j = Some CaQuit); [tauto|].
  induction Hr as [|a b c E _ IH]; [done|]. assert (Hb : s_loop b = false ∧ s_calls b !! j = Some CaQuit); [|by destruct Hb; apply IH].
  clear IH. inversion E; subst; cbn in *; try done.
  - split; [done|]. by apply lookup_app_l_Some.
  - split; [done|]. rewrite list_lookup_insert_ne; [done|]. congruence.
Qed.
