(** Facts about closing a Kafka consumer (C64). *)
From Verif Require Import Base Types Wire Kafka Feed SpecFeed Shutdown SpecShutdown.

#[local] Arguments put_out : simpl never.
Lemma put_out_app i a b : put_out i (a ++ b) = put_out i a ++ put_out i b.
Proof. unfold put_out. by rewrite filter_app, fmap_app. Qed.
Lemma put_out_same i m : put_out i [(i, m)] = [m].
Proof. unfold put_out. rewrite filter_cons_True by done. done. Qed.
Lemma put_out_other i j m : j ≠ i → put_out j [(i, m)] = [].
Proof. intros H. unfold put_out. rewrite filter_cons_False; [done|]. cbn. congruence. Qed.

#[global] Instance ccall_eq : EqDecision ccall. Proof. solve_decision. Defined.
#[global] Instance closer_eq : EqDecision closer. Proof. solve_decision. Defined.
Definition shut (p : gpart) : Prop := g_src p = SrcShut.
Definition shut_below (ps : list gpart) (k : nat) : Prop := ∀ i p, i < k → ps !! i = Some p → shut p.
Definition closer_ok (ps : list gpart) (c : closer) : Prop :=
  match c with
  | CloPart k => k ≤ length ps ∧ shut_below ps k
  | CloDrain k => shut_below ps k ∧ ∃ p, ps !! k = Some p ∧ g_src p ≠ SrcOpen
  | CloWait | CloEnd => Forall shut ps
  end.
Record part_ok (s : cstate) (i : nat) (x : list fmsg * Z) (p : gpart) : Prop := PartOk {
  po_start : g_start p = x.2;
  po_got : put_out i (s_done s ++ s_chan s) ++ in_hand p = g_got p;
  po_sub : (g_got p ++ g_log p) `sublist_of` x.1;
  po_shut : shut p → g_log p = [];
  po_open : g_src p = SrcOpen → g_got p ++ g_log p = x.1
}.
Record cinv (up : bool) (l : list (list fmsg * Z)) (s : cstate) : Prop := CInv {
  ci_len : length (s_parts s) = length l;
  ci_part : ∀ i x p, l !! i = Some x → s_parts s !! i = Some p → part_ok s i x p;
  ci_closed : s_closed s = true → Forall (λ p, shut p ∧ in_hand p = []) (s_parts s);
  ci_closer : Forall (closer_ok (s_parts s)) (s_closers s);
  ci_none : s_closers s = [] → Forall (λ p, g_src p = SrcOpen) (s_parts s);
  ci_count : length (s_closers s) = length (filter (λ c, c ≠ CaQuit) (s_calls s));
  ci_end : s_closed s = true ↔ CloEnd ∈ s_closers s;
  ci_up : s_loop s = true → up = true;
  ci_down : s_loop s = false → up = false ∨ (s_closed s = true ∧ s_chan s = []);
  ci_fail : up = false → s_closers s = []
}.

Lemma cinv_init up l : cinv up l (close_init up l).
Proof.
  constructor; cbn; try done.
  - by rewrite map_length.
  - intros i x p Hx Hp. rewrite list_lookup_fmap, Hx in Hp. injection Hp as <-. by constructor.
  - intros _. apply Forall_forall. intros p (x & -> & _)%elem_of_list_fmap. done.
  - split; [done|]. by intros ?%elem_of_nil.
  - intros ->. by left.
Qed.

Lemma Forall_at {A} (P : A → Prop) l i x : Forall P l → l !! i = Some x → P x.
Proof. intros H1 H2. eapply Forall_forall; [done|by eapply elem_of_list_lookup_2]. Qed.

(** A step that replaces one partition (and perhaps puts its message on the channel). *)
Lemma closer_mono ps i p p' c : ps !! i = Some p → (shut p → shut p') → (g_src p ≠ SrcOpen → g_src p' ≠ SrcOpen) →
  closer_ok ps c → closer_ok (<[i := p']> ps) c.
Proof.
  intros Hp H1 H2. assert (Hb : ∀ k, shut_below ps k → shut_below (<[i:=p']> ps) k).
  { intros k Hk j q Hj Hq. apply list_lookup_insert_Some in Hq as [(<- & <- & _)|[_ Hq]]; [by apply H1, (Hk i)|by apply (Hk j)]. }
  destruct c as [k|k| |]; cbn [closer_ok].
  - intros [Ha Hk]. rewrite insert_length. auto.
  - intros [Hk (q & Hq & Ho)]. split; [auto|]. destruct (decide (i = k)) as [->|Hne].
    + exists p'. split; [apply list_lookup_insert; by eapply lookup_lt_Some|]. apply H2. congruence.
    + exists q. by rewrite list_lookup_insert_ne.
  - intros Hf. apply Forall_insert; [done|]. apply H1. by eapply Forall_at.
  - intros Hf. apply Forall_insert; [done|]. apply H1. by eapply Forall_at.
Qed.

Lemma cinv_part up l s i p p' ch' :
  cinv up l s → s_parts s !! i = Some p →
  (∀ x, l !! i = Some x → part_ok s i x p → part_ok (CS (<[i := p']> (s_parts s)) ch' (s_closed s) (s_done s) (s_loop s) (s_closers s) (s_calls s)) i x p') →
  (shut p → shut p') → (g_src p ≠ SrcOpen → g_src p' ≠ SrcOpen) →
  (s_closed s = true → shut p → in_hand p = [] → in_hand p' = [] ∧ s_chan s = ch') →
  (g_src p = SrcOpen → s_closers s = [] → g_src p' = SrcOpen) →
  (∀ j, j ≠ i → put_out j ch' = put_out j (s_chan s)) →
  cinv up l (CS (<[i := p']> (s_parts s)) ch' (s_closed s) (s_done s) (s_loop s) (s_closers s) (s_calls s)).
Proof.
  intros [H1 H2 H3 H4 H5 H6 H7 H8 H9 H10] Hp Hpo Hs Ho Hc Hn Hch. constructor; cbn [s_parts s_chan s_closed s_done s_loop s_closers s_calls]; try done.
  - by rewrite insert_length.
  - intros j x q Hx Hq. apply list_lookup_insert_Some in Hq as [(<- & <- & _)|[Hne Hq]]; [by apply Hpo; auto|].
    destruct (H2 _ _ _ Hx Hq) as [A1 A2 A3 A4 A5]. constructor; try done. cbn. rewrite put_out_app, Hch by done. by rewrite <- put_out_app.
  - intros E. apply Forall_insert; [auto|]. destruct (Forall_at _ _ _ _ (H3 E) Hp) as [B1 B2]. destruct (Hc E B1 B2). auto.
  - eapply Forall_impl; [done|]. intros c. by eapply closer_mono.
  - intros E. apply Forall_insert; [auto|]. apply Hn; [|done]. by apply (Forall_at _ _ _ _ (H5 E) Hp).
  - intros E. destruct (H9 E) as [|[E1 E2]]; [by left|right]. split; [done|].
    destruct (Forall_at _ _ _ _ (H3 E1) Hp) as [B1 B2]. destruct (Hc E1 B1 B2) as [_ <-]. done.
Qed.

Lemma cinv_closers up l ps ch cl dn lp co ca c c0 c1 : cinv up l (CS ps ch cl dn lp co ca) → co !! c = Some c0 → c0 ≠ CloEnd → c1 ≠ CloEnd →
  closer_ok ps c1 → cinv up l (CS ps ch cl dn lp (<[c := c1]> co) ca).
Proof.
  intros [H1 H2 H3 H4 H5 H6 H7 H8 H9 H10] Hc Hn0 Hn1 Hok. constructor; cbn in *; try done.
  - intros i y p Hy Hp. destruct (H2 _ _ _ Hy Hp) as [A1 A2 A3 A4 A5]. by constructor.
  - by apply Forall_insert.
  - intros E%(f_equal length). rewrite insert_length in E. apply lookup_lt_Some in Hc. cbn in E. lia.
  - by rewrite insert_length.
  - rewrite H7. rewrite !elem_of_list_lookup. split; intros [d Hd].
    + exists d. rewrite list_lookup_insert_ne; [done|]. intros ->. rewrite Hc in Hd. by injection Hd as ->.
    + apply list_lookup_insert_Some in Hd as [(-> & -> & _)|[_ Hd]]; [done|by exists d].
  - intros Hu. rewrite (H10 Hu) in Hc. done.
Qed.

Lemma count_quit ca j : ca !! j = Some CaQuit →
  length (filter (λ c, c ≠ CaQuit) (<[j := CaWait]> ca)) = length (filter (λ c, c ≠ CaQuit) ca) + 1.
Proof.
  intros H. rewrite (insert_take_drop _ _ _ (lookup_lt_Some _ _ _ H)). rewrite <- (take_drop_middle _ _ _ H) at 3.
  rewrite !filter_app, !app_length. rewrite filter_cons_True by done. rewrite filter_cons_False by auto. cbn. lia.
Qed.
Lemma count_back ca j : ca !! j = Some CaWait →
  length (filter (λ c, c ≠ CaQuit) (<[j := CaBack]> ca)) = length (filter (λ c, c ≠ CaQuit) ca).
Proof.
  intros H. rewrite (insert_take_drop _ _ _ (lookup_lt_Some _ _ _ H)). rewrite <- (take_drop_middle _ _ _ H) at 3.
  rewrite !filter_app, !app_length. rewrite !filter_cons_True by done. done.
Qed.

Lemma cinv_step up l s s' : cinv up l s → goes s s' → cinv up l s'.
Proof.
  intros H E. unfold goes in E. inversion E; subst; clear E.
  - (* SBegin *) rename H1 into H0, H3 into H1. eapply (cinv_part up l (CS ps ch cl dn lp co ca) i p); [exact H|done| | | | | |]; try done.
    + intros x _ [A1 A2 A3 A4 A5]. constructor; try done. cbn in *. unfold in_hand in A2 |- *. cbn. rewrite H1 in A2. exact A2.
  - (* SRecv *) rename H1 into H0, H2 into H1, H4 into H2. eapply (cinv_part up l (CS ps ch cl dn lp co ca) i p); [exact H|done| | | | | |]; try done.
    + intros x _ [A1 A2 A3 A4 A5]. constructor; cbn in *; try done.
      * unfold in_hand in A2 |- *. cbn. rewrite H1, app_nil_r in A2. rewrite A2. by destruct (_ && _).
      * rewrite H2 in A3. by rewrite <- app_assoc.
      * intros Hs. rewrite (A4 Hs) in H2. done.
      * intros Ho. rewrite <- app_assoc. cbn. rewrite <- H2. auto.
    + cbn. intros Hc Hs _. exfalso. destruct (lookup_lt_is_Some_2 l i) as [x Hx].
      { rewrite <- (ci_len _ _ _ H). by eapply lookup_lt_Some. }
      rewrite (po_shut _ _ _ _ (ci_part _ _ _ H _ _ _ Hx H0) Hs) in H2. done.
  - (* SRelease *) rename H1 into H0, H2 into H1, H4 into H2. eapply (cinv_part up l (CS ps ch cl dn lp co ca) i p); [exact H|done| | | | | |]; try done.
    + intros x _ [A1 A2 A3 A4 A5]. constructor; try done. cbn in *. unfold in_hand in A2 |- *. cbn. rewrite H1 in A2. exact A2.
    + cbn. intros _ _ Hh. unfold in_hand in Hh. by rewrite H1 in Hh.
  - (* SPut *) rename H1 into H0, H3 into H1. eapply (cinv_part up l (CS ps ch false dn lp co ca) i p); [exact H|done| | | | | |]; try done.
    + intros x _ [A1 A2 A3 A4 A5]. constructor; try done. cbn in *. unfold in_hand in A2 |- *. cbn. rewrite H1 in A2.
      rewrite app_assoc, put_out_app, put_out_same, app_nil_r. done.
    + intros j Hj. cbn. rewrite put_out_app, put_out_other, app_nil_r by done. done.
  - (* SOver *) rename H1 into H0, H2 into H1, H3 into H2, H5 into H3. eapply (cinv_part up l (CS ps ch cl dn lp co ca) i p); [exact H|done| | | | | |]; try done.
    + intros x _ [A1 A2 A3 A4 A5]. constructor; try done. cbn in *. unfold in_hand in A2 |- *. cbn. rewrite H1 in A2. exact A2.
  - (* STake *) destruct H as [H1 H2 H3 H4 H5 H6 H7 H8 H9 H10]. constructor; cbn in *; try done.
    intros i y p Hy Hp. destruct (H2 _ _ _ Hy Hp) as [A1 A2 A3 A4 A5]. constructor; try done. cbn in *. rewrite <- app_assoc. exact A2.
  - (* SLoopEnd *) destruct H as [H1 H2 H3 H4 H5 H6 H7 H8 H9 H10]. constructor; cbn in *; try done; [|by right].
    intros i y p Hy Hp. destruct (H2 _ _ _ Hy Hp) as [A1 A2 A3 A4 A5]. by constructor.
  - (* SCall *) destruct H as [H1 H2 H3 H4 H5 H6 H7 H8 H9 H10]. constructor; cbn in *; try done.
    + intros i y p Hy Hp. destruct (H2 _ _ _ Hy Hp) as [A1 A2 A3 A4 A5]. by constructor.
    + rewrite filter_app, filter_cons_False, app_nil_r by auto. done.
  - (* SQuit *) rename H2 into H0. destruct H as [H1 H2 H3 H4 H5 H6 H7 H8 H9 H10]. constructor; cbn in *; try done.
    + intros i y p Hy Hp. destruct (H2 _ _ _ Hy Hp) as [A1 A2 A3 A4 A5]. by constructor.
    + apply Forall_app. split; [done|]. apply Forall_singleton. split; [lia|]. intros i p Hi. lia.
    + intros ?%app_eq_nil. naive_solver.
    + rewrite app_length. cbn [length]. rewrite H6. by rewrite count_quit.
    + rewrite elem_of_app, elem_of_list_singleton. rewrite H7. naive_solver.
    + intros Hu. rewrite H8 in Hu by done. done.
  - (* SClose *) rename H1 into H0, H3 into H1. set (p' := GP (g_log p) _ _ _ _ _). eapply (cinv_closers _ _ _ _ _ _ _ _ _ _ (CloPart k)); [|done|done|done|].
    + eapply (cinv_part up l (CS ps ch cl dn lp co ca) k p p'); [exact H|done| | | | | |]; try done.
      * intros x _ [A1 A2 A3 A4 A5]. unfold p'. constructor; try done; cbn in *; unfold shut in *; cbn; by destruct (g_src p).
      * unfold p', shut. cbn. by destruct (g_src p).
      * unfold p', shut. cbn. by destruct (g_src p).
      * cbn. intros _ E. by rewrite E in H0.
    + assert (Hk := Forall_at _ _ _ _ (ci_closer _ _ _ H) H0). destruct Hk as [_ Hk]. split.
      * intros j q Hj Hq. rewrite list_lookup_insert_ne in Hq by lia. by apply (Hk j).
      * exists p'. split; [apply list_lookup_insert; by eapply lookup_lt_Some|]. unfold p'. cbn. by destruct (g_src p).
  - (* SDrop *) rename H1 into H0, H2 into H1, H4 into H2. eapply (cinv_part up l (CS ps ch cl dn lp co ca) i p); [exact H|done| | | | | |]; try done.
    + intros x _ [A1 A2 A3 A4 A5]. constructor; try done. cbn in *. rewrite H2 in A3. etrans; [|exact A3]. apply sublist_app; [done|by constructor].
    + unfold shut. rewrite H1. done.
    + rewrite H1. done.
  - (* SShut *) rename H1 into H0, H2 into H1, H4 into H2. eapply (cinv_part up l (CS ps ch cl dn lp co ca) i p); [exact H|done| | | | | |]; try done.
    + intros x _ [A1 A2 A3 A4 A5]. constructor; try done. cbn in *. by rewrite H2 in A3.
    + rewrite H1. done.
  - (* SClosed *) rename H1 into H0, H2 into H1, H4 into H2. eapply (cinv_closers _ _ _ _ _ _ _ _ _ _ (CloDrain k)); [done|done|done|done|].
    destruct (Forall_at _ _ _ _ (ci_closer _ _ _ H) H0) as [Hk _]. split; [by eapply lookup_lt_Some|].
    intros j q Hj Hq. destruct (decide (j = k)) as [->|]; [unfold shut; congruence|apply (Hk j); [lia|done]].
  - (* SAll *) rename H2 into H0. eapply (cinv_closers _ _ _ _ _ _ _ _ _ _ (CloPart (length ps))); [done|done|done|done|].
    destruct (Forall_at _ _ _ _ (ci_closer _ _ _ H) H0) as [_ Hk]. apply Forall_forall. intros p [j Hj]%elem_of_list_lookup.
    apply (Hk j); [by eapply lookup_lt_Some|done].
  - (* SFinish *) rename H1 into H0, H3 into H1. assert (Hsh := Forall_at _ _ _ _ (ci_closer _ _ _ H) H0). cbn in Hsh.
    assert (Hidle : Forall (λ p, shut p ∧ in_hand p = []) ps).
    { apply Forall_forall. intros p Hp. rewrite Forall_forall in Hsh, H1. split; [auto|]. specialize (H1 _ Hp). unfold active, in_hand in *. by destruct (g_phase p). }
    destruct H as [I1 I2 I3 I4 I5 I6 I7 I8 I9 I10]. constructor; cbn in *; try done.
    + intros i y p Hy Hp. destruct (I2 _ _ _ Hy Hp) as [A1 A2 A3 A4 A5]. by constructor.
    + apply Forall_insert; [done|exact Hsh].
    + intros E%(f_equal length). rewrite insert_length in E. apply lookup_lt_Some in H0. cbn in E. lia.
    + by rewrite insert_length.
    + split; [|done]. intros _. apply elem_of_list_lookup. exists c. apply list_lookup_insert. by eapply lookup_lt_Some.
    + intros Hl. destruct (I9 Hl) as [|[? _]]; [by left|done].
    + intros Hu. rewrite (I10 Hu) in H0. done.
  - (* SBack *) rename H1 into H0, H3 into H1. destruct H as [I1 I2 I3 I4 I5 I6 I7 I8 I9 I10]. constructor; cbn in *; try done.
    + intros i y p Hy Hp. destruct (I2 _ _ _ Hy Hp) as [A1 A2 A3 A4 A5]. by constructor.
    + rewrite I6. by rewrite count_back.
Qed.
Lemma cinv_reach up l s : rtc goes (close_init up l) s → cinv up l s.
Proof.
  intros H. cut (∀ a, rtc goes a s → cinv up l a → cinv up l s). { intros Hc. by eapply Hc, cinv_init. }
  clear H. intros a. induction 1 as [|a b c Hs _ IH]; [done|]. intros Ha. by eapply IH, cinv_step.
Qed.
