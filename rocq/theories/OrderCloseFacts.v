(** Proofs for C76. *)
From Verif Require Import Base Types Ordering SpecPipeline OrderClose SpecOrderClose.

Definition busy (p : lpos) : list omp_input := match p with LBusy x => [x] | _ => [] end.
Definition chan (k : bool) (s : oloop) : list omp_input := if k then l_notices s else l_batches s.
Record linv (s : oloop) (h : list lact) : Prop := {
  li_flow : ∀ k, of_kind k (l_done s ++ busy (l_at s)) ++ chan k s = of_kind k (sends h);
  li_cap : ∀ k, length (chan k s) ≤ chan_cap;
  li_blocked : ∀ t, l_at s = LBlocked t → l_batches s = [] ∧ l_notices s = [];
  li_gone : l_at s = LGone ↔ ∃ i, l_close s !! i = Some KStopped;
  li_once : ∀ i j, l_close s !! i = Some KStopped → l_close s !! j = Some KStopped → i = j }.

Lemma of_kind_app k l l' : of_kind k (l ++ l') = of_kind k l ++ of_kind k l'.
Proof. apply filter_app. Qed.
Lemma of_kind_one k x : of_kind k [x] = if bool_decide (is_notice x = k) then [x] else [].
Proof. unfold of_kind. rewrite filter_cons. case_bool_decide as H; [by rewrite decide_True|by rewrite decide_False]. Qed.
Lemma head_kind k x r : of_kind k (x :: r) = x :: r → is_notice x = k.
Proof. intros H. assert (E : x ∈ of_kind k (x :: r)) by (rewrite H; left). by apply elem_of_list_filter in E as [E _]. Qed.
Lemma sends_app l l' : sends (l ++ l') = sends l ++ sends l'.
Proof. apply omap_app. Qed.
Lemma chan_kind s h k : linv s h → of_kind k (chan k s) = chan k s.
Proof.
  intros I. assert (F := li_flow _ _ I k). assert (G : of_kind k (of_kind k (l_done s ++ busy (l_at s)) ++ chan k s) = of_kind k (of_kind k (sends h))) by (by rewrite F).
  assert (Id : ∀ l, of_kind k (of_kind k l) = of_kind k l).
  { intros l. unfold of_kind. rewrite list_filter_filter. apply list_filter_iff. intros x. tauto. }
  rewrite of_kind_app, !Id, <- F in G. by apply app_inv_head in G.
Qed.
Lemma l_run_app s l l' : l_run s (l ++ l') = s1 ← l_run s l; l_run s1 l'.
Proof. revert s. induction l as [|a l IH]; intros s; [done|]. cbn. destruct (l_step a s); [apply IH|done]. Qed.
Lemma l_run_snoc s l a s' : l_run s (l ++ [a]) = Some s' ↔ ∃ s1, l_run s l = Some s1 ∧ l_step a s1 = Some s'.
Proof.
  rewrite l_run_app. destruct (l_run s l) as [s1|]; cbn; [|by split; [|intros (? & ? & ?)]]. destruct (l_step a s1) as [s2|] eqn:E; cbn.
  - split; [intros [= <-]; eauto|]. intros (? & [= <-] & ?). congruence.
  - split; [done|]. intros (? & [= <-] & ?). congruence.
Qed.
Lemma existsb_waiting cs : existsb is_waiting cs = true ↔ ∃ i t, cs !! i = Some (KWait t).
Proof.
  rewrite existsb_exists. split.
  - intros (c & Hc & Hw). apply elem_of_list_In, elem_of_list_lookup in Hc as [i Hi]. destruct c; try done. eauto.
  - intros (i & t & Hi). exists (KWait t). split; [|done]. apply elem_of_list_In. by eapply elem_of_list_lookup_2.
Qed.

Lemma linv_step a s s' h : linv s h → l_step a s = Some s' → linv s' (h ++ [a]).
Proof.
  intros I H. destruct s as [now bs ns p dn cs]. destruct I as [F C B G U]. cbn [l_done l_at l_batches l_notices l_close] in *. cbn [l_step] in H.
  assert (S0 : (∀ x, a ≠ XSend x) → sends (h ++ [a]) = sends h) by (intros Ha; rewrite sends_app; destruct a; cbn; rewrite ?app_nil_r; try done; by destruct (Ha x)).
  destruct a as [dt|x|b| | | |i| | |i].
  - injection H as <-. rewrite <- (S0 ltac:(done)) in F. by split.
  - assert (S1 : ∀ k, of_kind k (sends (h ++ [XSend x])) = of_kind k (sends h) ++ of_kind k [x]) by (intros k; by rewrite sends_app, of_kind_app). clear S0.
    destruct p as [t|t| |y|]; [| | | |done].
    2: shelve.
    all: destruct (is_notice x) eqn:Ex; (case_bool_decide as Hlt; [|done]); injection H as <-; (split;
      [intros k; rewrite S1, <- F, <- app_assoc, of_kind_one, Ex; f_equal; by destruct k; cbn; rewrite ?app_nil_r
      |intros k; specialize (C k); destruct k; cbn in *; rewrite ?app_length; cbn; lia
      |intros t' Ht; discriminate Ht|exact G|exact U]).
    Unshelve.
    injection H as <-. destruct (B t eq_refl) as [-> ->]. split; try done.
    + intros k. rewrite S1, <- F. cbn [l_done l_at busy chan l_batches l_notices]. rewrite app_nil_r, of_kind_app. by destruct k; cbn; rewrite !app_nil_r.
    + cbn [l_close l_at]. split; [done|]. intros Hx. by apply G in Hx.
  - rewrite <- (S0 ltac:(done)) in F. destruct p as [t|t| |y|]; try done. destruct b.
    + destruct ns as [|x r]; [done|]. injection H as <-. assert (I : linv (OL now bs (x :: r) (LEnter t) dn cs) (h ++ [XTake true])) by (by split).
      assert (K := chan_kind _ _ true I). assert (Ex : is_notice x = true) by (exact (head_kind _ _ _ K)).
      split; try done.
      * intros k. rewrite <- F. cbn [l_done l_at busy chan l_batches l_notices]. rewrite app_nil_r, of_kind_app, of_kind_one, Ex. destruct k; cbn; rewrite <- ?app_assoc; cbn; by rewrite ?app_nil_r.
      * intros k. specialize (C k). destruct k; cbn in *; lia.
      * cbn [l_close l_at]. split; [done|]. intros Hx. by apply G in Hx.
    + destruct bs as [|x r]; [done|]. injection H as <-. assert (I : linv (OL now (x :: r) ns (LEnter t) dn cs) (h ++ [XTake false])) by (by split).
      assert (K := chan_kind _ _ false I). assert (Ex : is_notice x = false) by (exact (head_kind _ _ _ K)).
      split; try done.
      * intros k. rewrite <- F. cbn [l_done l_at busy chan l_batches l_notices]. rewrite app_nil_r, of_kind_app, of_kind_one, Ex. destruct k; cbn; rewrite <- ?app_assoc; cbn; by rewrite ?app_nil_r.
      * intros k. specialize (C k). destruct k; cbn in *; lia.
      * cbn [l_close l_at]. split; [done|]. intros Hx. by apply G in Hx.
  - rewrite <- (S0 ltac:(done)) in F. destruct p as [t|t| |y|]; try done. destruct bs; [|done]. destruct ns; [|done]. case_bool_decide; [|done]. injection H as <-.
    split; try done. cbn [l_close l_at]. split; [done|]. intros Hx. by apply G in Hx.
  - rewrite <- (S0 ltac:(done)) in F. destruct p as [t|t| |y|]; try done; (case_bool_decide; [|done]); injection H as <-.
    all: split; try done; cbn [l_close l_at]; split; [done|]; intros Hx; by apply G in Hx.
  - rewrite <- (S0 ltac:(done)) in F. destruct p as [t|t| |y|]; try done. injection H as <-. split; try done.
    + intros k. rewrite <- F. cbn [l_done l_at busy chan l_batches l_notices]. by rewrite app_nil_r.
    + cbn [l_close l_at]. split; [done|]. intros Hx. by apply G in Hx.
  - rewrite <- (S0 ltac:(done)) in F. destruct p as [t|t| |y|]; try done. destruct (cs !! i) as [[t| |]|] eqn:Ei; try done. injection H as <-.
    assert (Hlt : i < length cs) by (by eapply lookup_lt_Some). split; try done.
    + cbn [l_close l_at]. split; [|done]. intros _. exists i. by rewrite list_lookup_insert.
    + cbn [l_close]. assert (Z : ∀ j, <[i := KStopped]> cs !! j = Some KStopped → j = i).
      { intros j Hj. destruct (decide (i = j)) as [->|Hn]; [done|]. rewrite list_lookup_insert_ne in Hj by done. exfalso. assert (LPoll = LGone) by (apply G; eauto). done. }
      intros j k Hj%Z Hk%Z. congruence.
  - rewrite <- (S0 ltac:(done)) in F. destruct p as [t|t| |y|]; try done. destruct (existsb is_waiting cs); [done|]. injection H as <-. split; try done.
    cbn [l_close l_at]. split; [done|]. intros Hx. by apply G in Hx.
  - rewrite <- (S0 ltac:(done)) in F. injection H as <-.
    assert (Z : ∀ i, (cs ++ [KWait now]) !! i = Some KStopped ↔ cs !! i = Some KStopped).
    { intros i. rewrite lookup_app_Some. split; [|by left]. intros [?|[_ Hx]]; [done|]. by apply list_lookup_singleton_Some in Hx as [_ Hx]. }
    split; try done.
    + cbn [l_close l_at]. rewrite G. split; intros [i Hi]; exists i; by apply Z.
    + cbn [l_close]. intros i j Hi%Z Hj%Z. by apply U.
  - rewrite <- (S0 ltac:(done)) in F. destruct (cs !! i) as [[t| |]|] eqn:Ei; try done. case_bool_decide; [|done]. injection H as <-.
    assert (Z : ∀ j, <[i := KWarned]> cs !! j = Some KStopped ↔ cs !! j = Some KStopped).
    { intros j. destruct (decide (i = j)) as [->|Hn]; [|by rewrite list_lookup_insert_ne]. rewrite list_lookup_insert by (by eapply lookup_lt_Some). rewrite Ei. done. }
    split; try done.
    + cbn [l_close l_at]. rewrite G. split; intros [j Hj]; exists j; by apply Z.
    + cbn [l_close]. intros j k Hj%Z Hk%Z. by apply U.
Qed.
Lemma linv_new now : linv (ol_new now) [].
Proof.
  split; try done.
  - by intros [].
  - intros []; cbn; lia.
  - cbn. split; [done|]. by intros [i Hi].
Qed.
Lemma linv_run now l s : l_run (ol_new now) l = Some s → linv s l.
Proof.
  revert s. induction l as [|a l IH] using rev_ind; intros s H; [injection H as <-; apply linv_new|].
  apply l_run_snoc in H as (s1 & H1 & H2). eapply linv_step; [by apply IH|done].
Qed.

(** * In order, nothing twice; complete until the end *)
Lemma close_flow now l s : l_run (ol_new now) l = Some s →
  (∀ k, of_kind k (l_done s) `prefix_of` of_kind k (sends l)) ∧
  (l_batches s = [] → l_notices s = [] → (∀ x, l_at s ≠ LBusy x) → ∀ k, of_kind k (l_done s) = of_kind k (sends l)) ∧
  length (l_batches s) ≤ 100 ∧ length (l_notices s) ≤ 100.
Proof.
  intros H. assert (I := linv_run _ _ _ H). split; [|split].
  - intros k. rewrite <- (li_flow _ _ I k), of_kind_app, <- app_assoc. by apply prefix_app_r.
  - intros E1 E2 Hb k. rewrite <- (li_flow _ _ I k). unfold chan. rewrite E1, E2. destruct (l_at s) eqn:E; cbn; destruct k; rewrite ?app_nil_r; try done; by destruct (Hb x).
  - split; [apply (li_cap _ _ I false)|apply (li_cap _ _ I true)].
Qed.

(** * After the end *)
Lemma gone_step a s s' : l_at s = LGone → l_step a s = Some s' → l_at s' = LGone ∧ l_done s' = l_done s ∧ (∀ x, a ≠ XSend x) ∧
  (∀ i, l_close s' !! i = Some KStopped → l_close s !! i = Some KStopped).
Proof.
  intros Hg H. destruct s as [now bs ns p dn cs]. cbn [l_at] in Hg. subst p. destruct a as [dt|x|b| | | |i| | |i]; cbn [l_step] in H; try done.
  - by injection H as <-.
  - injection H as <-. split; [done|]. split; [done|]. split; [done|]. cbn. intros i Hi. apply lookup_app_Some in Hi as [?|[_ Hi]]; [done|]. by apply list_lookup_singleton_Some in Hi as [_ ?].
  - destruct (cs !! i) as [[t| |]|] eqn:Ei; try done. case_bool_decide; [|done]. injection H as <-. split; [done|]. split; [done|]. split; [done|]. cbn. intros j Hj.
    destruct (decide (i = j)) as [->|Hn]; [|by rewrite list_lookup_insert_ne in Hj]. by rewrite list_lookup_insert in Hj by (by eapply lookup_lt_Some).
Qed.
Lemma gone_run l s s' : l_at s = LGone → l_run s l = Some s' → l_at s' = LGone ∧ l_done s' = l_done s ∧ sends l = [] ∧
  (∀ i, l_close s' !! i = Some KStopped → l_close s !! i = Some KStopped).
Proof.
  revert s. induction l as [|a l IH]; intros s Hg H; [by injection H as <-|]. cbn in H. destruct (l_step a s) as [s1|] eqn:E; [|done]. cbn in H.
  destruct (gone_step _ _ _ Hg E) as (G1 & G2 & G3 & G4). destruct (IH _ G1 H) as (J1 & J2 & J3 & J4). split; [done|]. split; [congruence|]. split.
  - destruct a; try done. by destruct (G3 x).
  - intros i Hi. by apply G4, J4.
Qed.
Lemma close_once now l s i : l_run (ol_new now) l = Some s → l_close s !! i = Some KStopped →
  l_at s = LGone ∧ ∀ l' s', l_run s l' = Some s' → l_done s' = l_done s ∧ sends l' = [] ∧ ∀ j, l_close s' !! j = Some KStopped → j = i.
Proof.
  intros H Hi. assert (I := linv_run _ _ _ H). assert (Hg : l_at s = LGone) by (apply (li_gone _ _ I); eauto). split; [done|].
  intros l' s' Hr. destruct (gone_run _ _ _ Hg Hr) as (_ & J2 & J3 & J4). split; [done|]. split; [done|]. intros j Hj%J4. by eapply (li_once _ _ I).
Qed.

(** * Promptness *)
Definition idle (s : oloop) : Prop := l_batches s = [] ∧ l_notices s = [].
Definition pinv (b f : bool) (s : oloop) : Prop :=
  (b = true → ∃ t, l_at s = LBlocked t) ∧ (∀ t, l_at s = LBlocked t → idle s) ∧ (l_at s = LPoll → f = true ∧ idle s) ∧ (l_at s = LGone → idle s).
Lemma prompt_run l : ∀ b f s s', pinv b f s → prompt b f l → l_run s l = Some s' → l_at s' = LGone → idle s'.
Proof.
  induction l as [|a l IH]; intros b f s s' (J1 & J2 & J3 & J4) Hp H Hg; [injection H as <-; by apply J4|].
  cbn in H. destruct (l_step a s) as [s1|] eqn:E; [|done]. cbn in H. destruct s as [now bs ns p dn cs]. unfold idle in *. cbn [l_at l_batches l_notices] in *.
  destruct a as [dt|x|k| | | |i| | |i]; cbn [prompt] in Hp; cbn [l_step] in E.
  - injection E as <-. eapply IH; [|exact Hp|exact H|done]. done.
  - destruct Hp as [-> Hp]. assert (Hn : p ≠ LPoll) by (intros ->; by destruct (J3 eq_refl)).
    destruct p as [t|t| |y|]; [| |done| |done].
    + destruct (is_notice x); (case_bool_decide; [|done]); injection E as <-; (eapply IH; [|exact Hp|exact H|done]); done.
    + injection E as <-. eapply IH; [|exact Hp|exact H|done]. done.
    + destruct (is_notice x); (case_bool_decide; [|done]); injection E as <-; (eapply IH; [|exact Hp|exact H|done]); done.
  - destruct p as [t|t| |y|]; try done. destruct k; [destruct ns; [done|]|destruct bs; [done|]]; injection E as <-; (eapply IH; [|exact Hp|exact H|done]); done.
  - destruct p as [t|t| |y|]; try done. destruct bs, ns; try done. case_bool_decide; [|done]. injection E as <-. eapply IH; [|exact Hp|exact H|done].
    split; [by exists t|]. done.
  - destruct Hp as [-> Hp]. destruct (J1 eq_refl) as [t ->]. case_bool_decide; [|done]. injection E as <-. eapply IH; [|exact Hp|exact H|done].
    split; [done|]. split; [done|]. split; [|done]. intros _. split; [done|]. by apply (J2 t).
  - destruct p as [t|t| |y|]; try done. injection E as <-. eapply IH; [|exact Hp|exact H|done]. done.
  - destruct p as [t|t| |y|]; try done. destruct (cs !! i) as [[]|]; try done. injection E as <-. eapply IH; [|exact Hp|exact H|done].
    split; [done|]. split; [done|]. split; [done|]. intros _. by apply J3.
  - destruct p as [t|t| |y|]; try done. destruct (existsb is_waiting cs); [done|]. injection E as <-. eapply IH; [|exact Hp|exact H|done]. done.
  - injection E as <-. eapply IH; [|exact Hp|exact H|done]. done.
  - destruct (cs !! i) as [[]|]; try done. case_bool_decide; [|done]. injection E as <-. eapply IH; [|exact Hp|exact H|done]. done.
Qed.
Lemma close_complete now l s : l_run (ol_new now) l = Some s → prompt false false l → l_at s = LGone → ∀ k, of_kind k (l_done s) = of_kind k (sends l).
Proof.
  intros H Hp Hg. destruct (close_flow _ _ _ H) as (_ & C & _). assert (J : idle s) by (eapply prompt_run; [|exact Hp|exact H|done]; done).
  destruct J as [J1 J2]. apply C; [done|done|]. by rewrite Hg.
Qed.

(** * Calm *)
Lemma inevitable_inv {S} (step : S → S → Prop) (P I : S → Prop) (m : S → nat) :
  (∀ s, I s → P s ∨ ((∃ s', step s s') ∧ ∀ s', step s s' → I s' ∧ m s' < m s)) → ∀ s, I s → inevitably step P s.
Proof.
  intros Hp s. remember (m s) as n eqn:En. revert s En. induction (lt_wf n) as [n _ IH]. intros s -> Hs.
  destruct (Hp s Hs) as [?|[Hex Hall]]; [by apply inev_now|]. apply inev_later; [done|]. intros s' Hst. destruct (Hall s' Hst). by eapply IH.
Qed.
Lemma timer_past now l s t : l_run (ol_new now) l = Some s → l_at s = LEnter t ∨ l_at s = LBlocked t → (t <= l_now s)%Z.
Proof.
  intros H. assert (P : ∀ t, l_at s = LEnter t ∨ l_at s = LBlocked t → (t <= l_now s)%Z); [|exact (P t)]. clear t. revert s H.
  induction l as [|a l IH] using rev_ind; intros s H; [injection H as <-; cbn; intros t [[= <-]|[=]]; lia|].
  apply l_run_snoc in H as (s1 & H1 & E). specialize (IH _ H1). clear H1. destruct s1 as [now' bs ns p dn cs]. cbn [l_at l_now] in IH.
  destruct a as [dt|x|k| | | |i| | |i]; cbn [l_step] in E.
  - injection E as <-. cbn. intros t Ht. specialize (IH t Ht). lia.
  - destruct p as [t|t| |y|]; try done; repeat case_match; simplify_eq; cbn; try done; by intros t' [|].
  - destruct p; try done. repeat case_match; simplify_eq; cbn; by intros t' [|].
  - destruct p as [t|t| |y|]; try done. destruct bs, ns; try done. case_bool_decide; [|done]. injection E as <-. cbn. intros t' [[=]|[= <-]]. apply IH. by left.
  - destruct p; try done; (case_bool_decide; [|done]); injection E as <-; cbn; by intros t' [|].
  - destruct p; try done. injection E as <-. cbn. intros t' [[= <-]|[=]]. lia.
  - destruct p; try done. destruct (cs !! i) as [[]|]; try done. injection E as <-. cbn. by intros t' [|].
  - destruct p; try done. destruct (existsb is_waiting cs); [done|]. injection E as <-. cbn. intros t' [[= <-]|[=]]. lia.
  - injection E as <-. done.
  - destruct (cs !! i) as [[]|]; try done. case_bool_decide; [|done]. injection E as <-. done.
Qed.
Definition waiting (cs : list closer) : nat := sum_list_with (λ c, if is_waiting c then 1 else 0) cs.
Lemma waiting_less cs i t c : cs !! i = Some (KWait t) → is_waiting c = false → waiting (<[i := c]> cs) < waiting cs.
Proof.
  intros Hi Hc. revert i Hi. induction cs as [|d cs IH]; intros [|i] Hi; try done.
  - injection Hi as ->. unfold waiting. cbn. rewrite Hc. lia.
  - specialize (IH i Hi). change ((if is_waiting d then 1 else 0) + waiting (<[i := c]> cs) < (if is_waiting d then 1 else 0) + waiting cs). lia.
Qed.
Definition rank (p : lpos) : nat := match p with LBusy _ => 4 | LEnter _ => 3 | LBlocked _ => 2 | LPoll => 1 | LGone => 0 end.
Definition left_over (t0 : Z) (s : oloop) : nat :=
  4 * (length (l_batches s) + length (l_notices s)) + Z.to_nat (t0 + idle_time - l_now s) + waiting (l_close s) + rank (l_at s).
Definition on_time (t0 : Z) (s : oloop) : Prop :=
  match l_at s with
  | LEnter t => l_now s = t0 ∧ (t <= t0 < t + idle_time)%Z
  | LBlocked t => (t <= t0 <= l_now s)%Z ∧ (l_now s <= t + idle_time)%Z
  | LBusy _ => l_now s = t0
  | LPoll => (t0 <= l_now s <= t0 + idle_time)%Z ∧ idle s
  | LGone => False
  end.
Lemma calm_gone now l s i : l_run (ol_new now) l = Some s → l_close s !! i = Some (KWait (l_now s)) →
  match l_at s with LEnter t => l_now s < t + idle_time | LBlocked t => l_now s <= t + idle_time | LBusy _ => True | _ => False end%Z →
  inevitably calm_step (λ s', l_at s' = LGone ∧ (∀ k, of_kind k (l_done s') = of_kind k (sends l)) ∧ (l_now s' <= l_now s + idle_time)%Z) s.
Proof.
  intros H Hc Hpos. set (t0 := l_now s) in *. assert (L := linv_run _ _ _ H). assert (T := λ t, timer_past _ _ _ t H). fold t0 in T.
  set (P := λ s', l_at s' = LGone ∧ (∀ k, of_kind k (l_done s') = of_kind k (sends l)) ∧ (l_now s' <= t0 + idle_time)%Z).
  apply (inevitable_inv calm_step P (λ s', P s' ∨ (∃ h, linv s' h ∧ sends h = sends l) ∧ l_close s' !! i = Some (KWait t0) ∧ on_time t0 s') (left_over t0)).
  2: { right. split; [by exists l|]. split; [done|]. unfold on_time. fold t0. destruct (l_at s) as [t|t| |y|] eqn:Ep; [| |done|done|done].
       - specialize (T t (or_introl eq_refl)). lia.
       - specialize (T t (or_intror eq_refl)). unfold idle_time in *. lia. }
  clearbody t0. clear s H Hc Hpos L T. intros s [HP|((h & L & Hh) & Hc & Hpos)]; [by left|right].
  assert (Step : ∀ a s', l_step a s = Some s' → (∀ x, a ≠ XSend x) → ∃ h, linv s' h ∧ sends h = sends l).
  { intros a s' E Ha. exists (h ++ [a]). split; [by eapply linv_step|]. rewrite sends_app, <- Hh. destruct a; cbn; rewrite ?app_nil_r; try done. by destruct (Ha x). }
  assert (B := li_blocked _ _ L). assert (Hlt : i < length (l_close s)) by (by eapply lookup_lt_Some).
  destruct s as [nw bs ns p dn cs]. unfold on_time, idle in Hpos. cbn [l_at l_now l_batches l_notices l_close] in *.
  assert (TO : ∀ j s', (t0 <= nw <= t0 + idle_time)%Z → l_step (XTimeout j) (OL nw bs ns p dn cs) = Some s' →
    ∃ t, cs !! j = Some (KWait t) ∧ j ≠ i ∧ s' = OL nw bs ns p dn (<[j := KWarned]> cs)).
  { intros j s' Ht E. cbn [l_step] in E. destruct (cs !! j) as [[t| |]|] eqn:Ej; try done. case_bool_decide as Hd; [|done]. injection E as <-. exists t.
    split; [done|]. split; [|done]. intros ->. rewrite Hc in Ej. injection Ej as <-. unfold close_time, idle_time in *. lia. }
  assert (TO2 : ∀ j s', (t0 <= nw <= t0 + idle_time)%Z → on_time t0 (OL nw bs ns p dn cs) → l_step (XTimeout j) (OL nw bs ns p dn cs) = Some s' →
    (P s' ∨ (∃ h, linv s' h ∧ sends h = sends l) ∧ l_close s' !! i = Some (KWait t0) ∧ on_time t0 s') ∧ left_over t0 s' < left_over t0 (OL nw bs ns p dn cs)).
  { intros j s' Ht Ho E. assert (S1 := Step _ _ E ltac:(done)). destruct (TO j s' Ht E) as (t & Ej & Hn & ->). split.
    - right. split; [done|]. cbn [l_close]. split; [by rewrite list_lookup_insert_ne|]. exact Ho.
    - assert (W := waiting_less cs j t KWarned Ej eq_refl). unfold left_over. cbn [l_batches l_notices l_now l_close l_at]. lia. }
  destruct p as [t|t| |y|]; [| | | |done].
  - destruct Hpos as [Hnw Hpos]. split.
    + destruct bs as [|x r]; [|eexists; exists (XTake false); done]. destruct ns as [|x r]; [|eexists; exists (XTake true); done].
      eexists. exists XBlock. split; [done|]. cbn [l_step]. rewrite bool_decide_eq_true_2; [done|]. lia.
    + intros s' (a & Ha & E). assert (S1 := Step a s' E). destruct a as [dt|x|k| | | |j| | |j]; try done; cbn [l_step] in E.
      * by destruct Ha as (t' & Ht & _).
      * destruct k; [destruct ns as [|x r]; [done|]|destruct bs as [|x r]; [done|]]; specialize (S1 ltac:(done)); injection E as <-.
        all: (split; [right; split; [done|]; split; [done|]; exact Hnw|unfold left_over; cbn; lia]).
      * destruct bs, ns; try done. case_bool_decide; [|done]. 
        injection E as <-. split; [right; split; [by apply S1|]; split; [done|]; unfold on_time; cbn; lia|unfold left_over; cbn; lia].
      * case_bool_decide; [|done]. unfold idle_time in *. lia.
      * apply (TO2 j); [unfold idle_time; lia|done|done].
  - destruct Hpos as [Hp1 Hp2]. destruct (B t eq_refl) as [-> ->]. split.
    + destruct (decide (t + idle_time <= nw)%Z) as [Hd|Hd].
      * eexists. exists XFire. split; [done|]. cbn [l_step]. by rewrite bool_decide_eq_true_2.
      * eexists. exists (XTick 1). split; [|done]. exists t. split; [done|]. split; [done|]. cbn. lia.
    + intros s' (a & Ha & E). assert (S1 := Step a s' E). destruct a as [dt|x|k| | | |j| | |j]; try done; cbn [l_step] in E.
      * destruct Ha as (t' & [= <-] & Hd & Hle). cbn [l_now] in Hle. specialize (S1 ltac:(done)). injection E as <-.
        split; [right; split; [done|]; split; [done|]; unfold on_time; cbn; lia|]. unfold left_over. cbn [l_batches l_notices l_now l_close l_at]. unfold idle_time in *. lia.
      * case_bool_decide as Hd; [|done]. 
        injection E as <-. split; [right; split; [by apply S1|]; split; [done|]; unfold on_time; cbn; split; [unfold idle_time in *; lia|done]|unfold left_over; cbn; lia].
      * apply (TO2 j); [unfold idle_time in *; lia|done|done].
  - destruct Hpos as [Hp1 [-> ->]]. split.
    + eexists. exists (XQuit i). split; [done|]. cbn [l_step]. by rewrite Hc.
    + intros s' (a & Ha & E). assert (S1 := Step a s' E). destruct a as [dt|x|k| | | |j| | |j]; try done; cbn [l_step] in E.
      * by destruct Ha as (t' & Ht & _).
      * destruct (cs !! j) as [[t| |]|] eqn:Ej; try done. injection E as <-. assert (W := waiting_less cs j t KStopped Ej eq_refl). split.
        -- left. split; [done|]. split; [|cbn; lia]. intros k. cbn [l_done]. rewrite <- Hh, <- (li_flow _ _ L k). cbn [l_done l_at busy chan l_batches l_notices]. rewrite app_nil_r. by destruct k; cbn; rewrite app_nil_r.
        -- unfold left_over. cbn [l_batches l_notices l_now l_close l_at rank]. lia.
      * assert (Hw : existsb is_waiting cs = true) by (apply existsb_waiting; eauto). by rewrite Hw in E.
      * apply (TO2 j); [lia|done|done].
  - split.
    + eexists. exists XFinish. done.
    + intros s' (a & Ha & E). assert (S1 := Step a s' E). destruct a as [dt|x|k| | | |j| | |j]; try done; cbn [l_step] in E.
      * by destruct Ha as (t' & Ht & _).
      * specialize (S1 ltac:(done)). injection E as <-. split; [right; split; [done|]; split; [done|]; unfold on_time; cbn; unfold idle_time; lia|].
        unfold left_over. cbn. lia.
      * apply (TO2 j); [unfold idle_time; lia|done|done].
Qed.

(** * Nobody waits *)
Lemma unasked l : ∀ s s', (∀ i t, l_close s !! i ≠ Some (KWait t)) → l_at s ≠ LGone → XClose ∉ l → l_run s l = Some s' → l_at s' ≠ LGone.
Proof.
  induction l as [|a l IH]; intros s s' Hw Hg Hn H; [by injection H as <-|]. cbn in H. destruct (l_step a s) as [s1|] eqn:E; [|done]. cbn in H.
  apply not_elem_of_cons in Hn as [Ha Hn]. apply (IH s1); [| |done|done]; clear IH H; destruct s as [nw bs ns p dn cs]; cbn [l_close l_at] in *; intros *.
  - destruct a as [dt|x|k| | | |j| | |j]; cbn [l_step] in E; try done; try (repeat case_match; simplify_eq; apply Hw).
    all: destruct (cs !! j) as [[]|] eqn:Ej; by destruct (Hw j t0) || (repeat case_match; simplify_eq).
  - destruct a as [dt|x|k| | | |j| | |j]; cbn [l_step] in E; try done; try (repeat case_match; simplify_eq; done).
    all: destruct (cs !! j) as [[]|] eqn:Ej; by destruct (Hw j t) || (repeat case_match; simplify_eq).
Qed.
