(** C78: heartbeats and health. *)
From Verif Require Import Base Lru Types Kafka Heartbeat SpecCounting SpecHeartbeat.

Lemma f_run_snoc D l : ∀ s a s', f_run D s (l ++ [a]) = Some s' → ∃ s1, f_run D s l = Some s1 ∧ f_step D a s1 = Some s'.
Proof.
  induction l as [|b l IH]; intros s a s' E; cbn in *.
  - exists s. split; [done|]. by destruct (f_step D a s).
  - destruct (f_step D b s) as [s1|]; [|done]. by apply IH.
Qed.
Lemma status_snoc now l a : status_after now (l ++ [a]) = status_step (status_after now l) a.
Proof. unfold status_after. by rewrite foldl_app. Qed.

(** * The state of one producer *)
Definition sent_ok (s : fleet) (h : hash) (t0 next : Z) : Prop :=
  ∀ j, (1 <= j)%Z → (t0 < next - j * period)%Z →
    (h, next - j * period)%Z ∈ f_air s ∨ ∃ v, f_pt s !! h = Some v ∧ (next - j * period <= v)%Z.
Definition one_ok (D : Z) (s : fleet) (h : hash) (x : option (bool * Z)) : Prop :=
  match x with
  | None => f_prods s !! h = None ∧ h ∉ f_gone s ∧ (∀ t, (h, t) ∉ f_air s) ∧ f_pt s !! h = None
  | Some (true, t0) => ∃ next, f_prods s !! h = Some (Prod true next) ∧ h ∉ f_gone s ∧ (f_now s <= next <= f_now s + period)%Z ∧ (t0 <= f_now s)%Z ∧ sent_ok s h t0 next
  | Some (false, t0) =>
    ((∃ next, f_prods s !! h = Some (Prod false next) ∧ h ∉ f_gone s ∧ (f_now s <= next <= f_now s + period)%Z) ∨ (f_prods s !! h = None ∧ h ∈ f_gone s)) ∧
    (t0 <= f_now s)%Z ∧ (∀ t, (h, t) ∈ f_air s → t <= t0)%Z ∧ (∀ v, f_pt s !! h = Some v → v <= t0 + D)%Z
  end.
Record f_inv (D : Z) (s : fleet) (x : Z * (hash → option (bool * Z))) : Prop := FI {
  fi_now : x.1 = f_now s;
  fi_air : ∀ h t, (h, t) ∈ f_air s → (t <= f_now s <= t + D)%Z;
  fi_pt : ∀ h v, f_pt s !! h = Some v → (v <= f_now s)%Z;
  fi_one : ∀ h, one_ok D s h (x.2 h)
}.
Lemma pt_empty h : (∅ : tracker) !! h = None.
Proof. apply lookup_empty. Qed.
Lemma f_inv_new D now : f_inv D (fl_new now) (now, λ _, None).
Proof.
  split; [done| | |].
  - intros h t H. by apply elem_of_nil in H.
  - intros h v H. cbn in H. by rewrite pt_empty in H.
  - intros h. cbn. split; [apply lookup_empty|]. split; [set_solver|]. split; [|apply pt_empty]. intros t H. by apply elem_of_nil in H.
Qed.

Lemma pt_update_eq (pt : tracker) h t : tracker_update pt h t !! h = Some t.
Proof. unfold tracker_update. apply lookup_insert. Qed.
Lemma pt_update_ne (pt : tracker) h h' t : h ≠ h' → tracker_update pt h t !! h' = pt !! h'.
Proof. intros. unfold tracker_update. by apply lookup_insert_ne. Qed.
Lemma elem_of_deleted {A} (l : list A) i x y : l !! i = Some x → y ∈ l → y = x ∨ y ∈ delete i l.
Proof.
  intros Hi Hy. apply delete_Permutation in Hi. rewrite Hi in Hy. by apply elem_of_cons in Hy.
Qed.
Lemma elem_of_delete_in {A} (l : list A) i x y : l !! i = Some x → y ∈ delete i l → y ∈ l.
Proof. intros E H. apply delete_Permutation in E. rewrite E. by right. Qed.

(** Nothing changed for this producer. *)
Lemma one_ok_same D s s' h x : f_now s' = f_now s → f_prods s' !! h = f_prods s !! h → (h ∈ f_gone s' ↔ h ∈ f_gone s) →
  (∀ t, (h, t) ∈ f_air s' ↔ (h, t) ∈ f_air s) → f_pt s' !! h = f_pt s !! h → one_ok D s h x → one_ok D s' h x.
Proof.
  intros En Ep Eg Ea Et. unfold one_ok, sent_ok. rewrite En, Ep, Et. destruct x as [[[] t0]|].
  - intros (next & H1 & H2 & H3 & H4 & H5). exists next. split; [done|]. split; [by rewrite Eg|]. split; [done|]. split; [done|].
    intros j Hj Hjt. destruct (H5 j Hj Hjt) as [H|H]; [left; by apply Ea|by right].
  - intros (H1 & H2 & H3 & H4). split; [|split; [done|split; [|done]]].
    + destruct H1 as [(next & ? & ? & ?)|[? ?]]; [left; exists next; split; [done|]; split; [by rewrite Eg|done]|right; split; [done|]; by rewrite Eg].
    + intros t Ht. apply H3. by apply Ea.
  - intros (H1 & H2 & H3 & H4). split; [done|]. split; [by rewrite Eg|]. split; [|done]. intros t Ht. apply (H3 t). by apply Ea.
Qed.

Lemma f_inv_step D a s s' x : (0 <= D)%Z → f_inv D s x → f_step D a s = Some s' → f_inv D s' (status_step x a).
Proof.
  intros HD [N A P O] E. destruct s as [now ps gone air pt]. destruct x as [now' f]. cbn in N. subst now'.
  cbn [f_now f_prods f_gone f_air f_pt snd] in *. assert (Pp : (0 < period)%Z) by done.
  destruct a as [h|h b|h|i|h|dt]; cbn [f_step status_step] in *.
  - (* add *)
    destruct (ps !! h) eqn:Eh; [done|]. case_bool_decide as Hg; [done|]. injection E as <-.
    split; cbn [f_now f_prods f_gone f_air f_pt fst snd]; [done|done|done|]. intros h'. case_bool_decide as Hh.
    + subst h'. pose proof (O h) as Oh. destruct (f h) as [[[] t0]|]; cbn in Oh.
      * destruct Oh as (next & H & _). congruence.
      * destruct Oh as ([(next & H & _)|[_ H]] & _); [congruence|done].
      * destruct Oh as (_ & _ & H3 & H4). cbn. exists (now + period)%Z. split; [apply lookup_insert|]. split; [done|]. split; [lia|]. split; [lia|].
        intros j Hj Hjt. nia.
    + apply (one_ok_same D (Fl now ps gone air pt)); cbn; try done; first [by apply lookup_insert_ne|apply O].
  - (* SetHealth *)
    destruct (ps !! h) as [[bo next]|] eqn:Eh; [|done]. injection E as <-. cbn [b_next].
    split; cbn [f_now f_prods f_gone f_air f_pt fst snd]; [done|done|done|]. intros h'. case_bool_decide as Hh.
    + subst h'. pose proof (O h) as Oh. destruct (f h) as [[bs t0]|]; cbn in Oh.
      2: { destruct Oh as (H & _). congruence. }
      assert (Hb : bs = bo ∧ h ∉ gone ∧ (now <= next <= now + period)%Z ∧ (t0 <= now)%Z).
      { destruct bs.
        - destruct Oh as (nx & H1 & H2 & H3 & H4 & _). rewrite Eh in H1. injection H1 as -> ->. done.
        - destruct Oh as ([(nx & H1 & H2 & H3)|[H1 _]] & H4 & _); [|congruence]. rewrite Eh in H1. injection H1 as -> ->. done. }
      destruct Hb as (-> & Hg & Hn & Ht). case_bool_decide as Hbb.
      * subst bo. apply (one_ok_same D (Fl now ps gone air pt)); cbn; try done; first [by rewrite lookup_insert|exact Oh].
      * destruct b; cbn.
        -- exists next. split; [apply lookup_insert|]. split; [done|]. split; [done|]. split; [lia|]. intros j Hj Hjt. nia.
        -- split; [left; exists next; split; [apply lookup_insert|done]|]. split; [lia|]. split.
           ++ intros t Hat. apply A in Hat. lia.
           ++ intros v Hv. apply P in Hv. lia.
    + apply (one_ok_same D (Fl now ps gone air pt)); cbn; try done; first [by apply lookup_insert_ne|apply O].
  - (* tick *)
    destruct (ps !! h) as [[bo next]|] eqn:Eh; [|done]. cbn [b_next b_healthy] in E. case_bool_decide as Hnx; [|done]. subst next. injection E as <-.
    assert (Ain : ∀ h' t, (h', t) ∈ (if bo then air ++ [(h, now)] else air) → (h', t) ∈ air ∨ (h' = h ∧ t = now ∧ bo = true)).
    { intros h' t. destruct bo; [|by left]. rewrite elem_of_app. intros [H|H%elem_of_list_singleton]; [by left|]. injection H as -> ->. by right. }
    assert (Aim : ∀ y, y ∈ air → y ∈ (if bo then air ++ [(h, now)] else air)).
    { intros y Hy. destruct bo; [apply elem_of_app; by left|done]. }
    split; cbn [f_now f_prods f_gone f_air f_pt fst snd]; [done| |done|].
    + intros h' t [H|(_ & -> & _)]%Ain; [by apply (A h')|lia].
    + intros h'. destruct (decide (h' = h)) as [->|Hh].
      * pose proof (O h) as Oh. destruct (f h) as [[[] t0]|]; cbn in Oh |- *.
        -- destruct Oh as (nx & H1 & H2 & H3 & H4 & H5). rewrite Eh in H1. injection H1 as -> <-.
           exists (now + period)%Z. split; [apply lookup_insert|]. split; [done|]. split; [lia|]. split; [done|].
           intros j Hj Hjt. cbn [f_air f_pt]. destruct (decide (j = 1)%Z) as [->|Hj1].
           ++ left. apply elem_of_app. right. apply elem_of_list_singleton. f_equal. lia.
           ++ replace (now + period - j * period)%Z with (now - (j - 1) * period)%Z in * by lia.
              destruct (H5 (j - 1)%Z) as [H|H]; [lia|done|left; apply elem_of_app; by left|by right].
        -- destruct Oh as ([(nx & H1 & H2 & H3)|[H1 _]] & H4 & H5 & H6); [|congruence]. rewrite Eh in H1. injection H1 as -> <-.
           split; [left; exists (now + period)%Z; split; [apply lookup_insert|]; split; [done|lia]|]. split; [done|]. by split.
        -- destruct Oh as (H & _). congruence.
      * apply (one_ok_same D (Fl now ps gone air pt)); cbn; try done; first [by apply lookup_insert_ne|apply O|idtac].
        intros t. split; [|apply Aim]. intros [H|(H & _)]%Ain; done.
  - (* heard *)
    destruct (air !! i) as [[h tb]|] eqn:Ei; [|done]. injection E as <-.
    assert (Hin : (h, tb) ∈ air) by (by apply elem_of_list_lookup_2 in Ei).
    assert (Hb := A h tb Hin).
    split; cbn [f_now f_prods f_gone f_air f_pt fst snd]; [done| | |].
    + intros h' t Ht%(elem_of_delete_in _ _ _ _ Ei). by apply (A h').
    + intros h' v. destruct (decide (h = h')) as [->|Hh]; [rewrite pt_update_eq; intros [= <-]; lia|]. rewrite pt_update_ne by done. apply P.
    + intros h'. destruct (decide (h = h')) as [<-|Hh].
      * pose proof (O h) as Oh. destruct (f h) as [[[] t0]|]; cbn in Oh |- *.
        -- destruct Oh as (nx & H1 & H2 & H3 & H4 & H5). exists nx. split; [done|]. split; [done|]. split; [done|]. split; [done|].
           intros j Hj Hjt. cbn [f_air f_pt]. right. exists now. split; [apply pt_update_eq|].
           destruct (H5 j Hj Hjt) as [H|(v & Hv & Hvt)]; [apply A in H; lia|]. apply P in Hv. cbn in *. lia.
        -- destruct Oh as (H1 & H2 & H3 & H4). split; [done|]. split; [done|]. split.
           ++ intros t Ht%(elem_of_delete_in _ _ _ _ Ei). by apply H3.
           ++ intros v. rewrite pt_update_eq. intros [= <-]. apply H3 in Hin. lia.
        -- destruct Oh as (_ & _ & H3 & _). by destruct (H3 tb).
      * apply (one_ok_same D (Fl now ps gone air pt)); cbn; try done; first [by apply pt_update_ne|apply O|idtac].
        intros t. split; [apply (elem_of_delete_in _ _ _ _ Ei)|]. intros Ht. destruct (elem_of_deleted _ _ _ _ Ei Ht) as [[= -> _]|H]; done.
  - (* stop *)
    destruct (ps !! h) as [p|] eqn:Eh; [|done]. injection E as <-.
    split; cbn [f_now f_prods f_gone f_air f_pt fst snd]; [done|done|done|]. intros h'. case_bool_decide as Hh.
    + subst h'. pose proof (O h) as Oh. destruct (f h) as [[[] t0]|]; cbn in Oh |- *.
      * split; [right; split; [apply lookup_delete|set_solver]|]. split; [cbn; lia|]. split; [intros t Ht%A; lia|]. intros v Hv%P. lia.
      * destruct Oh as (_ & H2 & H3 & H4). split; [right; split; [apply lookup_delete|set_solver]|]. by split.
      * destruct Oh as (H & _). congruence.
    + apply (one_ok_same D (Fl now ps gone air pt)); cbn; try done; first [by apply lookup_delete_ne|apply O|set_solver].
  - (* time *)
    case_bool_decide as Hc; [|done]. destruct Hc as [Hc1 Hc2]. injection E as <-. rewrite Forall_forall in Hc2.
    split; cbn [f_now f_prods f_gone f_air f_pt fst snd]; [done| | |].
    + intros h t Ht. specialize (A h t Ht). specialize (Hc2 _ Ht). cbn in Hc2. lia.
    + intros h v Hv%P. lia.
    + intros h. pose proof (O h) as Oh. destruct (f h) as [[[] t0]|]; cbn in Oh |- *.
      * destruct Oh as (nx & H1 & H2 & H3 & H4 & H5). exists nx. split; [done|]. split; [done|]. specialize (Hc1 _ _ H1). cbn in Hc1. split; [lia|]. split; [lia|done].
      * destruct Oh as (H1 & H2 & H3 & H4). split; [|split; [lia|done]]. destruct H1 as [(nx & H1 & H1g & H1n)|H1]; [|by right].
        left. exists nx. split; [done|]. split; [done|]. specialize (Hc1 _ _ H1). cbn in Hc1. lia.
      * done.
Qed.
Lemma f_run_inv D now l : (0 <= D)%Z → ∀ s, f_run D (fl_new now) l = Some s → f_inv D s (status_after now l).
Proof.
  intros HD. induction l as [|a l IH] using rev_ind; intros s E; [injection E as <-; apply f_inv_new|].
  apply f_run_snoc in E as (s1 & E1 & E2). rewrite status_snoc. by apply (f_inv_step D a s1 s _ HD (IH s1 E1)).
Qed.

(** * Counting *)
Lemma healthy_heard D now l s h : (0 <= D)%Z → f_run D (fl_new now) l = Some s → long_healthy now l (period + D) h →
  ∃ v, f_pt s !! h = Some v ∧ (f_now s - v <= period + D)%Z.
Proof.
  intros HD E (t0 & Hst & Ht0). apply f_run_inv in E; [|done]. destruct E as [N A P O]. specialize (O h).
  unfold status in Hst. rewrite Hst in O. destruct O as (next & _ & _ & Hn & _ & Hs). unfold clock in Ht0. rewrite N in Ht0.
  assert (Pp : period = 30000%Z) by done.
  set (q := ((next - (f_now s - D)) / period)%Z).
  assert (Hq : (next - (f_now s - D) = period * q + (next - (f_now s - D)) mod period)%Z) by (apply Z.div_mod; lia).
  assert (Hr := Z.mod_pos_bound (next - (f_now s - D)) period ltac:(lia)).
  assert (Hq0 : (0 <= q)%Z) by (apply Z.div_pos; lia).
  destruct (Hs (q + 1)%Z) as [H|(v & Hv & Hvt)]; [lia|nia| |].
  - apply A in H. nia.
  - exists v. split; [done|]. nia.
Qed.
Lemma heard_lately D now l s h v d : (0 <= D)%Z → f_run D (fl_new now) l = Some s → f_pt s !! h = Some v → (f_now s - v < d)%Z →
  lately_healthy now l (D + d) h.
Proof.
  intros HD E Hv Hd. apply f_run_inv in E; [|done]. destruct E as [N A P O]. specialize (O h).
  unfold lately_healthy, status, clock. rewrite N. destruct ((status_after now l).2 h) as [[[] t0]|].
  - exists true, t0. split; [done|by left].
  - exists false, t0. split; [done|]. right. destruct O as (_ & _ & _ & H4). specialize (H4 v Hv). lia.
  - destruct O as (_ & _ & _ & H4). congruence.
Qed.

(** The producers counted. *)
Definition counted_set (pt : tracker) (now d : Z) : gset hash := dom (filter (λ e : hash * Z, (now - e.2 < d)%Z) (pt : gmap hash Z)).
Lemma counted_size (pt : gmap hash Z) now d : size (counted_set pt now d) = tracker_count pt now d.
Proof.
  unfold counted_set, tracker_count, tracker. rewrite size_dom. unfold size, map_size.
  apply Permutation_length. apply NoDup_Permutation; [apply NoDup_map_to_list|apply NoDup_filter, NoDup_map_to_list|].
  intros [h v]. rewrite elem_of_list_filter. etrans; [apply elem_of_map_to_list|]. rewrite map_filter_lookup_Some.
  split; [intros [H1 H2]; split; [done|by apply elem_of_map_to_list]|intros [H1 H2%elem_of_map_to_list]; done].
Qed.
Lemma elem_of_counted pt now d h : h ∈ counted_set pt now d ↔ ∃ v, pt !! h = Some v ∧ (now - v < d)%Z.
Proof.
  unfold counted_set. rewrite elem_of_dom. split.
  - intros [v H]. apply map_filter_lookup_Some in H. by exists v.
  - intros (v & H1 & H2). exists v. by apply map_filter_lookup_Some.
Qed.
Lemma beats_counted D now l s d : (0 <= D)%Z → f_run D (fl_new now) l = Some s →
  ((period + D < d)%Z → at_most (long_healthy now l (period + D)) (tracker_count (f_pt s) (f_now s) d)) ∧
  at_least (lately_healthy now l (D + d)) (tracker_count (f_pt s) (f_now s) d).
Proof.
  intros HD E. split.
  - intros Hd X HX. rewrite <- counted_size. apply subseteq_size. intros h Hh. apply elem_of_counted.
    destruct (healthy_heard D now l s h HD E (HX h Hh)) as (v & Hv & Hvd). exists v. split; [done|lia].
  - exists (counted_set (f_pt s) (f_now s) d). split; [apply counted_size|]. intros h (v & Hv & Hvd)%elem_of_counted.
    by apply (heard_lately D now l s h v d HD E).
Qed.
Lemma clock_now D now l s : (0 <= D)%Z → f_run D (fl_new now) l = Some s → clock now l = f_now s.
Proof. intros HD E. apply f_run_inv in E as [N _ _ _]; done. Qed.

(** * The clock does not stop *)
Lemma f_run_app D l r : ∀ s s', f_run D s l = Some s' → f_run D s (l ++ r) = f_run D s' r.
Proof.
  induction l as [|a l IH]; intros s s' E; cbn in *; [by injection E as <-|]. destruct (f_step D a s) as [s1|]; [|done]. by apply IH.
Qed.
Lemma hear_all D now ps gone air : ∀ pt, ∃ l pt', f_run D (Fl now ps gone air pt) l = Some (Fl now ps gone [] pt').
Proof.
  induction air as [|[h t] air IH]; intros pt; [by exists [], pt|].
  destruct (IH (tracker_update pt h now)) as (l & pt' & E). exists (FHear 0 :: l), pt'. exact E.
Qed.
Lemma tick_all D now gone pt (hs : list hash) : ∀ ps air,
  (∀ h p, ps !! h = Some p → (now < b_next p)%Z ∨ (b_next p = now ∧ h ∈ hs)) →
  ∃ l ps' air', f_run D (Fl now ps gone air pt) l = Some (Fl now ps' gone air' pt) ∧ map_Forall (λ _ p, now < b_next p)%Z ps'.
Proof.
  induction hs as [|h hs IH]; intros ps air H.
  - exists [], ps, air. split; [done|]. intros h p Hp. destruct (H h p Hp) as [?|[_ Hn]]; [done|]. by apply elem_of_nil in Hn.
  - destruct (ps !! h) as [p|] eqn:Eh; [destruct (decide (b_next p = now)) as [En|En]|].
    + destruct (IH (<[h := Prod (b_healthy p) (now + period)]> ps) (if b_healthy p then air ++ [(h, now)] else air)) as (l & ps' & air' & E & F).
      { intros h' p'. destruct (decide (h = h')) as [<-|Hh].
        - rewrite lookup_insert. intros [= <-]. left. unfold period. cbn. lia.
        - rewrite lookup_insert_ne by done. intros Hp'. destruct (H h' p' Hp') as [?|[? Hin]]; [by left|]. right. split; [done|].
          apply elem_of_cons in Hin as [->|?]; done. }
      exists (FTick h :: l), ps', air'. split; [|done]. cbn [f_run f_step]. rewrite Eh. by rewrite bool_decide_eq_true_2.
    + apply IH. intros h' p' Hp'. destruct (H h' p' Hp') as [?|[? Hin]]; [by left|]. right. split; [done|].
      apply elem_of_cons in Hin as [->|?]; [congruence|done].
    + apply IH. intros h' p' Hp'. destruct (H h' p' Hp') as [?|[? Hin]]; [by left|]. right. split; [done|].
      apply elem_of_cons in Hin as [->|?]; [congruence|done].
Qed.
Lemma clock_runs D now l s : (0 <= D)%Z → f_run D (fl_new now) l = Some s →
  ∃ r s', f_run D (fl_new now) (l ++ r) = Some s' ∧ f_now s' = (f_now s + 1)%Z.
Proof.
  intros HD E. pose proof (f_run_inv D now l HD s E) as [_ _ _ O].
  destruct s as [t ps gone air pt]. cbn [f_now] in *.
  destruct (tick_all D t gone pt (map fst (map_to_list ps)) ps air) as (l1 & ps' & air' & E1 & F).
  { intros h p Hp. assert (Hn : (t <= b_next p)%Z).
    { specialize (O h). destruct ((status_after now l).2 h) as [[[] t0]|]; cbn in O.
      - destruct O as (nx & H & _ & Hn & _). rewrite Hp in H. injection H as ->. cbn. lia.
      - destruct O as ([(nx & H & _ & Hn)|[H _]] & _); [|congruence]. rewrite Hp in H. injection H as ->. cbn. lia.
      - destruct O as (H & _). congruence. }
    destruct (decide (b_next p = t)) as [En|En]; [|left; lia]. right. split; [done|].
    apply elem_of_list_fmap. exists (h, p). split; [done|]. by apply elem_of_map_to_list. }
  destruct (hear_all D t ps' gone air' pt) as (l2 & pt' & E2).
  exists (l1 ++ l2 ++ [FPass 1]), (Fl (t + 1) ps' gone [] pt'). split; [|done].
  rewrite (f_run_app D l _ _ _ E), (f_run_app D l1 _ _ _ E1), (f_run_app D l2 _ _ _ E2). cbn [f_run f_step].
  rewrite bool_decide_eq_true_2; [done|]. split; [|apply Forall_nil_2].
  intros h p Hp. specialize (F h p Hp). cbn in F |- *. lia.
Qed.
