(** C28, second half: no panic as long as no block comes back after it has been released. *)
From Verif Require Import Base Lru LruFacts Types Ordering SpecChain OrderingBase OrderingGrow OrderingFacts
  OrderingMisc OrderingTotal.

Definition okP {A} (P : A → Prop) (x : outcome A) : Prop :=
  match x with Ok a => P a | Panic => False | Hang => True end.
Lemma okP_bind {A B} (P : A → Prop) (Q : B → Prop) (x : outcome A) k :
  okP P x → (∀ a, x = Ok a → P a → okP Q (k a)) → okP Q (x ≫= k).
Proof. destruct x as [a| |]; ob; cbn; auto. Qed.
Lemma okP_mono {A} (P Q : A → Prop) (x : outcome A) : okP P x → (∀ a, x = Ok a → P a → Q a) → okP Q x.
Proof. destruct x; cbn; auto. Qed.
Lemma okP_foldM {A S} (P : S → Prop) (f : S → A → outcome S) l s :
  (∀ s x, x ∈ l → P s → okP P (f s x)) → P s → okP P (foldM f l s).
Proof.
  revert s; induction l as [|x l IH]; intros s Hf HP; cbn [foldM]; [done|].
  eapply okP_bind; [apply Hf; [apply elem_of_list_here|done]|]. intros s1 _ H1. apply IH; [|done].
  intros s2 y Hy. apply Hf. by apply elem_of_list_further.
Qed.

(** A released block has no queued children left. *)
Definition unq (s s' : omp) : Prop :=
  ∀ h, is_Some (o_pending s !! h) → o_pending s' !! h = None → o_queued s' !! h = None.
Lemma unq_refl s : unq s s.
Proof. intros h [b Hb] Hn. congruence. Qed.
Lemma unq_trans s1 s2 s3 : sub s2 s3 → unq s1 s2 → unq s2 s3 → unq s1 s3.
Proof.
  intros Hs H12 H23 h Hp Hn. destruct (o_pending s2 !! h) eqn:E.
  - apply H23; [by eexists|done].
  - specialize (H12 h Hp E). destruct (o_queued s3 !! h) eqn:E3; [|done].
    eapply lookup_weaken in E3; [|apply Hs]. congruence.
Qed.

Lemma evict_unq f o s h s' : keyed s → evict f o s h = Ok s' → unq s s'.
Proof.
  revert s h s'; induction f as [|f IH]; intros s h s' Hk; cbn [evict]; [discriminate|].
  destruct (o_pending s !! h) as [pb|] eqn:Hp; [|intros [= <-]; apply unq_refl].
  assert (Hh := Hk _ _ Hp). rewrite Hh.
  set (s1 := send (set_pending s _) _).
  assert (Hk1 : keyed s1) by (eapply keyed_mono; [|exact Hk]; apply delete_subseteq).
  destruct (evict f o s1 (pb_parent pb)) as [s2| |] eqn:E2; ob; [|discriminate|discriminate].
  assert (S2 : sub s1 s2) by (by apply evict_sub in E2 as [? _]).
  apply IH in E2; [|done].
  assert (Hk2 : keyed s2) by (eapply keyed_mono; [apply S2|done]).
  assert (Hother : ∀ x, is_Some (o_pending s !! x) → x ≠ h → is_Some (o_pending s1 !! x)).
  { intros x Hx Hne. cbn. by rewrite lookup_delete_ne. }
  destruct (o_queued s2 !! h) as [cs|] eqn:Hq.
  - destruct (foldM _ _ s2) as [s3| |] eqn:E3; ob; [|discriminate|discriminate].
    intros [= <-].
    assert (H3 : sub s1 s3 ∧ unq s1 s3 ∧ keyed s3).
    { revert E3. apply (foldM_inv (λ x, sub s1 x ∧ unq s1 x ∧ keyed x)); [|done].
      intros x c x' Hc (Hx & Hu & Hxk). destruct (finished x c); [intros [= <-]; done|].
      intros Hev. assert (Sx : sub x x') by (by apply evict_sub in Hev as [? _]).
      apply IH in Hev; [|done]. split; [by eapply sub_trans|]. split; [by eapply unq_trans|].
      eapply keyed_mono; [apply Sx|done]. }
    destruct H3 as (H3 & H3u & _). intros x Hx Hn. cbn in *.
    destruct (decide (x = h)) as [->|Hne]; [by rewrite lookup_delete|].
    rewrite lookup_delete_ne by done. apply H3u; [by apply Hother|done].
  - intros [= <-]. intros x Hx Hn. destruct (decide (x = h)) as [->|Hne]; [done|].
    apply E2; [by apply Hother|done].
Qed.

(** Only the loop of prepareEmit can panic. *)
Lemma foldM_np {A S} (f : S → A → outcome S) l s : (∀ s x, f s x ≠ Panic) → foldM f l s ≠ Panic.
Proof.
  intros Hf. revert s; induction l as [|x l IH]; intros s; cbn [foldM]; [done|].
  specialize (Hf s x). destruct (f s x); ob; [apply IH|done|done].
Qed.
Lemma evict_np f o s h : evict f o s h ≠ Panic.
Proof.
  revert s h; induction f as [|f IH]; intros s h; cbn [evict]; [done|].
  destruct (o_pending s !! h) as [pb|]; [|done]. set (s1 := send _ _). pose proof (IH s1 (pb_parent pb)).
  destruct (evict f o s1 (pb_parent pb)) as [s2| |]; ob; [|done|done].
  destruct (o_queued s2 !! pb_hash pb); [|done].
  match goal with |- context [foldM ?f ?l s2] => pose proof (foldM_np f l s2) as Hx; destruct (foldM f l s2) end; ob; [done| |done].
  exfalso. apply Hx; [|done]. intros s3 x. destruct (finished s3 x); [done|apply IH].
Qed.
Lemma fin_add_np o s h : fin_add o s h ≠ Panic.
Proof. unfold fin_add. destruct (lru_add _ _) as [l [k|]]; [apply evict_np|done]. Qed.
Lemma finish_children_np f o s h : finish_children f o s h ≠ Panic.
Proof.
  revert s h; induction f as [|f IH]; intros s h; cbn [finish_children]; [done|].
  pose proof (fin_add_np o s h). destruct (fin_add o s h) as [s1| |]; ob; [|done|done].
  destruct (o_queued s !! h); [|done]. by apply foldM_np.
Qed.
Lemma finish_siblings_np o s pb : finish_siblings o s pb ≠ Panic.
Proof.
  unfold finish_siblings. destruct (o_queued s !! pb_parent pb); [|done].
  apply foldM_np. intros s1 x. case_bool_decide; [apply finish_children_np|done].
Qed.
Lemma reorg_walk_np f p nh oh newb rv : reorg_walk f p nh oh newb rv ≠ Panic.
Proof.
  revert nh oh newb rv; induction f as [|f IH]; intros nh oh newb rv; cbn [reorg_walk]; [done|].
  case_bool_decide; [destruct (p !! pb_parent nh); [apply IH|done]|].
  case_bool_decide; [done|]. destruct (p !! pb_parent oh); [apply IH|done].
Qed.

Section panic.
Context (T : tree) (G : pending_batch → Prop).
Context (HG : ∀ b, G b → agree T b) (HGrow : ∀ b, G b → growing T (pb_hash b)).

(** [x] is [h] or an ancestor of [h], all stored. *)
Inductive reach (s : omp) (h : hash) : hash → Prop :=
| re_here : is_Some (o_pending s !! h) → reach s h h
| re_up x : reach s h x → is_Some (o_pending s !! t_par T x) → reach s h (t_par T x).

Lemma reach_from s h x : reach s h x → is_Some (o_pending s !! h).
Proof. induction 1; done. Qed.
Lemma reach_mono s s' h x : o_pending s' ⊆ o_pending s → reach s' h x → reach s h x.
Proof.
  intros Hs. assert (Hw : ∀ y, is_Some (o_pending s' !! y) → is_Some (o_pending s !! y)).
  { intros y [b Hb]. exists b. by eapply lookup_weaken. }
  induction 1; constructor; auto.
Qed.
Lemma reach_child s h x : is_Some (o_pending s !! h) → reach s (t_par T h) x → reach s h x.
Proof.
  intros Hh. induction 1 as [H|x H IH Hp]; constructor; try done. by constructor.
Qed.
Lemma reach_inv s h x : reach s h x → x = h ∨ reach s (t_par T h) x.
Proof.
  induction 1 as [H|x H [->|IH] Hp]; [by left| |]; right; by constructor.
Qed.

(** The tree seen from stored blocks. *)
Lemma pend_par s h b : stored G s → o_pending s !! h = Some b → pb_parent b = t_par T h ∧ G b ∧ pb_hash b = h.
Proof.
  intros Hst Hb. destruct (st_pending _ _ Hst _ _ Hb) as [<- Hg]. destruct (HG _ Hg) as (_ & ? & _). done.
Qed.
Lemma pend_wt s h : stored G s → is_Some (o_pending s !! h) → (t_wt T (t_par T h) < t_wt T h)%N.
Proof.
  intros Hst [b Hb]. destruct (pend_par _ _ _ Hst Hb) as (_ & Hg & <-). by destruct (HGrow _ Hg).
Qed.
Lemma queued_par s p cs c : stored G s → o_queued s !! p = Some cs → c ∈ cs →
  t_par T c = p ∧ (t_wt T p < t_wt T c)%N.
Proof.
  intros Hst Hq Hc. destruct (st_queued _ _ Hst _ _ _ Hq Hc) as (b & Hb & <- & <-).
  destruct (HG _ Hb) as (_ & -> & _). by destruct (HGrow _ Hb) as [_ ?].
Qed.
Lemma reach_wt s h x : stored G s → reach s h x → (t_wt T x <= t_wt T h)%N.
Proof.
  intros Hst. induction 1 as [H|x H IH Hp]; [lia|].
  assert (is_Some (o_pending s !! x)) as Hx by (by inversion H).
  pose proof (pend_wt _ _ Hst Hx). lia.
Qed.
Lemma reach_pend s h x : reach s h x → is_Some (o_pending s !! x).
Proof. by inversion 1. Qed.

(** What gets released by [evict]: the stored ancestors of the evicted block and blocks
    whose parent was stored. *)
Lemma evict_dead f o s k s' :
  order_ok o → stored G s → evict f o s k = Ok s' →
  ∀ z, is_Some (o_pending s !! z) → o_pending s' !! z = None →
    reach s k z ∨ is_Some (o_pending s !! t_par T z).
Proof.
  intros Ho. revert s k s'; induction f as [|f IH]; intros s k s' Hst; cbn [evict]; [discriminate|].
  destruct (o_pending s !! k) as [pb|] eqn:Hp.
  2: { intros [= <-] z [b Hz] Hn. congruence. }
  destruct (pend_par _ _ _ Hst Hp) as (Hpar & Hg & Hh). rewrite Hh, Hpar.
  set (s1 := send (set_pending s _) _).
  assert (Hst1 : stored G s1).
  { eapply stored_ext; [..|apply (stored_delete G s k Hst)]; done. }
  assert (Hsub : o_pending s1 ⊆ o_pending s) by apply delete_subseteq.
  assert (Hup : ∀ y, is_Some (o_pending s1 !! y) → is_Some (o_pending s !! y)).
  { intros y [b Hb]. exists b. by eapply lookup_weaken. }
  assert (Hk1 : o_pending s1 !! k = None) by (cbn; apply lookup_delete).
  destruct (evict f o s1 (t_par T k)) as [s2| |] eqn:E2; ob; [|discriminate|discriminate].
  assert (S2 : sub s1 s2) by (by apply evict_sub in E2 as [? _]).
  assert (H2 : ∀ z, is_Some (o_pending s !! z) → o_pending s2 !! z = None →
    reach s k z ∨ is_Some (o_pending s !! t_par T z)).
  { intros z Hz Hn. destruct (decide (z = k)) as [->|Hne]; [left; by constructor|].
    destruct (IH _ _ _ Hst1 E2 z) as [Hr|Hr]; [cbn; by rewrite lookup_delete_ne|done| |].
    - left. apply reach_child; [by eexists|]. by eapply reach_mono.
    - right. by apply Hup. }
  assert (Hst2 : stored G s2) by (by eapply stored_sub).
  destruct (o_queued s2 !! k) as [cs|] eqn:Hq; [|intros [= <-]; done].
  destruct (foldM _ _ s2) as [s3| |] eqn:E3; ob; [|discriminate|discriminate].
  intros [= <-]. cbn.
  assert (H3 : sub s2 s3 ∧ ∀ z, is_Some (o_pending s !! z) → o_pending s3 !! z = None →
    reach s k z ∨ is_Some (o_pending s !! t_par T z)).
  { revert E3. apply (foldM_inv (λ x, sub s2 x ∧ ∀ z, is_Some (o_pending s !! z) → o_pending x !! z = None →
    reach s k z ∨ is_Some (o_pending s !! t_par T z))); [|split; [apply sub_refl|exact H2]].
    intros x c x' Hc [Hx Hz]. destruct (finished x c); [intros [= <-]; done|].
    intros Hev. assert (Sx : sub x x') by (by apply evict_sub in Hev as [? _]).
    split; [by eapply sub_trans|]. intros z Hzs Hzn.
    destruct (o_pending x !! z) eqn:Ez; [|by apply Hz].
    assert (Hstx : stored G x) by (by eapply stored_sub).
    destruct (IH _ _ _ Hstx Hev z) as [Hr|Hr]; [by eexists|done| |].
    - apply order_elem in Hc; [|done]. apply elem_of_elements in Hc.
      destruct (queued_par _ _ _ _ Hst2 Hq Hc) as [Hcp _].
      destruct (reach_inv _ _ _ Hr) as [->|Hr'].
      + right. rewrite Hcp. by eexists.
      + apply reach_from in Hr' as [b Hb]. rewrite Hcp in Hb.
        eapply lookup_weaken in Hb; [|apply Hx]. eapply lookup_weaken in Hb; [|apply S2]. congruence.
    - right. apply Hup. destruct Hr as [b Hb]. exists b.
      eapply lookup_weaken; [|apply S2]. eapply lookup_weaken; [|apply Hx]. done. }
  apply H3.
Qed.

(** * Invariant *)
Definition okh (D : gset hash) (W : N) (s : omp) (h : hash) : Prop :=
  (∀ x, reach s h x → t_par T x ∉ D → (t_wt T (t_par T x) <= W)%N) ∧ (h ∈ D ∨ (t_wt T h <= W)%N).

Record core (D : gset hash) (W : N) (s : omp) : Prop := {
  co_stored : stored G s;
  co_fin : 0 < lru_cap (o_fin s) ∧ lru_wf (o_fin s);
  co_pend : ∀ h, is_Some (o_pending s !! h) → h ∈ D;
  co_queue : ∀ p cs c, o_queued s !! p = Some cs → c ∈ cs → c ∈ D;
  co_stale : ∀ v z cs, is_Some (o_pending s !! v) → o_queued s !! v = Some cs → z ∈ cs →
    o_pending s !! z = None → (t_wt T v <= W)%N;
  co_dead : ∀ z, z ∈ D → o_pending s !! z = None → t_par T z ∉ D → (t_wt T (t_par T z) <= W)%N;
  co_done : ∀ h, finished s h = true → okh D W s h
}.

Lemma okh_sub D W s s' h : o_pending s' ⊆ o_pending s → okh D W s h → okh D W s' h.
Proof. intros Hs [H1 H2]. split; [|done]. intros x Hx. apply H1. by eapply reach_mono. Qed.
Lemma okh_w D W W' s h : (W <= W')%N → okh D W s h → okh D W' s h.
Proof.
  intros Hw [H1 H2]. split.
  - intros x Hx Hn. specialize (H1 x Hx Hn). lia.
  - destruct H2; [by left|right; lia].
Qed.
Lemma okh_child D W s p c : okh D W s p → t_par T c = p → c ∈ D → okh D W s c.
Proof.
  intros [H1 H2] Hp Hc. split; [|by left]. intros x Hx Hn.
  apply reach_inv in Hx as [->|Hx].
  - rewrite Hp in *. destruct H2; [done|lia].
  - apply H1; [|done]. by rewrite <- Hp.
Qed.
Lemma core_w D W W' s : (W <= W')%N → core D W s → core D W' s.
Proof.
  intros Hw [H1 H2 H3 H4 H5 H6 H7]. split; try done.
  - intros v z cs Hv Hq Hz Hn. specialize (H5 _ _ _ Hv Hq Hz Hn). lia.
  - intros z Hz Hn Hp. specialize (H6 _ Hz Hn Hp). lia.
  - intros h Hh. eapply okh_w; [exact Hw|]. by apply H7.
Qed.
Lemma core_ext D W s s' :
  o_pending s' = o_pending s → o_queued s' = o_queued s → o_fin s' = o_fin s → core D W s → core D W s'.
Proof.
  intros E1 E2 E3 [H1 H2 H3 H4 H5 H6 H7]. split; rewrite ?E1, ?E2, ?E3; try done.
  - eapply stored_ext; [..|exact H1]; done.
  - intros h Hh. unfold finished in *. rewrite E3 in Hh. eapply okh_sub; [|by apply H7]. by rewrite E1.
Qed.

Lemma core_keyed D W s : core D W s → keyed s.
Proof. intros H h b Hb. by apply (st_pending _ _ (co_stored _ _ _ H)) in Hb as [? _]. Qed.

(** Relation between states kept by everything that only releases. *)
Definition shr (s s' : omp) : Prop := sub s s' ∧ unq s s' ∧ releases s s'.
Lemma shr_refl s : shr s s.
Proof. split; [apply sub_refl|]. split; [apply unq_refl|apply releases_refl]. Qed.
Lemma shr_trans s1 s2 s3 : shr s1 s2 → shr s2 s3 → shr s1 s3.
Proof.
  intros (A1 & A2 & A3) (B1 & B2 & B3). split; [by eapply sub_trans|].
  split; [by eapply unq_trans|by eapply releases_trans].
Qed.

Lemma fin_add_core D W o s h s' :
  order_ok o → core D W s → okh D W s h → fin_add o s h = Ok s' → core D W s' ∧ shr s s'.
Proof.
  intros Ho Hc Hh Hadd. assert (Hk := core_keyed _ _ _ Hc).
  assert (Hsub : sub s s') by (by apply fin_add_sub in Hadd as [? _]).
  destruct (co_fin _ _ _ Hc) as [Hcap Hwf].
  assert (Hrel : releases s s') by (by eapply fin_add_releases).
  assert (Hdone : ∀ x, finished s' x = true → x = h ∨ finished s x = true).
  { intros x Hx. unfold finished, lru_contains in *. rewrite bool_decide_eq_true in *.
    apply fin_add_sub in Hadd as [_ E]. rewrite E in Hx. by apply lru_add_elem in Hx. }
  assert (Hunq : unq s s' ∧ ∀ z, is_Some (o_pending s !! z) → o_pending s' !! z = None →
    t_par T z ∉ D → (t_wt T (t_par T z) <= W)%N).
  { unfold fin_add in Hadd. destruct (lru_add (o_fin s) h) as [l [k|]] eqn:El.
    - split; [by apply evict_unq in Hadd|].
      intros z Hz Hn Hp. eapply evict_dead in Hadd; [|done|eapply stored_ext; [..|apply (co_stored _ _ _ Hc)]; done|exact Hz|exact Hn].
      destruct Hadd as [Hr|Hr].
      + assert (Hkf : finished s k = true).
        { pose proof (lru_add_evicted (o_fin s) h k Hcap Hwf) as He. rewrite El in He.
          destruct (He eq_refl) as (He1 & _). unfold finished, lru_contains. by apply bool_decide_eq_true. }
        destruct (co_done _ _ _ Hc _ Hkf) as [Hsafe _]. apply Hsafe; [|done].
        by apply (reach_mono s (set_fin s l)).
      + exfalso. apply Hp. apply (co_pend _ _ _ Hc). done.
    - injection Hadd as <-. split; [intros x [b Hx] Hn; cbn in Hn; congruence|].
      intros z [b Hz] Hn. cbn in Hn. congruence. }
  destruct Hunq as [Hunq Hdead].
  split; [|done]. destruct Hc as [H1 H2 H3 H4 H5 H6 H7].
  assert (Hup : ∀ y, is_Some (o_pending s' !! y) → is_Some (o_pending s !! y)).
  { intros y [b Hb]. exists b. eapply lookup_weaken; [exact Hb|apply Hsub]. }
  split.
  - by eapply stored_sub.
  - apply fin_add_sub in Hadd as [_ ->]. split; [by rewrite lru_add_cap|by apply lru_add_wf].
  - auto.
  - intros p cs c Hq. apply (H4 p cs). eapply lookup_weaken; [exact Hq|apply Hsub].
  - intros v z cs Hv Hq Hz Hn.
    assert (Hq' : o_queued s !! v = Some cs) by (eapply lookup_weaken; [exact Hq|apply Hsub]).
    destruct (o_pending s !! z) as [b|] eqn:Ez; [|by eapply H5; eauto].
    pose proof (rl_closed _ _ Hrel _ _ Ez Hn) as Hcl.
    destruct (pend_par _ _ _ H1 Ez) as (Hpar & _). destruct (queued_par _ _ _ _ H1 Hq' Hz) as [Hpz _].
    rewrite Hpar, Hpz in Hcl. destruct Hv as [? Hv]. congruence.
  - intros z Hz Hn Hp. destruct (o_pending s !! z) as [b|] eqn:Ez; [|by apply H6].
    apply Hdead; try done.
  - intros x Hx. eapply okh_sub; [apply Hsub|]. destruct (Hdone _ Hx) as [->|]; [done|by apply H7].
Qed.

Lemma finish_children_core D W f o s h s' :
  order_ok o → core D W s → okh D W s h → finish_children f o s h = Ok s' → core D W s' ∧ shr s s'.
Proof.
  intros Ho. revert s h s'; induction f as [|f IH]; intros s h s' Hc Hh; cbn [finish_children]; [discriminate|].
  destruct (fin_add o s h) as [s1| |] eqn:E1; ob; [|discriminate|discriminate].
  apply (fin_add_core D W) in E1 as [Hc1 Hs1]; [|done|done|done].
  destruct (o_queued s !! h) as [cs|] eqn:Hq; [|by intros [= <-]].
  apply (foldM_inv (λ x, core D W x ∧ shr s x)); [|done].
  intros x c x' Hin [Hcx Hsx] E. apply order_elem in Hin; [|done]. apply elem_of_elements in Hin.
  apply IH in E as [Hc' Hs']; [|done|].
  - split; [done|]. by eapply shr_trans.
  - apply (okh_child _ _ _ h).
    + eapply okh_sub; [|exact Hh]. apply Hsx.
    + by destruct (queued_par _ _ _ _ (co_stored _ _ _ Hc) Hq Hin).
    + by eapply (co_queue _ _ _ Hc).
Qed.

Lemma finish_siblings_core D W o s pb s' :
  order_ok o → core D W s → okh D W s (pb_parent pb) → finish_siblings o s pb = Ok s' →
  core D W s' ∧ shr s s'.
Proof.
  intros Ho Hc Hp. unfold finish_siblings.
  destruct (o_queued s !! pb_parent pb) as [cs|] eqn:Hq; [|intros [= <-]; split; [done|apply shr_refl]].
  apply (foldM_inv (λ x, core D W x ∧ shr s x)); [|split; [done|apply shr_refl]].
  intros x c x' Hin [Hcx Hsx]. case_bool_decide; [|by intros [= <-]]. intros E.
  apply order_elem in Hin; [|done]. apply elem_of_elements in Hin.
  apply (finish_children_core D W) in E as [Hc' Hs']; [|done|done|].
  - split; [done|]. by eapply shr_trans.
  - apply (okh_child _ _ _ (pb_parent pb)).
    + eapply okh_sub; [|exact Hp]. apply Hsx.
    + by destruct (queued_par _ _ _ _ (co_stored _ _ _ Hc) Hq Hin).
    + by eapply (co_queue _ _ _ Hc).
Qed.

(** Below a heavy stored block every queued descendant is stored, hence has a positive
    difficulty. *)
Lemma difficulty_pos D W f o s h w :
  order_ok o → core D W s → is_Some (o_pending s !! h) → (W < t_wt T h)%N →
  difficulty f o s h = Ok w → (0 < w)%N.
Proof.
  intros Ho Hc. revert h w; induction f as [|f IH]; intros h w Hp Hw; cbn [difficulty]; [discriminate|].
  destruct (o_queued s !! h) as [cs|] eqn:Hq.
  - assert (Hall : ∀ c, c ∈ o SDiff f h (elements cs) → is_Some (o_pending s !! c) ∧ (W < t_wt T c)%N).
    { intros c Hin. apply order_elem in Hin; [|done]. apply elem_of_elements in Hin.
      destruct (queued_par _ _ _ _ (co_stored _ _ _ Hc) Hq Hin) as [_ Hwc]. split; [|lia].
      destruct (o_pending s !! c) eqn:E; [by eexists|].
      pose proof (co_stale _ _ _ Hc _ _ _ Hp Hq Hin E). lia. }
    assert (Hne : o SDiff f h (elements cs) ≠ []).
    { intros E. pose proof (Ho SDiff f h (elements cs)) as Hperm. rewrite E in Hperm.
      apply Permutation_nil_l in Hperm. symmetry in Hperm. apply elements_empty_inv in Hperm.
      apply (st_nonempty _ _ (co_stored _ _ _ Hc) _ _ Hq). by apply leibniz_equiv. }
    revert Hall Hne. generalize (o SDiff f h (elements cs)). intros l Hall Hne.
    destruct l as [|c l]; [done|]. cbn [foldM].
    destruct (difficulty f o s c) as [w1| |] eqn:E1; ob; [|discriminate|discriminate].
    assert (0 < w1)%N as Hw1.
    { destruct (Hall c) as [? ?]; [apply elem_of_list_here|]. by eapply IH. }
    apply (foldM_inv (λ m, (0 < m)%N)).
    + intros m y m' _ Hm. destruct (difficulty f o s y) as [w2| |]; ob; [|discriminate|discriminate].
      intros [= <-]. destruct (m <? w2)%N eqn:E; [apply N.ltb_lt in E; lia|done].
    + destruct (0 <? w1)%N eqn:E; [done|]. apply N.ltb_ge in E. lia.
  - destruct Hp as [b Hb]. rewrite Hb. intros [= <-].
    destruct (pend_par _ _ _ (co_stored _ _ _ Hc) Hb) as (_ & Hg & Eh).
    destruct (HG _ Hg) as (_ & _ & _ & ->). rewrite Eh. lia.
Qed.

Lemma get_child_pend D W n o s h c :
  order_ok o → core D W s → is_Some (o_pending s !! h) ∨ o_queued s !! h = None → (W < t_wt T h)%N →
  get_child n o s h = Ok (Some c) → is_Some (o_pending s !! c) ∧ t_par T c = h ∧ c ∈ D ∧ (W < t_wt T c)%N.
Proof.
  intros Ho Hc Hh Hw. unfold get_child. destruct (o_queued s !! h) as [cs|] eqn:Hq; [|discriminate].
  destruct Hh as [Hh|]; [|discriminate].
  assert (Hall : ∀ c, c ∈ o SChild n h (elements cs) →
    is_Some (o_pending s !! c) ∧ t_par T c = h ∧ c ∈ D ∧ (W < t_wt T c)%N).
  { intros x Hin. apply order_elem in Hin; [|done]. apply elem_of_elements in Hin.
    destruct (queued_par _ _ _ _ (co_stored _ _ _ Hc) Hq Hin) as [Hpx Hwc].
    split_and!; [|done|by eapply (co_queue _ _ _ Hc)|lia].
    destruct (o_pending s !! x) eqn:E; [by eexists|].
    pose proof (co_stale _ _ _ Hc _ _ _ Hh Hq Hin E). lia. }
  assert (Hne : o SChild n h (elements cs) ≠ []).
  { intros E. pose proof (Ho SChild n h (elements cs)) as Hperm. rewrite E in Hperm.
    apply Permutation_nil_l in Hperm. symmetry in Hperm. apply elements_empty_inv in Hperm.
    apply (st_nonempty _ _ (co_stored _ _ _ Hc) _ _ Hq). by apply leibniz_equiv. }
  revert Hall Hne. generalize (o SChild n h (elements cs)). intros l Hall Hne.
  destruct l as [|c0 l]; [done|].
  destruct (foldM _ _ _) as [r| |] eqn:E; ob; [|discriminate|discriminate]. intros [= <-].
  revert E. cbn [foldM].
  destruct (difficulty _ o s c0) as [w1| |] eqn:E1; ob; [|discriminate|discriminate].
  assert (0 < w1)%N as Hw1.
  { destruct (Hall c0) as (? & _ & _ & ?); [apply elem_of_list_here|]. by eapply difficulty_pos. }
  cbn [fst]. rewrite (proj2 (N.ltb_lt _ _) Hw1).
  apply (foldM_inv (λ r : N * hash, is_Some (o_pending s !! r.2) ∧ t_par T r.2 = h ∧ r.2 ∈ D ∧ (W < t_wt T r.2)%N)).
  - intros a x a' Hx Ha. destruct (difficulty _ o s x) as [w2| |]; ob; [|discriminate|discriminate].
    intros [= <-]. destruct (_ <? _)%N; [|done]. cbn. apply Hall. by apply elem_of_list_further.
  - cbn. apply Hall. apply elem_of_list_here.
Qed.

Lemma emit_loop_core D W f o s new :
  order_ok o → core D W s → okh D W s (o_last s) →
  is_Some (o_pending s !! o_last s) ∨ o_queued s !! o_last s = None → (W < t_wt T (o_last s))%N →
  okP (λ r, core D W r.1 ∧ okh D W r.1 (o_last r.1)) (emit_loop f o s new).
Proof.
  intros Ho. revert s new; induction f as [|f IH]; intros s new Hc Hok Hh Hw; cbn [emit_loop]; [done|].
  destruct (get_child f o s (o_last s)) as [[h|]| |] eqn:Eg; ob; [|done| |done].
  2: { destruct (get_child_ok T G HG HGrow f o s (o_last s) Ho (co_stored _ _ _ Hc)) as [r Er]. congruence. }
  destruct (get_child_pend _ _ _ _ _ _ _ Ho Hc Hh Hw Eg) as ([pb Hpb] & Hpar & HD & Hwh).
  rewrite Hpb. destruct (pend_par _ _ _ (co_stored _ _ _ Hc) Hpb) as (Hpp & Hg & Eh).
  assert (Hokh : okh D W s h) by (by eapply okh_child).
  destruct (finish_siblings o s pb) as [s1| |] eqn:E1; ob; [|by apply finish_siblings_np in E1|done].
  apply (finish_siblings_core D W) in E1 as [Hc1 Hs1]; [|done|done|by rewrite Hpp, Hpar].
  set (s1' := set_last s1 _ _).
  assert (Hc1' : core D W s1') by (eapply core_ext; [..|exact Hc1]; done).
  assert (Hok1 : okh D W s1' h) by (eapply okh_sub; [apply Hs1|done]).
  destruct (fin_add o s1' (pb_hash pb)) as [s2| |] eqn:E2; ob; [|by apply fin_add_np in E2|done].
  rewrite Eh in E2.
  assert (Hl2 : o_last s2 = h).
  { apply fin_add_sub in E2 as [E2 _]. rewrite (sub_last _ _ E2). cbn. done. }
  apply (fin_add_core D W) in E2 as [Hc2 Hs2]; [|done|done|done].
  apply IH; [done| | |].
  - rewrite Hl2. eapply okh_sub; [|exact Hok1]. apply Hs2.
  - rewrite Hl2. destruct (o_pending s2 !! h) eqn:E2p; [left; by eexists|right].
    destruct (o_pending s1 !! h) eqn:E1p.
    + apply Hs2; [by eexists|done].
    + assert (E1q : o_queued s1 !! h = None) by (apply Hs1; [by eexists|done]).
      destruct (o_queued s2 !! h) eqn:E; [|done].
      eapply lookup_weaken in E; [|apply (sub_queued _ _ (proj1 Hs2))]. cbn in E. congruence.
  - by rewrite Hl2.
Qed.

Lemma prepare_emit_core D W o s new old b :
  order_ok o → core D W s → last new = Some b → G b → pb_hash b ∈ D →
  is_Some (o_pending s !! pb_hash b) →
  okh D W s (pb_parent b) → (W < pb_weight b)%N →
  okP (λ s', core D W s' ∧ okh D W s' (o_last s')) (prepare_emit o s new old).
Proof.
  intros Ho Hc Hl Hg HD Hp Hpar Hw. unfold prepare_emit. rewrite Hl.
  destruct (HG _ Hg) as (_ & Epar & _ & Ewt).
  assert (Hokh : okh D W s (pb_hash b)) by (eapply okh_child; [exact Hpar|done|done]).
  set (s1 := set_last s _ _).
  assert (Hc1 : core D W s1) by (eapply core_ext; [..|exact Hc]; done).
  destruct (finish_siblings o s1 b) as [s2| |] eqn:E2; ob; [|by apply finish_siblings_np in E2|done].
  assert (L2 : o_last s2 = pb_hash b).
  { apply finish_siblings_sub in E2. by rewrite (sub_last _ _ E2). }
  apply (finish_siblings_core D W) in E2 as [Hc2 Hs2]; [|done|done|eapply okh_sub; [|exact Hpar]; done].
  assert (Hok2 : okh D W s2 (pb_hash b)) by (eapply okh_sub; [|exact Hokh]; apply Hs2).
  destruct (fin_add o s2 (pb_hash b)) as [s3| |] eqn:E3; ob; [|by apply fin_add_np in E3|done].
  assert (L3 : o_last s3 = pb_hash b).
  { apply fin_add_sub in E3 as [E3 _]. by rewrite (sub_last _ _ E3). }
  apply (fin_add_core D W) in E3 as [Hc3 Hs3]; [|done|done|done].
  assert (Hs13 : shr s1 s3) by (by eapply shr_trans).
  eapply okP_bind.
  - apply (emit_loop_core D W); [done|done| | |].
    + rewrite L3. eapply okh_sub; [|exact Hok2]. apply Hs3.
    + rewrite L3. destruct (o_pending s3 !! pb_hash b) eqn:E; [left; by eexists|right].
      apply Hs13; done.
    + rewrite L3, <- Ewt. done.
  - intros [s4 n] _ [H1 H2]. cbn [fst snd okP] in *. split.
    + eapply core_ext; [..|exact H1]; done.
    + eapply okh_sub; [|exact H2]. done.
Qed.

(** Storing a block: seen before and still stored, or new. *)
Lemma reach_insert s pb h x :
  stored G s → G pb →
  let s1 := set_pending s (<[pb_hash pb := pb]> (o_pending s)) in
  reach s1 h x →
  reach s h x ∨ ((t_wt T x <= t_wt T (pb_hash pb))%N ∧ (h = pb_hash pb ∨ ∃ y, reach s h y ∧ t_par T y = pb_hash pb)).
Proof.
  intros Hst Hg s1 Hr. assert (Hst1 : stored G s1) by (by apply stored_pending).
  induction Hr as [H|x Hr IH Hp].
  - destruct (decide (h = pb_hash pb)) as [->|Hne]; [right; split; [lia|by left]|].
    left. constructor. cbn in H. by rewrite lookup_insert_ne in H.
  - destruct IH as [IH|[IHw IH]].
    + destruct (decide (t_par T x = pb_hash pb)) as [E|Hne].
      * right. split; [rewrite E; lia|]. right. eauto.
      * left. constructor; [done|]. cbn in Hp. by rewrite lookup_insert_ne in Hp.
    + right. split; [|done]. pose proof (pend_wt _ _ Hst1 (reach_pend _ _ _ Hr)). lia.
Qed.

Lemma insert_okh D W s pb h :
  stored G s → G pb → (pb_hash pb ∈ D → is_Some (o_pending s !! pb_hash pb)) →
  okh D W s h → okh ({[pb_hash pb]} ∪ D) W (set_pending s (<[pb_hash pb := pb]> (o_pending s))) h.
Proof.
  intros Hst Hg Hnew [H1 H2].
  assert (Hst1 := stored_pending G s pb Hst Hg).
  split; [|set_solver]. intros x Hx Hn.
  assert (HnD : t_par T x ∉ D) by set_solver.
  assert (Hpx := pend_wt _ _ Hst1 (reach_pend _ _ _ Hx)).
  destruct (decide (pb_hash pb ∈ D)) as [HD|HD].
  - apply H1; [|done]. clear -Hx Hnew HD. specialize (Hnew HD).
    induction Hx as [H|x Hr IH Hp].
    + constructor. cbn in H. apply lookup_insert_is_Some in H as [<-|[_ ?]]; done.
    + constructor; [done|]. cbn in Hp. apply lookup_insert_is_Some in Hp as [<-|[_ ?]]; done.
  - apply reach_insert in Hx as [Hx|[Hw Hx]]; [by apply H1| |done|done].
    assert (t_wt T (pb_hash pb) <= W)%N; [|lia].
    destruct Hx as [->|(y & Hy & E)].
    + destruct H2; [done|lia].
    + rewrite <- E. apply H1; [done|]. by rewrite E.
Qed.

Lemma core_insert D W s pb :
  core D W s → G pb → (pb_hash pb ∈ D → is_Some (o_pending s !! pb_hash pb)) →
  core ({[pb_hash pb]} ∪ D) W (set_pending s (<[pb_hash pb := pb]> (o_pending s))).
Proof.
  intros [H1 H2 H3 H4 H5 H6 H7] Hg Hnew. split; cbn.
  - by apply (stored_pending G s).
  - done.
  - intros h Hh. apply lookup_insert_is_Some in Hh as [<-|[_ Hh]]; [set_solver|].
    apply elem_of_union. right. auto.
  - intros p cs c Hq Hc. apply elem_of_union. right. by eapply H4.
  - intros v z cs Hv Hq Hz Hn. apply lookup_insert_None in Hn as [Hn Hne].
    apply lookup_insert_is_Some in Hv as [<-|[_ Hv]]; [|by eapply H5].
    destruct (decide (pb_hash pb ∈ D)) as [HD|HD]; [eapply H5; eauto|].
    destruct (queued_par _ _ _ _ H1 Hq Hz) as [Hpz _]. rewrite <- Hpz.
    apply H6; [by eapply H4|done|by rewrite Hpz].
  - intros z Hz Hn Hp. apply lookup_insert_None in Hn as [Hn Hne].
    apply H6; [|done|]; set_solver.
  - intros h Hh. apply insert_okh; try done. by apply H7.
Qed.

Lemma core_queue_pb D W s pb :
  core D W s → G pb → pb_hash pb ∈ D →
  is_Some (o_pending s !! pb_hash pb) ∨ o_pending s !! pb_parent pb = None →
  core D W (queue s pb).
Proof.
  intros [H1 H2 H3 H4 H5 H6 H7] Hg HD Hlink. split; try done.
  - by apply stored_queue.
  - intros p cs c. cbn. destruct (decide (p = pb_parent pb)) as [->|Hne].
    + rewrite lookup_insert. intros [= <-] [Hc|Hc]%elem_of_union.
      * apply elem_of_singleton in Hc as ->. done.
      * destruct (o_queued s !! pb_parent pb) as [cs|] eqn:E; cbn in Hc; [|set_solver]. by eapply H4.
    + rewrite lookup_insert_ne by done. apply H4.
  - intros v z cs Hv. cbn. destruct (decide (v = pb_parent pb)) as [->|Hne].
    + rewrite lookup_insert. intros [= <-] [Hc|Hc]%elem_of_union Hn.
      * apply elem_of_singleton in Hc as ->. cbn in Hv. destruct Hv as [? Hv].
        destruct Hlink as [[? Hlink]|Hlink]; congruence.
      * destruct (o_queued s !! pb_parent pb) as [cs|] eqn:E; cbn in Hc; [|set_solver]. by eapply H5.
    + rewrite lookup_insert_ne by done. by apply H5.
  - intros h Hh. eapply okh_sub; [|by apply H7]. done.
Qed.

Lemma core_discard D W s pb :
  core D W s → G pb → (pb_weight pb < W)%N →
  core D W (set_pending s (delete (pb_hash pb) (o_pending s))).
Proof.
  intros [H1 H2 H3 H4 H5 H6 H7] Hg Hw.
  assert (Hpw : (t_wt T (t_par T (pb_hash pb)) < W)%N).
  { destruct (HGrow _ Hg) as [_ ?]. destruct (HG _ Hg) as (_ & _ & _ & E). rewrite E in Hw. lia. }
  assert (Hsub : delete (pb_hash pb) (o_pending s) ⊆ o_pending s) by apply delete_subseteq.
  split; cbn; try done.
  - by apply stored_delete.
  - intros h [b Hb]. apply H3. exists b. by eapply lookup_weaken.
  - intros v z cs [b Hv] Hq Hz Hn.
    assert (Hv' : is_Some (o_pending s !! v)) by (exists b; by eapply lookup_weaken).
    apply lookup_delete_None in Hn as [<-|Hn]; [|by eapply H5].
    destruct (queued_par _ _ _ _ H1 Hq Hz) as [<- _]. lia.
  - intros z Hz Hn Hp. apply lookup_delete_None in Hn as [<-|Hn]; [lia|by apply H6].
  - intros h Hh. eapply okh_sub; [|by apply H7]. done.
Qed.

Lemma stored_agree s : stored G s → stored (agree T) s.
Proof.
  intros [H1 H2 H3]. split.
  - intros h b Hb. destruct (H1 _ _ Hb). auto.
  - intros p cs c Hq Hc. destruct (H2 _ _ _ Hq Hc) as (b & Hb & ?). exists b. auto.
  - done.
Qed.

Definition safe (D : gset hash) (s : omp) : Prop :=
  core D (o_lastw s) s ∧ okh D (o_lastw s) s (o_last s).

Lemma handle_core w0 D f o s pb r :
  order_ok o → grow_inv T G True w0 s → safe D s → (excluded (o_wl s) pb = false → G pb) →
  (pb_hash pb ∈ D → is_Some (o_pending s !! pb_hash pb)) →
  (r = true → finished s (pb_parent pb) = true) →
  okP (λ s', ∃ D', D ⊆ D' ∧ D' ⊆ {[pb_hash pb]} ∪ D ∧ safe D' s') (handle f o s pb r).
Proof.
  intros Ho. revert D s pb r; induction f as [|f IH]; intros D s pb r Hgr [Hc Hlast] Hpb0 Hnew Hr; [done|].
  assert (Hgrow := handle_grow T G HG HGrow True w0 (S f) o s pb r).
  cbn [handle] in *.
  destruct (excluded (o_wl s) pb) eqn:Hex.
  { exists D. split_and!; [done|set_solver|]. split; [eapply core_ext; [..|exact Hc]; done|].
    eapply okh_sub; [|exact Hlast]. done. }
  assert (Hpb := Hpb0 eq_refl).
  case_bool_decide as Hbl.
  { exists D. split_and!; [done|set_solver|]. split; [eapply core_ext; [..|exact Hc]; done|].
    eapply okh_sub; [|exact Hlast]. done. }
  set (s1 := set_pending s _) in *. set (D1 := {[pb_hash pb]} ∪ D) in *.
  set (W := o_lastw s) in *.
  assert (Hgr1 : grow_inv T G True w0 s1).
  { destruct Hgr as [H1 H2 H3 H4 H5]. split; try done. by apply stored_pending. }
  assert (Hc1 : core D1 W s1) by (by apply core_insert).
  assert (Hl1 : okh D1 W s1 (o_last s1)).
  { apply insert_okh; try done. apply (co_stored _ _ _ Hc). }
  assert (HD1 : pb_hash pb ∈ D1) by set_solver.
  assert (Hp1 : o_pending s1 !! pb_hash pb = Some pb) by (cbn; apply lookup_insert).
  destruct (HG _ Hpb) as (_ & Epar & _ & Ewt).
  destruct (gr_nr _ _ _ _ _ Hgr1 I) as (He1 & Hw1 & _).
  assert (Hemit : ∀ new old, last new = Some pb → okh D1 W s1 (pb_parent pb) → (W < pb_weight pb)%N →
    (∀ s', prepare_emit o s1 new old = Ok s' → grow_inv T G True w0 s' ∧ (W <= t_wt T (o_last s'))%N) →
    okP (λ s', ∃ D', D ⊆ D' ∧ D' ⊆ D1 ∧ safe D' s') (prepare_emit o s1 new old)).
  { intros new old Hl Hpp Hw Hg'.
    eapply okP_mono; [eapply (prepare_emit_core D1 W); try done; by eexists|].
    intros s' Es' [A1 A2]. exists D1. split_and!; [set_solver|done|].
    destruct (Hg' s' Es') as [B1 B2]. destruct (gr_nr _ _ _ _ _ B1 I) as (_ & B3 & _).
    split; [eapply core_w; [|exact A1]|eapply okh_w; [|exact A2]]; by rewrite <- B3. }
  assert (Hmono : ∀ new old s' base, Forall G new → last new = Some pb → chain_up base new → (W < pb_weight pb)%N →
     prepare_emit o s1 new old = Ok s' → (W <= t_wt T (o_last s'))%N).
  { intros new old s' base HGn Hl Hch Hw. unfold prepare_emit. rewrite Hl.
    destruct (finish_siblings o _ pb) as [s2| |] eqn:E2; ob; [|discriminate|discriminate].
    apply finish_siblings_sub in E2.
    destruct (fin_add o s2 _) as [s3| |] eqn:E3; ob; [|discriminate|discriminate].
    apply fin_add_sub in E3 as [E3 _]. assert (E13 := sub_trans _ _ _ E2 E3).
    destruct (emit_loop _ o s3 new) as [[s4 n]| |] eqn:E4; ob; [|discriminate|discriminate].
    intros [= <-]. cbn.
    eapply (emit_loop_grow T G HG HGrow o _ s3 new s4 n base pb) in E4 as (b' & R1 & R2 & R3 & R4 & R5 & _); try done.
    - rewrite R2. rewrite Forall_forall in R5. assert (Hb' : G b').
      { apply R5. apply last_Some in R1 as [l ->]. apply elem_of_app. right. by apply elem_of_list_singleton. }
      destruct (HG _ Hb') as (_ & _ & _ & <-). lia.
    - eapply stored_sub; [|exact E13]. eapply stored_ext; [..|apply (co_stored _ _ _ Hc1)]; done.
    - by rewrite (sub_last _ _ E13).
    - by rewrite (sub_lastw _ _ E13). }
  destruct (finished s1 (pb_hash pb) && negb r); [exists D1; split_and!; [set_solver|done|done]|].
  case_bool_decide as Hpl.
  { apply Hemit; [done|by rewrite Hpl| |].
    - unfold W. change (o_lastw s) with (o_lastw s1). rewrite <- Hw1, <- Hpl, Ewt, Epar. by destruct (HGrow _ Hpb) as [_ ?].
    - intros s' Es'. split; [by apply Hgrow|]. eapply (Hmono [pb] [] s' (pb_parent pb)); try done.
      + by repeat constructor.
      + unfold W. change (o_lastw s) with (o_lastw s1). rewrite <- Hw1, <- Hpl, Ewt, Epar. by destruct (HGrow _ Hpb) as [_ ?]. }
  rewrite He1. cbn [andb]. rewrite He1 in Hgrow. cbn [andb] in Hgrow.
  destruct (finished s1 (pb_parent pb)) eqn:Hfp.
  - assert (Hokp : okh D1 W s1 (pb_parent pb)) by (by apply (co_done _ _ _ Hc1)).
    assert (Hokpb : okh D1 W s1 (pb_hash pb)) by (by eapply okh_child).
    assert (Hlight :
      okP (λ s', ∃ D', D ⊆ D' ∧ D' ⊆ D1 ∧ safe D' s')
      (s ← fin_add o s1 (pb_hash pb);
        c ← get_child 0 o s (pb_hash pb);
        match c with
        | Some child =>
          s ← match o_pending s !! child with
              | Some cpb => handle f o s cpb true
              | None => Ok s
              end;
          Ok (queue s pb)
        | None => Ok (queue s pb)
        end)).
    { destruct (fin_add o s1 (pb_hash pb)) as [s3| |] eqn:E3; ob; [|by apply fin_add_np in E3|done].
      assert (E3f := fin_add_self _ s1 _ _ (proj1 (co_fin _ _ _ Hc1)) E3).
      assert (E3s := E3). apply fin_add_sub in E3s as [E3s _].
      apply (fin_add_core D1 W) in E3 as [Hc3 Hs3]; [|done|done|done].
      assert (Hl3 : okh D1 W s3 (o_last s3)).
      { rewrite (sub_last _ _ E3s). eapply okh_sub; [|exact Hl1]. apply E3s. }
      assert (HW3 : o_lastw s3 = W) by (by rewrite (sub_lastw _ _ E3s)).
      assert (Hgr3 : grow_inv T G True w0 s3) by (by eapply grow_sub).
      assert (Hq3 : ∀ D' s4, D1 ⊆ D' → releases s3 s4 → safe D' s4 → safe D' (queue s4 pb)).
      { intros D' s4 HD' Hrel [A1 A2]. split; [|eapply okh_sub; [|exact A2]; done].
        apply core_queue_pb; [done|done|set_solver|].
        destruct (o_pending s4 !! pb_hash pb) eqn:E; [left; by eexists|right].
        assert (Hrel' : releases s1 s4) by (eapply releases_trans; [apply Hs3|done]).
        by eapply (rl_closed _ _ Hrel'). }
      destruct (get_child_ok T G HG HGrow 0 o s3 (pb_hash pb) Ho (co_stored _ _ _ Hc3)) as [c Eg].
      rewrite Eg; ob. destruct c as [child|].
      2: { exists D1. split_and!; [set_solver|done|]. apply Hq3; [done|apply releases_refl|].
           split; by rewrite HW3. }
      destruct (o_pending s3 !! child) as [cpb|] eqn:Ec; ob.
      2: { exists D1. split_and!; [set_solver|done|]. apply Hq3; [done|apply releases_refl|].
           split; by rewrite HW3. }
      destruct (pend_par _ _ _ (co_stored _ _ _ Hc3) Ec) as (Ecp & Hcg & Ech).
      assert (Hfc : finished s3 (pb_parent cpb) = true).
      { destruct (get_child_elem _ _ _ _ _ Ho Eg) as (cs & Hcs & [Hin| ->]).
        - destruct (queued_par _ _ _ _ (co_stored _ _ _ Hc3) Hcs Hin) as [Hp _]. by rewrite Ecp, Hp.
        - destruct (HG _ Hcg) as (Hz & _). congruence. }
      eapply okP_bind.
      - apply (IH D1 s3 cpb true); [done|split; by rewrite HW3|done|intros _; rewrite Ech; by eexists|done].
      - intros s4 E4 (D' & A1 & A2 & A3). exists D'.
        assert (HcD : pb_hash cpb ∈ D1) by (rewrite Ech; apply (co_pend _ _ _ Hc3); by eexists).
        split_and!; [set_solver|set_solver|]. apply Hq3; [done| |done].
        apply (handle_releases T) in E4; [|done|by apply stored_agree, (co_stored _ _ _ Hc3)|apply (co_fin _ _ _ Hc3)|by apply HG|done].
        destruct E4 as [E4|(E4 & E4o & E4p)].
        + eapply releases_trans; [|exact E4]. apply releases_ext; try done; cbn.
          * apply insert_id. by rewrite Ech.
          * exists []. by rewrite app_nil_r.
        + apply releases_ext; [by apply E4p|done|]. exists []. by rewrite app_nil_r. }
    destruct (o_pending s1 !! o_last s1) as [lb|] eqn:El; [|exact Hlight].
    destruct (_ <? _)%N eqn:Hw; [|exact Hlight].
    apply N.ltb_lt in Hw.
    destruct (st_pending _ _ (co_stored _ _ _ Hc1) _ _ El) as [Elh Hlb].
    destruct (prepare_reorg s1 pb lb) as [[removed added| |]| |] eqn:Er; ob.
    + apply (prepare_reorg_min T G HG HGrow) in Er as (base & R1 & R2 & R3 & R4 & R5 & R6); try done.
      * apply Hemit; [done|done|done|]. intros s' Es'. split; [by apply Hgrow|]. by eapply (Hmono added removed s' base).
      * apply (co_stored _ _ _ Hc1).
      * destruct (HG _ Hlb) as (_ & _ & _ & ->). rewrite Elh, Hw1. done.
    + exists D1. split_and!; [set_solver|done|]. split; [|eapply okh_sub; [|exact Hl1]; done].
      apply core_queue_pb; [done|done|done|]. left. by eexists.
    + exists D1. split_and!; [set_solver|done|]. done.
    + by apply reorg_walk_np in Er.
    + done.
  - assert (Hr' : r = false).
    { destruct r; [|done]. specialize (Hr eq_refl). unfold finished in *. cbn in Hfp. congruence. }
    destruct (_ <? _)%N eqn:Hw.
    2: { exists D1. split_and!; [set_solver|done|]. split; [|eapply okh_sub; [|exact Hl1]; done].
         apply core_queue_pb; [done|done|done|]. left. by eexists. }
    apply N.ltb_lt in Hw.
    match goal with |- okP _ (if ?b then _ else _) => destruct b end.
    { exists D1. split_and!; [set_solver|done|]. split; [by apply core_discard|].
      eapply okh_sub; [|exact Hl1]. apply delete_subseteq. }
    assert (Hokpb : okh D1 W s1 (pb_hash pb)).
    { split; [|by left]. intros x Hx Hn. pose proof (reach_wt _ _ _ (co_stored _ _ _ Hc1) Hx).
      pose proof (pend_wt _ _ (co_stored _ _ _ Hc1) (reach_pend _ _ _ Hx)). rewrite Ewt in Hw.
      change (o_lastw s1) with W in Hw. lia. }
    destruct (fin_add o s1 (pb_hash pb)) as [s3| |] eqn:E3; ob; [|by apply fin_add_np in E3|done].
    assert (E3s := E3). apply fin_add_sub in E3s as [E3s _].
    apply (fin_add_core D1 W) in E3 as [Hc3 Hs3]; [|done|done|done].
    exists D1. split_and!; [set_solver|done|].
    assert (HW3 : o_lastw s3 = W) by (by rewrite (sub_lastw _ _ E3s)).
    split.
    + cbn [queue set_queued o_lastw]. rewrite HW3. apply core_queue_pb; [done|done|done|].
      destruct (o_pending s3 !! pb_hash pb) eqn:E; [left; by eexists|right].
      by eapply (rl_closed _ _ (proj2 (proj2 Hs3))).
    + cbn [queue set_queued o_lastw]. rewrite HW3. cbn. rewrite (sub_last _ _ E3s). eapply okh_sub; [|exact Hl1]. apply E3s.
Qed.
End panic.

Lemma batches_of_app l1 l2 : batches_of (l1 ++ l2) = batches_of l1 ++ batches_of l2.
Proof. unfold batches_of. apply omap_app. Qed.

Lemma run_safe (T : tree) w0 s0 l l1 l2 s D :
  l = l1 ++ l2 → orders_ok l2 → no_reorgs l2 →
  Forall (agree T) (batches_of l2) → Forall (λ b, growing T (pb_hash b)) (batches_of l2) →
  no_late_repeats s0 l → omp_run s0 l1 = Ok s →
  grow_inv T (Gg T) True w0 s → safe T (Gg T) D s → (∀ h, h ∈ D → h ∈ map pb_hash (batches_of l1)) →
  okP (λ _, True) (omp_run s l2).
Proof.
  revert l1 s D; induction l2 as [|[o i] l2 IH]; intros l1 s D -> Hord Hnr Hag Hgr Hrep Hrun Hg Hs HD;
    unfold omp_run; cbn [foldM]; [done|].
  apply Forall_cons in Hord as [Ho Hord]. cbn in Ho.
  destruct i as [pb|n h].
  2: { exfalso. by unfold no_reorgs, reorgs_of in Hnr. }
  unfold omp_step. cbn [fst snd].
  assert (Hpb : Gg T pb).
  { unfold batches_of in Hag, Hgr. cbn in Hag, Hgr. apply Forall_cons in Hag as [? _], Hgr as [? _]. by split. }
  assert (Hstep : okP (λ s', ∃ D', D ⊆ D' ∧ D' ⊆ {[pb_hash pb]} ∪ D ∧ safe T (Gg T) D' s') (handle_batch o s pb)).
  { unfold handle_batch. apply (handle_core T (Gg T)) with (w0 := w0); try done.
    - by intros b [? _].
    - by intros b [_ ?].
    - intros Hin. eapply Hrep; [done|done|]. by apply HD. }
  eapply okP_bind; [exact Hstep|]. intros s' Es' (D' & A1 & A2 & A3).
  eapply (IH (l1 ++ [(o, InBatch pb)]) s' D').
  - by rewrite <- app_assoc.
  - done.
  - done.
  - unfold batches_of in Hag. cbn in Hag. by apply Forall_cons in Hag as [_ ?].
  - unfold batches_of in Hgr. cbn in Hgr. by apply Forall_cons in Hgr as [_ ?].
  - done.
  - eapply run_snoc; [exact Hrun|exact Es'].
  - eapply (handle_grow T (Gg T)); [..|exact Es']; try done.
    + by intros b [? _].
    + by intros b [_ ?].
  - done.
  - intros h Hh. rewrite batches_of_app, map_app. apply elem_of_app.
    apply A2 in Hh. apply elem_of_union in Hh as [Hh|Hh]; [|left; by apply HD].
    right. apply elem_of_singleton in Hh as ->. cbn. apply elem_of_list_here.
Qed.

Lemma never_panics (T : tree) cfg s0 l :
  cfg_last_hash cfg ≠ zero_hash → new_omp cfg = Ok s0 →
  t_wt T (cfg_last_hash cfg) = cfg_last_weight cfg →
  orders_ok l → no_reorgs l → Forall (agree T) (batches_of l) →
  Forall (λ b, growing T (pb_hash b)) (batches_of l) →
  no_late_repeats s0 l → ∃ s, omp_run s0 l = Ok s.
Proof.
  intros Hz H0 Hw Hord Hnr Hag Hgr Hrep.
  assert (Hlive := never_hangs T cfg s0 l H0 Hord Hag Hgr).
  assert (Hp : okP (λ _, True) (omp_run s0 l)).
  { eapply (run_safe T (cfg_last_weight cfg) s0 l [] l s0 ∅); try done.
    - eapply grow_init; [done|done|lia|done].
    - assert (Hst := stored_init (Gg T) _ _ H0). destruct (new_cap_pos _ _ H0) as [Hc Hwf].
      revert H0 Hst Hc Hwf. unfold new_omp. case_bool_decide; [discriminate|].
      intros [= <-] Hst Hc Hwf.
      assert (Hl : ∀ s, o_pending s = ∅ → okh T ∅ (cfg_last_weight cfg) s (cfg_last_hash cfg)).
      { intros s Hs. split; [|right; lia]. intros x Hx. apply reach_from in Hx as [? Hx].
        rewrite Hs in Hx. done. }
      split; [|by apply Hl]. split; cbn [o_pending o_queued].
      + done.
      + done.
      + intros h [b Hb]. by rewrite lookup_empty in Hb.
      + intros p cs c Hq. by rewrite lookup_empty in Hq.
      + intros v z cs [b Hb]. by rewrite lookup_empty in Hb.
      + intros z Hx. set_solver.
      + intros h Hh. unfold finished, lru_contains in Hh. apply bool_decide_eq_true in Hh.
        cbn [o_fin] in Hh. apply lru_add_elem in Hh as [->|Hh]; [by apply Hl|].
        cbn in Hh. by apply elem_of_nil in Hh.
  }
  destruct (omp_run s0 l); [by eexists|done|done].
Qed.

Lemma once_never_panics (T : tree) cfg s0 l :
  cfg_last_hash cfg ≠ zero_hash → new_omp cfg = Ok s0 →
  t_wt T (cfg_last_hash cfg) = cfg_last_weight cfg →
  orders_ok l → no_reorgs l → Forall (agree T) (batches_of l) →
  Forall (λ b, growing T (pb_hash b)) (batches_of l) →
  NoDup (map pb_hash (batches_of l)) → ∃ s, omp_run s0 l = Ok s.
Proof.
  intros Hz H0 Hw Hord Hnr Hag Hgr Hnd. eapply never_panics; try done.
  intros l1 o b l2 s1 -> _ Hin. exfalso.
  rewrite batches_of_app, map_app in Hnd. apply NoDup_app in Hnd as (_ & Hnd & _).
  apply (Hnd _ Hin). cbn. apply elem_of_list_here.
Qed.
