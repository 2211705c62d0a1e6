(** C24: the head is the heaviest connected block. *)
From Verif Require Import Base Lru LruFacts Types Ordering SpecChain SpecHeavy OrderingBase OrderingGrow
  OrderingFacts OrderingMisc OrderingTotal OrderingPanic.

Section heavy.
Context (T : tree) (R : hash) (wl : gmap Z hash) (thr : Z) (A : gset hash).
(** [A]: all blocks of the run. *)
Context (HAR : ∀ h, h ∈ A → ancestor T R h)
        (HAg : ∀ h, h ∈ A → growing T h)
        (Hdown : ∀ h, ancestor T R h → h = R ∨ growing T h)
        (HRA : R ∈ A)
        (Hspan : ∀ a b, a ∈ A → b ∈ A → (t_num T a - t_num T b <= thr)%Z).

(** [below D x h]: [h] is [x] or leads to [x] through blocks of [D]. *)
Inductive below (D : gset hash) (x : hash) : hash → Prop :=
| be_here : below D x x
| be_step h : h ∈ D → below D x (t_par T h) → below D x h.

Definition con (D : gset hash) : hash → Prop := below D R.

Lemma below_mono D D' x h : D ⊆ D' → below D x h → below D' x h.
Proof. intros Hs. induction 1 as [|h Hh _ IH]; [constructor|]. constructor; [by apply Hs|done]. Qed.
Lemma below_trans D x y z : below D x y → below D y z → below D x z.
Proof. intros H1. induction 1 as [|h Hh _ IH]; [done|]. by constructor. Qed.
Lemma below_in D x h : below D x h → h = x ∨ h ∈ D.
Proof. destruct 1; auto. Qed.
(** First step down. *)
Lemma below_down D x h : below D x h → h = x ∨ ∃ c, c ∈ D ∧ t_par T c = x ∧ below D c h.
Proof.
  induction 1 as [|h Hh Hb IH]; [by left|]. right. destruct IH as [E|(c & Hc & Hp & Hbc)].
  - exists h. split_and!; [done|done|constructor].
  - exists c. split_and!; [done|done|]. by constructor.
Qed.
Lemma below_num D x h : D ⊆ A → below D x h → h = x ∨ (t_num T x < t_num T h)%Z.
Proof.
  intros HD. induction 1 as [|h Hh Hb IH]; [by left|]. right.
  destruct (HAg h (HD _ Hh)) as [En _]. destruct IH as [E|]; [rewrite E in En|]; lia.
Qed.
Lemma below_wt D x h : D ⊆ A → below D x h → (t_wt T x <= t_wt T h)%N.
Proof.
  intros HD. induction 1 as [|h Hh Hb IH]; [lia|].
  destruct (HAg h (HD _ Hh)) as [_ Ew]. lia.
Qed.
Lemma con_inv D h : con D h → h ≠ R → h ∈ D ∧ con D (t_par T h).
Proof. intros H Hne. inversion H; subst; done. Qed.
Lemma con_num D h : D ⊆ A → con D h → h = R ∨ (t_num T R < t_num T h)%Z.
Proof. apply below_num. Qed.
Lemma con_dec D h : D ⊆ A → con D h ∨ ¬ con D h.
Proof.
  intros HD. remember (Z.to_nat (t_num T h - t_num T R)) as n eqn:En.
  revert h En. induction n as [|n IH]; intros h En.
  - destruct (decide (h = R)) as [->|Hne]; [left; constructor|]. right. intros Hc.
    destruct (con_num D h HD Hc); [done|lia].
  - destruct (decide (h = R)) as [->|Hne]; [left; constructor|].
    destruct (decide (h ∈ D)) as [Hin|Hin]; [|right; intros Hc; by destruct (con_inv D h Hc)].
    destruct (HAg h (HD _ Hin)) as [Eh _].
    destruct (IH (t_par T h)) as [Hc|Hc]; [lia|left; by constructor|].
    right. intros Hc'. apply Hc. by destruct (con_inv D h Hc').
Qed.
(** Descendants of the start that are not connected directly have larger numbers. *)
Lemma anc_num h : ancestor T R h → h = R ∨ (t_num T R < t_num T h)%Z.
Proof.
  intros Ha. assert (∀ x, ancestor T x h → x = R → h = R ∨ (t_num T R < t_num T h)%Z) as H; [|by eapply H].
  clear Ha. intros x. induction 1 as [h|a h Ha IH]; intros E; [by left|]. subst a.
  destruct (Hdown h) as [->|[En _]]; [by constructor|by left|]. right. destruct IH; [done| |]; [|lia].
  rewrite En. replace (t_par T h) with R by done. lia.
Qed.

(** One new block. *)
Lemma con_add_off D b h : ¬ con ({[b]} ∪ D) b → con ({[b]} ∪ D) h → con D h.
Proof.
  intros Hn. induction 1 as [|h Hh Hb IH]; [constructor|].
  apply elem_of_union in Hh as [Hh|Hh]; [|by constructor].
  apply elem_of_singleton in Hh as ->. destruct Hn. constructor; [set_solver|done].
Qed.
Lemma con_add_on D b h : con ({[b]} ∪ D) h → con D h ∨ below ({[b]} ∪ D) b h.
Proof.
  induction 1 as [|h Hh Hb IH]; [left; constructor|].
  destruct (decide (h = b)) as [->|Hne]; [right; constructor|].
  destruct IH as [IH|IH]; [left|right]; constructor; try done. set_solver.
Qed.

(** ** States *)
Definition Gd (D : gset hash) (b : pending_batch) : Prop :=
  agree T b ∧ pb_hash b ∈ D ∧ excluded wl b = false.

Record base (D : gset hash) (s : omp) : Prop := {
  ba_sub : D ⊆ A;
  ba_R : R ∈ D;
  ba_stored : stored (Gd D) s;
  ba_pend : ∀ h, h ∈ D → is_Some (o_pending s !! h);
  ba_fin : ∀ h, finished s h = true → h ∈ D;
  ba_cache : lru_wf (o_fin s) ∧ size A ≤ lru_cap (o_fin s);
  ba_empty : o_empty s = false;
  ba_bl : o_bl s = ∅ ∧ o_wl s = wl ∧ o_thr s = thr
}.

(** [h] is queued under its parent. *)
Definition isq (s : omp) (h : hash) : Prop := ∃ cs, o_queued s !! t_par T h = Some cs ∧ h ∈ cs.

(** Nothing is lost. *)
Record ext (s s' : omp) : Prop := {
  ex_pend : o_pending s' = o_pending s;
  ex_q : ∀ h, isq s h → isq s' h;
  ex_fin : ∀ h, finished s h = true → finished s' h = true
}.
Definition same_head (s s' : omp) : Prop := o_last s' = o_last s ∧ o_lastw s' = o_lastw s.
Lemma ext_refl s : ext s s.
Proof. by split. Qed.
Lemma ext_trans s1 s2 s3 : ext s1 s2 → ext s2 s3 → ext s1 s3.
Proof. intros [A1 A2 A3] [B1 B2 B3]. split; [congruence|auto|auto]. Qed.
Lemma same_head_refl s : same_head s s. Proof. by split. Qed.
Lemma same_head_trans s1 s2 s3 : same_head s1 s2 → same_head s2 s3 → same_head s1 s3.
Proof. intros [] []. split; congruence. Qed.

Lemma Gd_agree D b : Gd D b → agree T b.
Proof. by intros (? & _). Qed.
Lemma pend_block D s h b : base D s → o_pending s !! h = Some b →
  pb_hash b = h ∧ h ∈ D ∧ pb_parent b = t_par T h ∧ pb_num b = t_num T h ∧ pb_weight b = t_wt T h ∧ excluded wl b = false.
Proof.
  intros Hb Hp. destruct (st_pending _ _ (ba_stored _ _ Hb) _ _ Hp) as [Eh ((_ & E1 & E2 & E3) & HD & He)].
  rewrite Eh in *. done.
Qed.
Lemma queued_block D s p cs c : base D s → o_queued s !! p = Some cs → c ∈ cs → c ∈ D ∧ t_par T c = p.
Proof.
  intros Hb Hq Hc. destruct (st_queued _ _ (ba_stored _ _ Hb) _ _ _ Hq Hc) as (b & ((_ & E1 & _) & HD & _) & <- & <-).
  done.
Qed.
Lemma zero_pend D s : base D s → o_pending s !! zero_hash = None.
Proof.
  intros Hb. destruct (o_pending s !! zero_hash) as [b|] eqn:E; [|done].
  destruct (st_pending _ _ (ba_stored _ _ Hb) _ _ E) as [Eh ((Hz & _) & _)]. done.
Qed.

Lemma fin_add_base D o s h s' :
  base D s → h ∈ D → fin_add o s h = Ok s' →
  base D s' ∧ ext s s' ∧ same_head s s' ∧ finished s' h = true ∧ o_queued s' = o_queued s.
Proof.
  intros Hb Hh. unfold fin_add.
  destruct (ba_cache _ _ Hb) as [Hwf Hcap].
  assert (Hpos : 0 < lru_cap (o_fin s)).
  { assert (size A ≠ 0); [|lia]. intros E%size_empty_inv. apply (not_elem_of_empty (C:=gset hash) R). by rewrite <- E. }
  assert (Hno : (lru_add (o_fin s) h).2 = None).
  { apply lru_add_no_evict. destruct (decide (h ∈ lru_keys (o_fin s))) as [|Hn]; [by right|left].
    assert (Hnd : NoDup (h :: lru_keys (o_fin s))) by (constructor; [done|apply Hwf]).
    assert (Hsz : size (list_to_set (h :: lru_keys (o_fin s)) : gset hash) ≤ size A).
    { apply subseteq_size. intros x Hx%elem_of_list_to_set. apply (ba_sub _ _ Hb).
      apply elem_of_cons in Hx as [->|Hx]; [done|]. apply (ba_fin _ _ Hb). by apply bool_decide_eq_true. }
    rewrite size_list_to_set in Hsz by done. cbn [length] in Hsz. lia. }
  destruct (lru_add (o_fin s) h) as [l ev] eqn:El. cbn in Hno. subst ev. intros [= <-].
  pose proof (lru_add_cap (o_fin s) h) as Ecap. pose proof (lru_add_wf (o_fin s) h Hpos Hwf) as Hwf'.
  pose proof (lru_add_self (o_fin s) h Hpos) as Hself.
  assert (Hkeep : ∀ x, x ∈ lru_keys (o_fin s) → x ∈ lru_keys l).
  { intros x Hx. assert (K := lru_add_keep (o_fin s) h x). rewrite El in K. by apply K. }
  assert (Helem : ∀ x, x ∈ lru_keys l → x = h ∨ x ∈ lru_keys (o_fin s)).
  { intros x Hx. apply lru_add_elem. by rewrite El. }
  rewrite El in Ecap, Hwf', Hself. cbn [fst] in *.
  split; [|split; [|split; [done|split; [|done]]]].
  - destruct Hb as [B1 B2 B3 B4 B5 B6 B7 B8]. split; try done.
    + eapply stored_ext; [..|exact B3]; done.
    + intros x Hx. unfold finished, lru_contains in Hx. apply bool_decide_eq_true in Hx. cbn in Hx.
      apply Helem in Hx as [->|Hx]; [done|]. apply B5. by apply bool_decide_eq_true.
    + cbn. by rewrite Ecap.
  - split; [done|done|]. intros x Hx. apply bool_decide_eq_true in Hx. apply bool_decide_eq_true. cbn. by apply Hkeep.
  - by apply bool_decide_eq_true.
Qed.

Lemma finish_children_base D f o s h s' :
  order_ok o → base D s → h ∈ D → finish_children f o s h = Ok s' →
  base D s' ∧ ext s s' ∧ same_head s s' ∧ o_queued s' = o_queued s.
Proof.
  intros Ho. revert s h s'; induction f as [|f IH]; intros s h s' Hb Hh; cbn [finish_children]; [discriminate|].
  destruct (fin_add o s h) as [s1| |] eqn:E1; ob; [|discriminate|discriminate].
  destruct (fin_add_base _ _ _ _ _ Hb Hh E1) as (B1 & X1 & L1 & _ & Q1).
  destruct (o_queued s !! h) as [cs|] eqn:Hq; [|intros [= <-]; done].
  apply (foldM_inv (λ x, base D x ∧ ext s x ∧ same_head s x ∧ o_queued x = o_queued s)); [|done].
  intros x c x' Hc (Bx & Xx & Lx & Qx) Hf. apply order_elem in Hc; [|done]. apply elem_of_elements in Hc.
  destruct (queued_block _ _ _ _ _ Hb Hq Hc) as [HcD _].
  destruct (IH _ _ _ Bx HcD Hf) as (C1 & C2 & C3 & C4).
  split; [done|]. split; [by eapply ext_trans|]. split; [by eapply same_head_trans|congruence].
Qed.
Lemma finish_siblings_base D o s pb s' :
  order_ok o → base D s → finish_siblings o s pb = Ok s' →
  base D s' ∧ ext s s' ∧ same_head s s' ∧ o_queued s' = o_queued s.
Proof.
  intros Ho Hb. unfold finish_siblings. destruct (o_queued s !! pb_parent pb) as [cs|] eqn:Hq.
  2: { intros [= <-]. split; [done|]. split; [apply ext_refl|]. done. }
  apply (foldM_inv (λ x, base D x ∧ ext s x ∧ same_head s x ∧ o_queued x = o_queued s)).
  2: { split; [done|]. split; [apply ext_refl|]. done. }
  intros x c x' Hc (Bx & Xx & Lx & Qx). apply order_elem in Hc; [|done]. apply elem_of_elements in Hc.
  destruct (queued_block _ _ _ _ _ Hb Hq Hc) as [HcD _].
  case_bool_decide; [|intros [= <-]; done]. intros Hf.
  destruct (finish_children_base _ _ _ _ _ _ Ho Bx HcD Hf) as (C1 & C2 & C3 & C4).
  split; [done|]. split; [by eapply ext_trans|]. split; [by eapply same_head_trans|congruence].
Qed.
Lemma base_last D s h w : base D s → base D (set_last s h w).
Proof. intros [B1 B2 B3 B4 B5 B6 B7 B8]. split; try done. eapply stored_ext; [..|exact B3]; done. Qed.
Lemma ext_last s h w : ext s (set_last s h w).
Proof. by split. Qed.
Lemma base_queue D s pb : base D s → Gd D pb → base D (queue s pb).
Proof. intros [B1 B2 B3 B4 B5 B6 B7 B8] Hg. split; try done. by apply stored_queue. Qed.
Lemma ext_queue s pb : ext s (queue s pb).
Proof.
  split; [done| |done]. intros h (cs & Hq & Hc). unfold isq. cbn. destruct (decide (pb_parent pb = t_par T h)) as [->|Hne].
  - rewrite lookup_insert. eexists; split; [done|]. rewrite Hq. cbn. set_solver.
  - rewrite lookup_insert_ne by done. eauto.
Qed.
Lemma isq_queue D s pb : Gd D pb → isq (queue s pb) (pb_hash pb).
Proof.
  intros ((_ & Ep & _) & _). unfold isq. cbn. rewrite <- Ep, lookup_insert. eexists; split; [done|]. set_solver.
Qed.

(** ** The walk of prepareReorg *)
Lemma walk_last f p nh oh newb rv removed added pb :
  last newb = Some pb → reorg_walk f p nh oh newb rv = Ok (RgOk removed added) → last added = Some pb.
Proof.
  revert nh oh newb rv; induction f as [|f IH]; intros nh oh newb rv Hl; cbn [reorg_walk]; [discriminate|].
  case_bool_decide.
  - destruct (p !! pb_parent nh) as [nh'|]; [|discriminate]. apply IH. by rewrite last_cons, Hl.
  - case_bool_decide; [by intros [= <- <-]|]. destruct (p !! pb_parent oh); [|discriminate]. by apply IH.
Qed.

Lemma walk_on D s f nh oh newb rv r :
  base D s → o_pending s !! pb_hash nh = Some nh → o_pending s !! pb_hash oh = Some oh →
  con D (pb_hash nh) → con D (pb_hash oh) → (t_num T R < t_num T (pb_hash nh))%Z →
  reorg_walk f (o_pending s) nh oh newb rv = Ok r → ∃ removed added, r = RgOk removed added.
Proof.
  intros Hb. revert nh oh newb rv; induction f as [|f IH]; intros nh oh newb rv Hpn Hpo Hcn Hco Hlt; cbn [reorg_walk]; [discriminate|].
  assert (HDA := ba_sub _ _ Hb).
  destruct (pend_block _ _ _ _ Hb Hpn) as (_ & HnD & En & Nn & _).
  destruct (pend_block _ _ _ _ Hb Hpo) as (_ & HoD & Eo & No & _).
  assert (HnR : pb_hash nh ≠ R) by (intros E; rewrite E in Hlt; lia).
  destruct (con_inv _ _ Hcn HnR) as [_ Hcp].
  destruct (HAg _ (HDA _ HnD)) as [Gn _]. destruct (HAg _ (HDA _ HoD)) as [Go _].
  rewrite En, Eo, Nn, No.
  case_bool_decide as Hgap.
  - assert (HRo : (t_num T R <= t_num T (pb_hash oh))%Z) by (destruct (con_num _ _ HDA Hco) as [->|]; lia).
    destruct (o_pending s !! t_par T (pb_hash nh)) as [nh'|] eqn:Ep.
    + destruct (pend_block _ _ _ _ Hb Ep) as (Eh & _). apply IH; try done; rewrite ?Eh; try done. lia.
    + exfalso. assert (HpD : t_par T (pb_hash nh) ∈ D).
      { destruct (below_in _ _ _ Hcp) as [->|]; [apply Hb|done]. }
      destruct (ba_pend _ _ Hb _ HpD) as [x Hx]. congruence.
  - case_bool_decide as Heq; [intros [= <-]; eauto|].
    assert (HoR : pb_hash oh ≠ R).
    { intros E. rewrite E in *. destruct (con_num _ _ HDA Hcp) as [E'|]; [|lia]. by rewrite E' in Heq. }
    destruct (con_inv _ _ Hco HoR) as [_ Hcop].
    destruct (o_pending s !! t_par T (pb_hash oh)) as [oh'|] eqn:Ep.
    + destruct (pend_block _ _ _ _ Hb Ep) as (Eh & _). apply IH; try done; by rewrite ?Eh.
    + exfalso. assert (HpD : t_par T (pb_hash oh) ∈ D).
      { destruct (below_in _ _ _ Hcop) as [->|]; [apply Hb|done]. }
      destruct (ba_pend _ _ Hb _ HpD) as [x Hx]. congruence.
Qed.

Lemma walk_off D s f nh oh newb rv r :
  base D s → o_pending s !! pb_hash nh = Some nh → o_pending s !! pb_hash oh = Some oh →
  ¬ con D (pb_hash nh) → con D (pb_hash oh) →
  reorg_walk f (o_pending s) nh oh newb rv = Ok r → r = RgMissing.
Proof.
  intros Hb. revert nh oh newb rv; induction f as [|f IH]; intros nh oh newb rv Hpn Hpo Hcn Hco; cbn [reorg_walk]; [discriminate|].
  assert (HDA := ba_sub _ _ Hb).
  destruct (pend_block _ _ _ _ Hb Hpn) as (_ & HnD & En & Nn & _).
  destruct (pend_block _ _ _ _ Hb Hpo) as (_ & HoD & Eo & No & _).
  assert (Hcp : ¬ con D (t_par T (pb_hash nh))) by (intros Hc; apply Hcn; by constructor).
  rewrite En, Eo, Nn, No.
  case_bool_decide as Hgap.
  - destruct (o_pending s !! t_par T (pb_hash nh)) as [nh'|] eqn:Ep; [|by intros [= <-]].
    destruct (pend_block _ _ _ _ Hb Ep) as (Eh & _). apply IH; try done; by rewrite ?Eh.
  - rewrite bool_decide_eq_false_2 by (intros E; rewrite <- E in Hcp; done).
    assert (HoR : pb_hash oh ≠ R).
    { intros E. rewrite E in *.
      assert (HRn : pb_hash nh ≠ R) by (intros E'; apply Hcn; rewrite E'; constructor).
      assert (HRp : t_par T (pb_hash nh) ≠ R) by (intros E'; apply Hcp; rewrite E'; constructor).
      assert (Ha := HAR _ (HDA _ HnD)).
      assert (Hap : ancestor T R (t_par T (pb_hash nh))) by (inversion Ha; subst; done).
      destruct (HAg _ (HDA _ HnD)) as [Gn _].
      destruct (anc_num _ Hap); [done|lia]. }
    destruct (con_inv _ _ Hco HoR) as [_ Hcop].
    destruct (o_pending s !! t_par T (pb_hash oh)) as [oh'|] eqn:Ep.
    + destruct (pend_block _ _ _ _ Hb Ep) as (Eh & _). apply IH; try done; by rewrite ?Eh.
    + exfalso. assert (HpD : t_par T (pb_hash oh) ∈ D).
      { destruct (below_in _ _ _ Hcop) as [->|]; [apply Hb|done]. }
      destruct (ba_pend _ _ Hb _ HpD) as [x Hx]. congruence.
Qed.

(** ** getPendingChild *)
Lemma difficulty_here D f o s h w :
  order_ok o → base D s → h ∈ D → difficulty f o s h = Ok w → (0 < w)%N.
Proof.
  intros Ho Hb. revert h w; induction f as [|f IH]; intros h w Hh; cbn [difficulty]; [discriminate|].
  destruct (o_queued s !! h) as [cs|] eqn:Hq.
  - assert (Hall : ∀ c, c ∈ o SDiff f h (elements cs) → c ∈ D).
    { intros c Hc. apply order_elem in Hc; [|done]. apply elem_of_elements in Hc. by eapply queued_block. }
    assert (Hne : o SDiff f h (elements cs) ≠ []).
    { intros E. pose proof (Ho SDiff f h (elements cs)) as Hperm. rewrite E in Hperm.
      apply Permutation_nil_l in Hperm. symmetry in Hperm. apply elements_empty_inv in Hperm.
      apply (st_nonempty _ _ (ba_stored _ _ Hb) _ _ Hq). by apply leibniz_equiv. }
    revert Hall Hne. generalize (o SDiff f h (elements cs)). intros l Hall Hne.
    destruct l as [|c l]; [done|]. cbn [foldM].
    destruct (difficulty f o s c) as [w1| |] eqn:E1; ob; [|discriminate|discriminate].
    assert (0 < w1)%N as Hw1 by (eapply IH; [|exact E1]; apply Hall, elem_of_list_here).
    apply (foldM_inv (λ m, (0 < m)%N)).
    + intros m y m' _ Hm. destruct (difficulty f o s y) as [w2| |]; ob; [|discriminate|discriminate].
      intros [= <-]. destruct (m <? w2)%N eqn:E; [apply N.ltb_lt in E; lia|done].
    + destruct (0 <? w1)%N eqn:E; [done|]. apply N.ltb_ge in E. lia.
  - destruct (ba_pend _ _ Hb h Hh) as [b Hp]. rewrite Hp. intros [= <-].
    destruct (pend_block _ _ _ _ Hb Hp) as (_ & _ & _ & _ & -> & _).
    destruct (HAg h (ba_sub _ _ Hb _ Hh)) as [_ ?]. lia.
Qed.

Lemma get_child_here D n o s h c :
  order_ok o → base D s → get_child n o s h = Ok (Some c) → c ∈ D ∧ t_par T c = h.
Proof.
  intros Ho Hb. unfold get_child. destruct (o_queued s !! h) as [cs|] eqn:Hq; [|discriminate].
  assert (Hall : ∀ c, c ∈ o SChild n h (elements cs) → c ∈ D ∧ t_par T c = h).
  { intros x Hc. apply order_elem in Hc; [|done]. apply elem_of_elements in Hc. by eapply queued_block. }
  assert (Hne : o SChild n h (elements cs) ≠ []).
  { intros E. pose proof (Ho SChild n h (elements cs)) as Hperm. rewrite E in Hperm.
    apply Permutation_nil_l in Hperm. symmetry in Hperm. apply elements_empty_inv in Hperm.
    apply (st_nonempty _ _ (ba_stored _ _ Hb) _ _ Hq). by apply leibniz_equiv. }
  revert Hall Hne. generalize (o SChild n h (elements cs)). intros l Hall Hne.
  destruct (foldM _ _ _) as [[w r]| |] eqn:E; ob; [|discriminate|discriminate].
  intros [= <-]. destruct l as [|c0 l]; [done|]. cbn [foldM fst] in E.
  destruct (difficulty (qfuel s) o s c0) as [w0| |] eqn:E0; ob; [|discriminate|discriminate].
  destruct (Hall c0) as [Hc0 Hp0]; [apply elem_of_list_here|].
  assert (0 < w0)%N as Hw0 by (eapply difficulty_here; [..|exact E0]; done).
  cbn [mbind outcome_bind] in E. rewrite (proj2 (N.ltb_lt _ _) Hw0) in E. cbn [snd].
  revert E. apply (foldM_inv (λ x : N * hash, x.2 ∈ D ∧ t_par T x.2 = h)) ; [|done].
  intros x y x' Hy Hx. destruct (difficulty (qfuel s) o s y); ob; [|discriminate|discriminate].
  intros [= <-]. destruct (_ <? _)%N; [|done]. cbn. apply Hall. by apply elem_of_list_further.
Qed.

(** ** Blocks that become connected.  [D0] are the blocks received before. *)
Section down.
Context (D0 D : gset hash).
Context (Hfork : ∀ c1 c2, c1 ∈ D → c2 ∈ D → t_par T c1 = t_par T c2 → ¬ con D0 (t_par T c1) → c1 = c2).
Context (Hnew : ∀ c, c ∈ D → c ≠ R → ¬ con D0 (t_par T c) → ¬ con D0 c).

Lemma child_ne x c : D ⊆ A → con D x → c ∈ D → t_par T c = x → c ≠ R.
Proof using All.
  intros HDA Hx Hc Hp ->. destruct (HAg _ (HDA _ Hc)) as [En _]. rewrite Hp in En.
  destruct (con_num _ _ HDA Hx) as [->|]; lia.
Qed.

(** Everything that was not connected before is queued, except possibly the new block. *)
Definition allq (x : hash) (s : omp) : Prop := ∀ h, h ∈ D → ¬ con D0 h → h = x ∨ isq s h.

Lemma allq_ext x s s' : ext s s' → allq x s → allq x s'.
Proof. intros Hx Ha h Hh Hc. destruct (Ha h Hh Hc) as [?|?]; [by left|right]. by apply Hx. Qed.

Lemma only_child b s x c : base D s → allq b s → con D0 (t_par T b) → con D x → ¬ con D0 x →
  c ∈ D → t_par T c = x → ∃ cs, o_queued s !! x = Some cs ∧ c ∈ cs.
Proof.
  intros Hb Ha Hpb Hxc Hx Hc Hp. destruct (Ha c Hc) as [->|(cs & Hq & Hin)].
  - apply Hnew; [done|by eapply child_ne; [apply Hb|..]|]. by rewrite Hp.
  - by rewrite Hp in Hpb.
  - rewrite Hp in Hq. eauto.
Qed.

Lemma emit_loop_down b f o s new s' new' :
  order_ok o → base D s → allq b s → con D0 (t_par T b) →
  con D (o_last s) → ¬ con D0 (o_last s) → o_lastw s = t_wt T (o_last s) → finished s (o_last s) = true →
  emit_loop f o s new = Ok (s', new') →
  base D s' ∧ ext s s' ∧ con D (o_last s') ∧ o_lastw s' = t_wt T (o_last s') ∧ (o_lastw s <= o_lastw s')%N ∧
  ∀ y, below D (o_last s) y → finished s' y = true ∧ (t_wt T y <= o_lastw s')%N.
Proof using All.
  intros Ho. revert s new; induction f as [|f IH]; intros s new Hb Ha Hpb Hl Hl0 Hw Hf; cbn [emit_loop]; [discriminate|].
  destruct (get_child f o s (o_last s)) as [[h|]| |] eqn:Eg; ob; [| |discriminate|discriminate].
  - destruct (get_child_here _ _ _ _ _ _ Ho Hb Eg) as [HhD Hhp].
    destruct (o_pending s !! h) as [pb|] eqn:Ep; [|discriminate].
    destruct (pend_block _ _ _ _ Hb Ep) as (Eh & _ & _ & _ & Ew & _).
    destruct (finish_siblings o s pb) as [s1| |] eqn:E1; ob; [|discriminate|discriminate].
    destruct (finish_siblings_base _ _ _ _ _ Ho Hb E1) as (B1 & X1 & L1 & Q1).
    set (s2 := set_last s1 _ _).
    assert (B2 : base D s2) by by apply base_last.
    assert (X2 : ext s s2) by (eapply ext_trans; [exact X1|apply ext_last]).
    destruct (fin_add o s2 (pb_hash pb)) as [s3| |] eqn:E3; ob; [|discriminate|discriminate].
    rewrite Eh in E3. destruct (fin_add_base _ _ _ _ _ B2 HhD E3) as (B3 & X3 & [L3 W3] & F3 & Q3).
    assert (X13 : ext s s3) by by eapply ext_trans.
    cbn in L3, W3. rewrite Eh in L3. rewrite Ew in W3.
    assert (Hwt : (t_wt T (o_last s) < t_wt T h)%N).
    { rewrite <- Hhp. apply HAg. by apply (ba_sub _ _ Hb). }
    intros He. apply IH in He as (C1 & C2 & C3 & C4 & C5 & C6); try done.
    + split; [done|]. split; [by eapply ext_trans|]. split; [done|]. split; [done|].
      rewrite W3 in C5. split; [lia|]. intros y Hy. destruct (below_down _ _ _ Hy) as [->|(c & Hc & Hcp & Hcy)].
      * split; [|lia]. apply C2. by apply X13.
      * assert (c = h) as ->.
        { apply Hfork; try done; [by rewrite Hcp|by rewrite Hcp]. }
        rewrite L3 in C6. by apply C6.
    + by eapply allq_ext.
    + rewrite L3. constructor; [done|]. by rewrite Hhp.
    + rewrite L3. apply Hnew; [done|by eapply child_ne; [apply Hb|..]|]. by rewrite Hhp.
    + by rewrite L3, W3.
    + by rewrite L3.
  - intros [= <- <-]. split; [done|]. split; [apply ext_refl|]. split; [done|]. split; [done|]. split; [lia|].
    intros y Hy. destruct (below_down _ _ _ Hy) as [->|(c & Hc & Hcp & _)]; [split; [done|lia]|].
    exfalso. apply get_child_none in Eg. destruct (only_child b s (o_last s) c) as (cs & Hq & _); try done. congruence.
Qed.

Lemma prepare_emit_down b o s new old s' pb :
  order_ok o → base D s → allq b s → con D0 (t_par T b) →
  last new = Some pb → Gd D pb → con D (pb_hash pb) → ¬ con D0 (pb_hash pb) →
  prepare_emit o s new old = Ok s' →
  base D s' ∧ ext s s' ∧ con D (o_last s') ∧ o_lastw s' = t_wt T (o_last s') ∧ (pb_weight pb <= o_lastw s')%N ∧
  ∀ y, below D (pb_hash pb) y → finished s' y = true ∧ (t_wt T y <= o_lastw s')%N.
Proof using All.
  intros Ho Hb Ha Hpb Hlast (Hag & HD & _) Hc Hc0. unfold prepare_emit. rewrite Hlast.
  destruct Hag as (_ & _ & _ & Ew).
  set (s1 := set_last s _ _).
  destruct (finish_siblings o s1 pb) as [s2| |] eqn:E2; ob; [|discriminate|discriminate].
  destruct (finish_siblings_base D o s1 pb s2 Ho ltac:(by apply base_last) E2) as (B2 & X2 & [L2 W2] & _).
  destruct (fin_add o s2 (pb_hash pb)) as [s3| |] eqn:E3; ob; [|discriminate|discriminate].
  destruct (fin_add_base _ _ _ _ _ B2 HD E3) as (B3 & X3 & [L3 W3] & F3 & _).
  assert (X13 : ext s s3) by (eapply ext_trans; [apply (ext_last s)|]; by eapply ext_trans).
  rewrite L2 in L3. rewrite W2 in W3. cbn in L3, W3.
  destruct (emit_loop _ o s3 new) as [[s4 new']| |] eqn:E4; ob; [|discriminate|discriminate].
  apply (emit_loop_down b) in E4 as (C1 & C2 & C3 & C4 & C5 & C6); try done.
  - intros [= <-]. split.
    { destruct C1 as [? ? C ? ? ? ? ?]. split; try done. eapply stored_ext; [..|exact C]; done. }
    split; [eapply ext_trans; [exact X13|]; eapply ext_trans; [exact C2|]; by split|].
    split; [done|]. split; [done|]. rewrite W3 in C5. rewrite L3 in C6. done.
  - by eapply allq_ext.
  - by rewrite L3.
  - by rewrite L3.
  - by rewrite L3, W3.
  - by rewrite L3.
Qed.

(** Handling a block that is connected now and was not before. *)
Lemma handle_down b f o s pb r s' :
  order_ok o → base D (set_pending s (<[pb_hash pb := pb]> (o_pending s))) →
  allq b s → con D0 (t_par T b) → b ∈ D →
  Gd D pb → con D (pb_hash pb) → ¬ con D0 (pb_hash pb) →
  (r = true ∨ finished s (pb_hash pb) = false) → finished s (pb_parent pb) = true →
  con D0 (o_last s) → con D (o_last s) → o_lastw s = t_wt T (o_last s) →
  handle f o s pb r = Ok s' →
  base D s' ∧ allq b s' ∧ (∀ h, finished s h = true → finished s' h = true) ∧
  con D (o_last s') ∧ o_lastw s' = t_wt T (o_last s') ∧ (o_lastw s <= o_lastw s')%N ∧
  ∀ y, below D (pb_hash pb) y → finished s' y = true ∧ (t_wt T y <= o_lastw s')%N.
Proof using All.
  intros Ho. revert s pb r s'; induction f as [|f IH]; intros s pb r s' Hb Ha Hpb HbD Hg Hc Hc0 Hr Hfp Hl0 Hl Hw; [discriminate|].
  cbn [handle]. assert (Hg' := Hg). destruct Hg' as ((_ & Epar & _ & Ewt) & HD & Hex).
  destruct (ba_bl _ _ Hb) as (Hbl & Hwl & Hthr). cbn in Hbl, Hwl, Hthr.
  rewrite Hwl, Hex. rewrite bool_decide_eq_false_2 by (rewrite Hbl; apply not_elem_of_empty).
  set (s1 := set_pending s _) in *.
  assert (Hp1 : o_pending s1 !! pb_hash pb = Some pb) by apply lookup_insert.
  assert (finished s1 (pb_hash pb) && negb r = false) as ->.
  { apply andb_false_iff. destruct Hr as [->|Hr]; [by right|by left]. }
  assert (Ha1 : allq b s1) by exact Ha.
  assert (HDA := ba_sub _ _ Hb).
  assert (HnR : pb_hash pb ≠ R) by (intros E; apply Hc0; rewrite E; constructor).
  assert (Hnum : (t_num T R < t_num T (pb_hash pb))%Z) by (by destruct (con_num _ _ HDA Hc)).
  assert (Hdone : ∀ new old, last new = Some pb → (o_lastw s <= pb_weight pb)%N → prepare_emit o s1 new old = Ok s' →
    base D s' ∧ allq b s' ∧ (∀ h, finished s h = true → finished s' h = true) ∧
    con D (o_last s') ∧ o_lastw s' = t_wt T (o_last s') ∧ (o_lastw s <= o_lastw s')%N ∧
    ∀ y, below D (pb_hash pb) y → finished s' y = true ∧ (t_wt T y <= o_lastw s')%N).
  { intros new old Hlast Hle He. apply (prepare_emit_down b _ _ _ _ _ pb) in He as (C1 & C2 & C3 & C4 & C5 & C6); try done.
    split; [done|]. split; [by eapply allq_ext|]. split; [apply C2|]. split; [done|]. split; [done|]. split; [lia|done]. }
  case_bool_decide as Hpl.
  { apply Hdone; [done|]. change (o_last s1) with (o_last s) in Hpl. rewrite Hw, <- Hpl, Epar, Ewt.
    destruct (HAg _ (HDA _ HD)) as [_ ?]. lia. }
  change (o_empty s1) with (o_empty s). rewrite (ba_empty _ _ Hb : o_empty s = false). cbn [andb].
  change (finished s1 (pb_parent pb)) with (finished s (pb_parent pb)). rewrite Hfp.
  change (o_last s1) with (o_last s). change (o_lastw s1) with (o_lastw s).
  assert (HlD : o_last s ∈ D) by (destruct (below_in _ _ _ Hl) as [->|]; [apply Hb|done]).
  destruct (ba_pend _ _ Hb _ HlD) as [lb Hlb]. rewrite Hlb.
  destruct (pend_block _ _ _ _ Hb Hlb) as (Elb & _).
  destruct (o_lastw s <? pb_weight pb)%N eqn:Hlt.
  - apply N.ltb_lt in Hlt. destruct (prepare_reorg s1 pb lb) as [r0| |] eqn:Er; ob; [|discriminate|discriminate].
    assert (Er' := Er). unfold prepare_reorg in Er.
    apply (walk_on D s1) in Er as (removed & added & ->); [|done|done|by rewrite Elb|done|by rewrite Elb|done].
    apply Hdone; [|lia]. unfold prepare_reorg in Er'. by eapply walk_last in Er'.
  - apply N.ltb_ge in Hlt.
    destruct (fin_add o s1 (pb_hash pb)) as [s2| |] eqn:E2; ob; [|discriminate|discriminate].
    destruct (fin_add_base _ _ _ _ _ Hb HD E2) as (B2 & X2 & [L2 W2] & F2 & _).
    destruct (get_child 0 o s2 (pb_hash pb)) as [[c|]| |] eqn:Eg; ob; [| |discriminate|discriminate].
    + destruct (get_child_here _ _ _ _ _ _ Ho B2 Eg) as [HcD Hcp].
      destruct (ba_pend _ _ B2 _ HcD) as [cpb Hcpb]. rewrite Hcpb.
      destruct (pend_block _ _ _ _ B2 Hcpb) as (Ech & _ & Ecp & _ & _ & Ecx).
      destruct (handle f o s2 cpb true) as [s3| |] eqn:E3; ob; [|discriminate|discriminate].
      assert (Es2 : set_pending s2 (<[pb_hash cpb := cpb]> (o_pending s2)) = s2).
      { rewrite Ech, insert_id by done. by destruct s2. }
      apply IH in E3 as (C1 & C2 & C3 & C4 & C5 & C6 & C7); try done.
      * intros [= <-]. split; [by apply base_queue|]. split; [eapply allq_ext; [apply ext_queue|done]|].
        split; [intros h Hh; apply C3; by apply X2|]. split; [done|]. split; [done|].
        cbn in L2, W2. rewrite W2 in C6. split; [done|]. cbn [o_lastw queue set_queued].
        intros y Hy. destruct (below_down _ _ _ Hy) as [->|(c' & Hc' & Hcp' & Hcy)].
        -- split; [by apply C3|]. rewrite Ewt in Hlt. etrans; [exact Hlt|exact C6].
        -- assert (c' = c) as ->; [|rewrite Ech in C7; by apply C7].
           apply Hfork; try done; [by rewrite Hcp|by rewrite Hcp'].
      * by rewrite Es2.
      * by eapply allq_ext.
      * apply (st_pending _ _ (ba_stored _ _ B2) _ _ Hcpb).
      * rewrite Ech. constructor; [done|]. by rewrite Hcp.
      * rewrite Ech. apply Hnew; [done|by apply (child_ne (pb_hash pb))|]. by rewrite Hcp.
      * by left.
      * by rewrite Ecp, Hcp.
      * by rewrite L2.
      * by rewrite L2.
      * by rewrite L2, W2.
    + intros [= <-]. split; [by apply base_queue|]. split; [eapply allq_ext; [|done]; eapply ext_trans; [exact X2|apply ext_queue]|].
      split; [intros h Hh; by apply X2|]. cbn in L2, W2 |- *. rewrite L2, W2. split; [done|]. split; [done|]. split; [lia|].
      intros y Hy. destruct (below_down _ _ _ Hy) as [->|(c' & Hc' & Hcp' & Hcy)].
      * split; [done|]. by rewrite <- Ewt.
      * exfalso. apply get_child_none in Eg. destruct (only_child b s2 (pb_hash pb) c') as (cs & Hq & _); try done; [by eapply allq_ext|congruence].
Qed.
End down.

(** Handling a block that is not connected. *)
Lemma handle_off D f o s pb r s' :
  order_ok o → base D (set_pending s (<[pb_hash pb := pb]> (o_pending s))) →
  Gd D pb → ¬ con D (pb_hash pb) → (r = false → finished s (pb_hash pb) = true → isq s (pb_hash pb)) →
  con D (o_last s) →
  handle f o s pb r = Ok s' →
  base D s' ∧ (∀ h, isq s h → isq s' h) ∧ isq s' (pb_hash pb) ∧ (∀ h, finished s h = true → finished s' h = true) ∧
  same_head s s'.
Proof.
  intros Ho. revert s pb r s'; induction f as [|f IH]; intros s pb r s' Hb Hg Hc Hr Hl; [discriminate|].
  cbn [handle]. assert (Hg' := Hg). destruct Hg' as ((_ & Epar & Enum & Ewt) & HD & Hex).
  destruct (ba_bl _ _ Hb) as (Hbl & Hwl & Hthr). cbn in Hbl, Hwl, Hthr.
  rewrite Hwl, Hex. rewrite bool_decide_eq_false_2 by (rewrite Hbl; apply not_elem_of_empty).
  set (s1 := set_pending s _) in *.
  assert (Hp1 : o_pending s1 !! pb_hash pb = Some pb) by apply lookup_insert.
  destruct (finished s1 (pb_hash pb) && negb r) eqn:Hfr.
  { apply andb_true_iff in Hfr as [Hf Hr']. intros [= <-]. split; [done|].
    split; [done|]. split; [apply Hr; [by destruct r|done]|done]. }
  rewrite bool_decide_eq_false_2.
  2: { intros E. apply Hc. constructor; [done|]. rewrite <- Epar, E. exact Hl. }
  change (o_empty s1) with (o_empty s). rewrite (ba_empty _ _ Hb : o_empty s = false). cbn [andb].
  change (o_last s1) with (o_last s). change (o_lastw s1) with (o_lastw s).
  assert (HlD : o_last s ∈ D) by (destruct (below_in _ _ _ Hl) as [->|]; [apply Hb|done]).
  destruct (ba_pend _ _ Hb _ HlD) as [lb Hlb]. rewrite Hlb.
  destruct (pend_block _ _ _ _ Hb Hlb) as (Elb & _ & _ & Nlb & _).
  assert (HDA := ba_sub _ _ Hb).
  (* queueing pb at the end of any harmless extension *)
  assert (Hq : ∀ s2, base D s2 → (∀ h, isq s h → isq s2 h) → (∀ h, finished s h = true → finished s2 h = true) → same_head s1 s2 →
    base D (queue s2 pb) ∧ (∀ h, isq s h → isq (queue s2 pb) h) ∧ isq (queue s2 pb) (pb_hash pb) ∧
    (∀ h, finished s h = true → finished (queue s2 pb) h = true) ∧ same_head s (queue s2 pb)).
  { intros s2 B2 X2 F2 L2. split; [by apply base_queue|]. split; [intros h Hh; by apply ext_queue, X2|].
    split; [by eapply isq_queue|done]. }
  destruct (finished s1 (pb_parent pb)) eqn:Hfp.
  - destruct (o_lastw s <? pb_weight pb)%N.
    + destruct (prepare_reorg s1 pb lb) as [r0| |] eqn:Er; ob; [|discriminate|discriminate].
      unfold prepare_reorg in Er. apply (walk_off D s1) in Er as ->; [|done|done|by rewrite Elb|done|by rewrite Elb].
      intros [= <-]. by apply Hq.
    + destruct (fin_add o s1 (pb_hash pb)) as [s2| |] eqn:E2; ob; [|discriminate|discriminate].
      destruct (fin_add_base _ _ _ _ _ Hb HD E2) as (B2 & X2 & L2 & F2 & _).
      destruct (get_child 0 o s2 (pb_hash pb)) as [[c|]| |] eqn:Eg; ob; [| |discriminate|discriminate].
      2: { intros [= <-]. apply Hq; [done|apply X2|apply X2|done]. }
      destruct (get_child_here _ _ _ _ _ _ Ho B2 Eg) as [HcD Hcp].
      destruct (ba_pend _ _ B2 _ HcD) as [cpb Hcpb]. rewrite Hcpb.
      destruct (pend_block _ _ _ _ B2 Hcpb) as (Ech & _ & Ecp & _ & _ & Ecx).
      destruct (handle f o s2 cpb true) as [s3| |] eqn:E3; ob; [|discriminate|discriminate].
      assert (Es2 : set_pending s2 (<[pb_hash cpb := cpb]> (o_pending s2)) = s2).
      { rewrite Ech, insert_id by done. by destruct s2. }
      apply IH in E3 as (C1 & C2 & C3 & C4 & C5); try done.
      * intros [= <-]. apply Hq; [done|intros h Hh; by apply C2, X2|intros h Hh; by apply C4, X2|by eapply same_head_trans].
      * by rewrite Es2.
      * apply (st_pending _ _ (ba_stored _ _ B2) _ _ Hcpb).
      * rewrite Ech. intros Hcc. apply Hc.
        assert (HcR : c ≠ R).
        { intros ->. assert (Ha := HAR _ (HDA _ HD)). destruct (anc_num _ Ha) as [E|Hlt].
          - apply Hc. rewrite E. constructor.
          - destruct (HAg _ (HDA _ HcD)) as [En _]. rewrite Hcp in En. lia. }
        destruct (con_inv _ _ Hcc HcR) as [_ Hcc']. by rewrite Hcp in Hcc'.
      * destruct L2 as [L2 _]. by rewrite L2.
  - destruct (pb_weight pb <? o_lastw s)%N.
    + rewrite bool_decide_eq_false_2.
      2: { change (o_thr s1) with (o_thr s). rewrite Hthr, Nlb, Enum. specialize (Hspan (o_last s) (pb_hash pb) (HDA _ HlD) (HDA _ HD)). lia. }
      destruct (fin_add o s1 (pb_hash pb)) as [s2| |] eqn:E2; ob; [|discriminate|discriminate].
      destruct (fin_add_base _ _ _ _ _ Hb HD E2) as (B2 & X2 & L2 & F2 & _).
      intros [= <-]. apply Hq; [done|apply X2|apply X2|done].
    + intros [= <-]. by apply Hq.
Qed.

Record inv (D : gset hash) (s : omp) : Prop := {
  iv_base : base D s;
  iv_q : ∀ h, h ∈ D → ¬ con D h → isq s h;
  iv_con : ∀ h, con D h → finished s h = true;
  iv_last : con D (o_last s);
  iv_lastw : o_lastw s = t_wt T (o_last s);
  iv_max : ∀ h, con D h → (t_wt T h <= o_lastw s)%N
}.

Lemma base_insert D s pb : base D s → Gd ({[pb_hash pb]} ∪ D) pb → pb_hash pb ∈ A →
  base ({[pb_hash pb]} ∪ D) (set_pending s (<[pb_hash pb := pb]> (o_pending s))).
Proof.
  intros [B1 B2 B3 B4 B5 B6 B7 B8] Hg HA. split; try done.
  - set_solver.
  - set_solver.
  - apply stored_pending; [|done]. destruct B3 as [S1 S2 S3]. split; [| |done].
    + intros h b Hb. destruct (S1 _ _ Hb) as [? (? & ? & ?)]. split; [done|]. split_and!; [done|set_solver|done].
    + intros p cs c Hq Hc. destruct (S2 _ _ _ Hq Hc) as (b & (? & ? & ?) & ? & ?). exists b.
      split; [|done]. split_and!; [done|set_solver|done].
  - intros h Hh. cbn. destruct (decide (h = pb_hash pb)) as [->|Hne]; [rewrite lookup_insert; eauto|].
    rewrite lookup_insert_ne by done. apply B4. set_solver.
  - intros h Hh. apply B5 in Hh. set_solver.
Qed.

Lemma handle_step D f o s pb s' :
  order_ok o → inv D s → agree T pb → excluded wl pb = false → pb_hash pb ∈ A →
  (∀ c1 c2, c1 ∈ D → c2 ∈ D → t_par T c1 = t_par T c2 → con D (t_par T c1) ∨ c1 = c2) →
  handle f o s pb false = Ok s' → inv ({[pb_hash pb]} ∪ D) s'.
Proof.
  intros Ho [Hb Hq Hcon Hl Hlw Hmax] Hag Hex HA Hfk H.
  set (D1 := {[pb_hash pb]} ∪ D).
  assert (HDD : D ⊆ D1) by set_solver.
  assert (Hg : Gd D1 pb) by (split_and!; [done|set_solver|done]).
  assert (Hb1 : base D1 (set_pending s (<[pb_hash pb := pb]> (o_pending s)))) by by apply base_insert.
  assert (HDA1 : D1 ⊆ A) by apply Hb1. assert (HDA : D ⊆ A) by apply Hb.
  assert (Hon : ∀ h, con D1 h → con D h ∨ below D1 (pb_hash pb) h) by apply con_add_on.
  assert (Hoff : ¬ con D1 (pb_hash pb) → ∀ h, con D1 h → con D h) by (intros Hx h; by apply con_add_off).
  assert (Hel : ∀ h, h ∈ D1 → h = pb_hash pb ∨ h ∈ D).
  { intros h [->%elem_of_singleton|?]%elem_of_union; [by left|by right]. }
  assert (Hid : pb_hash pb ∈ D → D1 = D) by (clear; intros; apply leibniz_equiv; set_solver).
  clearbody D1.
  assert (Hup : ∀ h, con D h → con D1 h) by (intros h; by apply below_mono).
  destruct (con_dec D1 (pb_hash pb) HDA1) as [Hc|Hc].
  - destruct (con_dec D (pb_hash pb) HDA) as [Hc0|Hc0].
    + (* already connected *)
      assert (HD1 : D1 = D).
      { assert (Hin : pb_hash pb ∈ D) by (destruct (below_in _ _ _ Hc0) as [->|]; [apply Hb|done]).
        by apply Hid. }
      destruct (ba_bl _ _ Hb) as (Hbl & Hwl & _).
      revert H. destruct f as [|f]; [discriminate|]. cbn [handle]. rewrite Hwl, Hex.
      rewrite bool_decide_eq_false_2 by (rewrite Hbl; apply not_elem_of_empty).
      change (finished (set_pending s (<[pb_hash pb := pb]> (o_pending s))) (pb_hash pb)) with (finished s (pb_hash pb)).
      rewrite (Hcon _ Hc0). cbn [andb negb]. intros [= <-].
      rewrite HD1 in *. by split.
    + assert (HnR : pb_hash pb ≠ R) by (intros E; apply Hc0; rewrite E; constructor).
      assert (Hc' : con D1 (t_par T (pb_hash pb))) by by destruct (con_inv _ _ Hc HnR).
      assert (Hpc : con D (t_par T (pb_hash pb))).
      { destruct (Hon _ Hc') as [?|Hbe]; [done|exfalso].
        destruct (HAg _ HA) as [En _]. destruct (below_num _ _ _ HDA1 Hbe) as [E|]; [rewrite E in En|]; lia. }
      assert (Hnb : pb_hash pb ∉ D) by (intros Hin; apply Hc0; by constructor).
      assert (Hf1 : ∀ c1 c2, c1 ∈ D1 → c2 ∈ D1 → t_par T c1 = t_par T c2 → ¬ con D (t_par T c1) → c1 = c2).
      { intros c1 c2 H1 H2 E Hn. apply Hel in H1 as [->|H1]; [done|].
        apply Hel in H2 as [->|H2]; [by rewrite E in Hn|]. by destruct (Hfk c1 c2 H1 H2 E). }
      assert (Hn1 : ∀ c, c ∈ D1 → c ≠ R → ¬ con D (t_par T c) → ¬ con D c).
      { intros c Hcd HcR Hn Hcc. apply Hn. by destruct (con_inv _ _ Hcc HcR). }
      assert (Hq1 : allq D D1 (pb_hash pb) s).
      { intros h Hh Hch. apply Hel in Hh as [->|Hh]; [by left|right; auto]. }
      assert (Hfr : false = true ∨ finished s (pb_hash pb) = false).
      { right. destruct (finished s (pb_hash pb)) eqn:E; [|done]. by apply (ba_fin _ _ Hb) in E. }
      assert (Hfp : finished s (pb_parent pb) = true) by (destruct Hag as (_ & -> & _); by apply Hcon).
      assert (HbD : pb_hash pb ∈ D1) by apply Hg.
      destruct (handle_down D D1 Hf1 Hn1 (pb_hash pb) f o s pb false s' Ho Hb1 Hq1 Hpc HbD Hg Hc Hc0 Hfr Hfp Hl (Hup _ Hl) Hlw H)
        as (C1 & C2 & C3 & C4 & C5 & C6 & C7).
      split; try done.
      * intros h Hh Hch. destruct (C2 h Hh) as [->|?]; [auto|done|done].
      * intros h Hch. destruct (Hon _ Hch) as [?|Hbe]; [by apply C3, Hcon|by apply C7].
      * intros h Hch. destruct (Hon _ Hch) as [Hx|Hbe]; [specialize (Hmax h Hx); lia|by apply C7].
  - assert (Hsame : ∀ h, con D1 h → con D h) by (by apply Hoff).
    assert (Hc0 : ¬ con D (pb_hash pb)) by (intros ?; by apply Hc, Hup).
    assert (Hfr : false = false → finished s (pb_hash pb) = true → isq s (pb_hash pb)).
    { intros _ Hf. apply Hq; [|done]. by apply (ba_fin _ _ Hb). }
    destruct (handle_off D1 f o s pb false s' Ho Hb1 Hg Hc Hfr (Hup _ Hl) H) as (C1 & C2 & C3 & C4 & C5 & C6).
    split; try done.
    + intros h Hh Hch. destruct (decide (h = pb_hash pb)) as [->|Hne]; [done|].
      apply C2, Hq; [by destruct (Hel h Hh)|]. intros ?; by apply Hch, Hup.
    + intros h Hch. by apply C4, Hcon, Hsame.
    + rewrite C5. by apply Hup.
    + congruence.
    + intros h Hch. rewrite C6. by apply Hmax, Hsame.
Qed.
End heavy.

Lemma con_list T R (D : list hash) h : con T R (list_to_set D) h ↔ connected T R D h.
Proof.
  split; induction 1 as [|h Hh _ IH]; try constructor; try done.
  - by apply elem_of_list_to_set in Hh.
  - by apply elem_of_list_to_set.
Qed.

Section run.
Context (T : tree) (cfg : config) (s0 : omp) (o0 : order) (b0 : pending_batch) (rest : list (order * omp_input)).
Let R := cfg_last_hash cfg.
Let l := (o0, InBatch b0) :: rest.
Let B := map pb_hash (batches_of l).
Context (HR : R ≠ zero_hash) (H0 : new_omp cfg = Ok s0) (Hw0 : t_wt T R = cfg_last_weight cfg)
        (Hfirst : pb_hash b0 = R)
        (Hord : orders_ok l) (Hnr : no_reorgs l)
        (Hag : Forall (agree T) (batches_of l))
        (Hgr : Forall (λ b, growing T (pb_hash b)) (batches_of l))
        (Hex : Forall (λ b, excluded (cfg_whitelist cfg) b = false) (batches_of l))
        (Hdesc : Forall (λ b, ancestor T R (pb_hash b)) (batches_of l))
        (Hdown : ∀ h, ancestor T R h → h = R ∨ growing T h)
        (Hwin : in_window (cfg_threshold cfg) (batches_of l))
        (Hfk : forks_connected T R B).

Let A : gset hash := list_to_set B.
Local Notation inv := (inv T R (cfg_whitelist cfg) (cfg_threshold cfg) A).

Lemma in_A h : h ∈ A ↔ ∃ b, b ∈ batches_of l ∧ pb_hash b = h.
Proof.
  unfold A, B. rewrite elem_of_list_to_set, elem_of_list_fmap.
  split; intros (b & ? & ?); exists b; done.
Qed.
Lemma A_anc h : h ∈ A → ancestor T R h.
Proof. intros (b & Hb & <-)%in_A. rewrite Forall_forall in Hdesc. by apply Hdesc. Qed.
Lemma A_grow h : h ∈ A → growing T h.
Proof. intros (b & Hb & <-)%in_A. rewrite Forall_forall in Hgr. by apply Hgr. Qed.
Lemma A_R : R ∈ A.
Proof. apply in_A. exists b0. split; [apply elem_of_list_here|done]. Qed.
Lemma A_span x y : x ∈ A → y ∈ A → (t_num T x - t_num T y <= cfg_threshold cfg)%Z.
Proof.
  intros (b & Hb & <-)%in_A (c & Hc & <-)%in_A. rewrite Forall_forall in Hag.
  destruct (Hag b Hb) as (_ & _ & <- & _). destruct (Hag c Hc) as (_ & _ & <- & _). by apply Hwin.
Qed.
Lemma A_size : size A ≤ Z.to_nat (cfg_threshold cfg * 2).
Proof.
  destruct Hwin as [Hsz _]. fold B in Hsz.
  assert (E : A = list_to_set (remove_dups B)).
  { apply leibniz_equiv. intros x. unfold A. by rewrite !elem_of_list_to_set, elem_of_remove_dups. }
  rewrite E, size_list_to_set by apply NoDup_remove_dups. lia.
Qed.

Lemma first_inv s : omp_run s0 [(o0, InBatch b0)] = Ok s → inv {[R]} s.
Proof.
  unfold omp_run. cbn [foldM]. unfold omp_step. cbn [fst snd]. unfold handle_batch.
  assert (Hb0 : b0 ∈ batches_of l) by apply elem_of_list_here.
  rewrite Forall_forall in Hag, Hex. assert (Ha := Hag _ Hb0). assert (He := Hex _ Hb0).
  assert (Hcap := fin_cap_new _ _ H0). destruct (new_cap_pos _ _ H0) as [Hpos Hwf].
  assert (Hst := stored_init (Gd T (cfg_whitelist cfg) {[R]}) _ _ H0).
  assert (Hst1 : stored (Gd T (cfg_whitelist cfg) {[R]}) (set_pending s0 (<[pb_hash b0:=b0]> (o_pending s0)))).
  { apply stored_pending; [done|]. split_and!; [done|rewrite Hfirst; set_solver|done]. }
  assert (Hself : ∀ h, finished s0 h = true ↔ h = R).
  { intros h. unfold finished, lru_contains. rewrite bool_decide_eq_true. revert H0. unfold new_omp.
    case_bool_decide; [discriminate|]. intros [= <-]. cbn [o_fin]. split.
    - intros [->|Hh]%lru_add_elem; [done|]. by apply elem_of_nil in Hh.
    - intros ->. apply lru_add_self. cbn. lia. }
  assert (Hs0 : o_last s0 = R ∧ o_lastw s0 = cfg_last_weight cfg ∧ o_empty s0 = false ∧ o_bl s0 = ∅ ∧
    o_wl s0 = cfg_whitelist cfg ∧ o_thr s0 = cfg_threshold cfg).
  { revert H0. unfold new_omp. case_bool_decide; [discriminate|]. intros [= <-]. cbn. split_and!; try done.
    by apply bool_decide_eq_false_2. }
  destruct Hs0 as (E1 & E2 & E3 & E4 & E5 & E6).
  generalize (qfuel s0). intros f. cbn [handle]. rewrite E5, He.
  rewrite bool_decide_eq_false_2 by (rewrite E4; apply not_elem_of_empty).
  set (s1 := set_pending s0 _) in *.
  assert (finished s1 (pb_hash b0) = true) as -> by (change (finished s0 (pb_hash b0) = true); by apply Hself).
  cbn [andb negb]. ob. intros [= <-].
  assert (Hcon : ∀ h, con T R {[R]} h → h = R).
  { intros h Hh. destruct (below_in _ _ _ _ Hh) as [->|?%elem_of_singleton]; done. }
  split.
  - split; try done.
    + intros h ->%elem_of_singleton. apply A_R.
    + by apply elem_of_singleton.
    + intros h ->%elem_of_singleton. unfold s1. cbn. rewrite Hfirst, lookup_insert. eauto.
    + intros h Hh. apply elem_of_singleton. by apply Hself.
    + split; [done|]. change (o_fin s1) with (o_fin s0). rewrite Hcap. apply A_size.
  - intros h ->%elem_of_singleton Hn. destruct Hn. constructor.
  - intros h ->%Hcon. by apply Hself.
  - change (o_last s1) with (o_last s0). rewrite E1. constructor.
  - change (o_last s1) with (o_last s0). change (o_lastw s1) with (o_lastw s0). by rewrite E1, E2.
  - intros h ->%Hcon. change (o_lastw s1) with (o_lastw s0). rewrite E2, Hw0. done.
Qed.

Lemma prefix_inv l1 l2 s :
  rest = l1 ++ l2 → omp_run s0 ((o0, InBatch b0) :: l1) = Ok s →
  inv (list_to_set (map pb_hash (batches_of ((o0, InBatch b0) :: l1)))) s.
Proof.
  revert l2 s; induction l1 as [|[o i] l1 IH] using rev_ind; intros l2 s Hl Hrun.
  - replace (list_to_set _) with ({[R]} : gset hash); [by apply first_inv|].
    cbn. by rewrite Hfirst, union_empty_r_L.
  - rewrite <- app_assoc in Hl. cbn in Hl.
    rewrite app_comm_cons in Hrun. unfold omp_run in Hrun. rewrite foldM_app in Hrun.
    change (foldM omp_step ((o0, InBatch b0) :: l1) s0) with (omp_run s0 ((o0, InBatch b0) :: l1)) in Hrun.
    destruct (omp_run s0 ((o0, InBatch b0) :: l1)) as [s1| |] eqn:E1; [|discriminate|discriminate].
    assert (Hi := IH _ _ Hl eq_refl).
    destruct i as [pb|n h].
    2: { exfalso. unfold no_reorgs, l in Hnr. rewrite Hl in Hnr. rewrite app_comm_cons in Hnr.
         unfold reorgs_of in Hnr. rewrite omap_app in Hnr. apply app_eq_nil in Hnr as [_ ?]. done. }
    assert (Hin : pb ∈ batches_of l).
    { unfold l. rewrite Hl, app_comm_cons, batches_of_app. apply elem_of_app. right. apply elem_of_list_here. }
    assert (Ho : order_ok o).
    { unfold orders_ok in Hord. rewrite Forall_forall in Hord. apply (Hord (o, InBatch pb)).
      unfold l. rewrite Hl. apply elem_of_cons. right. apply elem_of_app. right. apply elem_of_list_here. }
    cbn [mbind outcome_bind foldM] in Hrun. unfold omp_step in Hrun at 1. cbn [fst snd] in Hrun.
    destruct (handle_batch o s1 pb) as [s2| |] eqn:E2; [|discriminate|discriminate].
    injection Hrun as <-. unfold handle_batch in E2.
    set (D := list_to_set (map pb_hash (batches_of ((o0, InBatch b0) :: l1))) : gset hash) in *.
    replace (list_to_set _) with ({[pb_hash pb]} ∪ D).
    2: { apply leibniz_equiv. intros x. unfold D. rewrite app_comm_cons, batches_of_app, map_app.
         rewrite list_to_set_app_L. cbn. rewrite union_empty_r_L. by rewrite (union_comm_L _ {[pb_hash pb]}). }
    assert (Hagp : agree T pb) by (eapply Forall_forall in Hag; done).
    assert (Hexp : excluded (cfg_whitelist cfg) pb = false) by (eapply Forall_forall in Hex; done).
    eapply (handle_step T R); [apply A_anc|apply A_grow|done|apply A_R|apply A_span|done|exact Hi|exact Hagp|exact Hexp| | |exact E2].
    + apply in_A. eauto.
    + intros c1 c2 H1 H2 E. unfold D in *. apply elem_of_list_to_set in H1. apply elem_of_list_to_set in H2.
      rewrite con_list. eapply Hfk; try done. unfold B, l. rewrite Hl, app_comm_cons, batches_of_app, map_app. done.
Qed.

Lemma heavy_head : ∃ s c,
  omp_run s0 l = Ok s ∧ client_run (Client R []) (o_out s) = Some c ∧ heaviest T R B (tip c) ∧ o_last s = tip c.
Proof.
  assert (Hkeep : no_late_repeats s0 l).
  { intros l1 o b l2 s1 El Hr1 Hb. destruct l1 as [|x l1]; [by apply elem_of_nil in Hb|].
    unfold l in El. injection El as <- El. assert (Hi := prefix_inv _ _ _ El Hr1).
    apply (ba_pend _ _ _ _ _ _ _ (iv_base _ _ _ _ _ _ _ Hi)). by apply elem_of_list_to_set. }
  destruct (never_panics T cfg s0 l) as [s Hs]; try done.
  destruct (run_accepts (agree T) T cfg s0 l s) as (c & Hc & _ & _ & _ & Ht); try done.
  { intros b Hb _. clear -Hag Hb. rewrite Forall_forall in Hag. by apply Hag. }
  exists s, c. split; [done|]. split; [done|]. split; [|done].
  assert (Hi : inv A s) by (apply (prefix_inv rest []); [by rewrite app_nil_r|done]).
  rewrite Ht. split.
  - apply con_list. apply Hi.
  - intros x Hx. rewrite <- (iv_lastw _ _ _ _ _ _ _ Hi). apply (iv_max _ _ _ _ _ _ _ Hi). by apply con_list.
Qed.
End run.

Lemma not_excluded wl T b : agree T b → (0 <= pb_num b < 2 ^ 63)%Z → ¬ barred wl T (pb_hash b) → excluded wl b = false.
Proof.
  intros (_ & _ & En & _) Hn Hb. unfold excluded, uint64. rewrite Z.mod_small by lia.
  destruct (wl !! pb_num b) as [w|] eqn:Ew; [|done].
  apply bool_decide_eq_false_2. intros Hne. apply Hb. split; [by rewrite <-En|]. exists w. by rewrite <-En.
Qed.

Lemma heavy_head_spec (T : tree) cfg s0 o0 b0 rest :
  let R := cfg_last_hash cfg in
  let l := (o0, InBatch b0) :: rest in
  let D := map pb_hash (batches_of l) in
  R ≠ zero_hash → new_omp cfg = Ok s0 → t_wt T R = cfg_last_weight cfg → pb_hash b0 = R →
  orders_ok l → no_reorgs l →
  Forall (agree T) (batches_of l) → Forall (λ b, growing T (pb_hash b)) (batches_of l) →
  Forall (λ b, (0 <= pb_num b < 2 ^ 63)%Z ∧ ¬ barred (cfg_whitelist cfg) T (pb_hash b)) (batches_of l) →
  Forall (λ b, ancestor T R (pb_hash b)) (batches_of l) →
  (∀ h, ancestor T R h → h = R ∨ growing T h) →
  in_window (cfg_threshold cfg) (batches_of l) → forks_connected T R D →
  ∃ s c, omp_run s0 l = Ok s ∧ client_run (Client R []) (o_out s) = Some c ∧
         heaviest T R D (tip c) ∧ o_last s = tip c.
Proof.
  cbn zeta. intros HR H0 Hw0 Hf Hord Hnr Hag Hgr Hex. apply heavy_head; try done.
  apply Forall_forall. intros b Hb. assert (Ha : agree T b) by (by eapply Forall_forall in Hb; [|exact Hag]).
  eapply Forall_forall in Hex as [Hn Hx]; [|exact Hb]. by eapply not_excluded.
Qed.
