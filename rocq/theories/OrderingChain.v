(** C25: a fork-free chain is delivered in order, completely and once. *)
From Verif Require Import Base Lru LruFacts Types Ordering SpecChain OrderingBase OrderingGrow OrderingFacts
  OrderingMisc OrderingTotal OrderingPanic.

Lemma difficulty_np f o s h : difficulty f o s h ≠ Panic.
Proof.
  revert h; induction f as [|f IH]; intros h; cbn [difficulty]; [done|].
  destruct (o_queued s !! h).
  - apply foldM_np. intros m c. specialize (IH c). destruct (difficulty f o s c); ob; done.
  - by destruct (o_pending s !! h).
Qed.

(** Every request to discard older messages carries the number of a block just released. *)
Lemma evict_events f o s h s' : keyed s → evict f o s h = Ok s' →
  keyed s' ∧ ∀ n, EvEvict n ∈ o_out s' → EvEvict n ∈ o_out s ∨
    ∃ x b, o_pending s !! x = Some b ∧ o_pending s' !! x = None ∧ pb_num b = n.
Proof.
  revert s h s'; induction f as [|f IH]; intros s h s' Hk; cbn [evict]; [discriminate|].
  destruct (o_pending s !! h) as [pb|] eqn:Hp; [|intros [= <-]; split; [done|by left]].
  assert (Hh := Hk _ _ Hp). rewrite Hh.
  set (s1 := send (set_pending s _) _).
  assert (Hk1 : keyed s1) by (eapply keyed_mono; [|exact Hk]; apply delete_subseteq).
  destruct (evict f o s1 (pb_parent pb)) as [s2| |] eqn:E2; ob; [|discriminate|discriminate].
  assert (S2 := E2). apply evict_sub in S2 as [S2 _].
  apply IH in E2 as [Hk2 E2]; [|done].
  set (P := λ x, o_pending x ⊆ o_pending s1 ∧ keyed x ∧ ∀ n, EvEvict n ∈ o_out x → EvEvict n ∈ o_out s ∨
    ∃ y b, o_pending s !! y = Some b ∧ o_pending x !! y = None ∧ pb_num b = n).
  assert (Hgone : ∀ (p : gmap hash pending_batch) y, p ⊆ o_pending s1 → o_pending s1 !! y = None → p !! y = None).
  { intros p y Hsub Hn. destruct (p !! y) eqn:E; [|done]. eapply lookup_weaken in E; [|exact Hsub]. congruence. }
  assert (HP2 : P s2).
  { split; [apply S2|]. split; [done|]. intros n Hn. destruct (E2 n Hn) as [Hn'|(y & b & Hy & Hy' & Hb)].
    - cbn in Hn'. apply elem_of_app in Hn' as [?|[= ->]%elem_of_list_singleton]; [by left|right].
      exists h, pb. split; [done|]. split; [|done]. apply Hgone; [apply S2|]. cbn. apply lookup_delete.
    - right. exists y, b. split; [|done]. cbn in Hy. by apply lookup_delete_Some in Hy as [_ ?]. }
  destruct (o_queued s2 !! h) as [cs|] eqn:Hq; [|intros [= <-]; apply HP2].
  destruct (foldM _ _ s2) as [s3| |] eqn:E3; ob; [|discriminate|discriminate].
  intros [= <-].
  assert (HP3 : P s3).
  { revert E3. apply (foldM_inv P); [|done].
    intros x c x' _ (X1 & X2 & X3). destruct (finished x c); [by intros [= <-]|].
    intros Hev. assert (Sx := Hev). apply evict_sub in Sx as [Sx _]. apply IH in Hev as [Hkx Hev]; [|done].
    split; [etrans; [apply Sx|done]|]. split; [done|]. intros n Hn.
    destruct (Hev n Hn) as [Hn'|(y & b & Hy & Hy' & Hb)].
    - destruct (X3 n Hn') as [?|(y & b & Hy & Hy' & Hb)]; [by left|right]. exists y, b. split; [done|]. split; [|done].
      destruct (o_pending x' !! y) eqn:E; [|done]. eapply lookup_weaken in E; [|apply Sx]. congruence.
    - right. exists y, b. split; [|done]. eapply lookup_weaken in Hy; [|exact X1]. cbn in Hy. by apply lookup_delete_Some in Hy as [_ ?]. }
  apply HP3.
Qed.

Section chain.
Context (T : tree) (ch : nat → hash) (HC : single_chain T ch).

Lemma ch_num i : t_num T (ch i) = (t_num T (ch 0) + Z.of_nat i)%Z.
Proof.
  induction i as [|i IH]; [lia|]. destruct (HC i) as [E [En _]]. rewrite En, E, IH. lia.
Qed.
Lemma ch_inj i j : ch i = ch j → i = j.
Proof. intros E. pose proof (ch_num i). pose proof (ch_num j). rewrite E in *. lia. Qed.
Lemma ch_wt i j : i < j → (t_wt T (ch i) < t_wt T (ch j))%N.
Proof.
  induction 1 as [|j Hj IH].
  - destruct (HC i) as [E [_ Ew]]. by rewrite E in Ew.
  - destruct (HC j) as [E [_ Ew]]. rewrite E in Ew. lia.
Qed.
Lemma ch_wt_le i j : i ≤ j → (t_wt T (ch i) <= t_wt T (ch j))%N.
Proof. intros H. destruct (decide (i = j)) as [->|]; [lia|]. assert (i < j) by lia. pose proof (ch_wt i j). lia. Qed.

Context (L : list pending_batch) (wl : gmap Z hash) (Hwl : ∀ b, b ∈ L → excluded wl b = false).
(** Blocks of the chain received so far. *)
Definition Gd (D : gset hash) (b : pending_batch) : Prop :=
  agree T b ∧ b ∈ L ∧ pb_hash b ∈ D ∧ ∃ i, pb_hash b = ch (S i).

Lemma Gd_mono D D' b : D ⊆ D' → Gd D b → Gd D' b.
Proof. intros Hs (? & ? & ? & ?). split_and!; auto. Qed.
Lemma stored_mono D D' s : D ⊆ D' → stored (Gd D) s → stored (Gd D') s.
Proof.
  intros Hs [H1 H2 H3]. split; [| |done].
  - intros h b Hb. destruct (H1 _ _ Hb). split; [done|]. by eapply Gd_mono.
  - intros p cs c Hq Hc. destruct (H2 _ _ _ Hq Hc) as (b & Hb & ?). exists b. split; [by eapply Gd_mono|done].
Qed.
Lemma Gd_agree D b : Gd D b → agree T b.
Proof. by intros (? & _). Qed.

Lemma queued_next D s i cs c : stored (Gd D) s → o_queued s !! ch i = Some cs → c ∈ cs → c = ch (S i) ∧ c ∈ D.
Proof.
  intros Hst Hq Hc. destruct (st_queued _ _ Hst _ _ _ Hq Hc) as (b & (Ha & _ & Hd & j & Hj) & <- & Hp).
  split; [|done]. destruct Ha as (_ & Hpar & _). rewrite Hj in *. destruct (HC j) as [E _].
  rewrite E in Hpar. rewrite Hp in Hpar. apply ch_inj in Hpar as <-. done.
Qed.
Lemma pend_in D s h b : stored (Gd D) s → o_pending s !! h = Some b → pb_hash b = h ∧ Gd D b.
Proof. intros Hst Hb. by apply (st_pending _ _ Hst). Qed.
Lemma pend_chain D s i b : stored (Gd D) s → o_pending s !! ch i = Some b →
  ∃ j, i = S j ∧ pb_parent b = ch j ∧ pb_hash b = ch i.
Proof.
  intros Hst Hb. destruct (pend_in _ _ _ _ Hst Hb) as [Eh (Ha & _ & _ & j & Hj)].
  exists j. rewrite Eh in Hj. apply ch_inj in Hj as ->. split; [done|]. split; [|done].
  destruct Ha as (_ & Hp & _). rewrite Hp, Eh. apply HC.
Qed.

(** Eviction does not pass a block that is missing or finished. *)
Lemma evict_barrier D m f o s i s' :
  order_ok o → stored (Gd D) s → i ≤ m →
  finished s (ch (S m)) = true ∨ o_pending s !! ch (S m) = None →
  evict f o s (ch i) = Ok s' →
  ∀ j, m < j → o_pending s' !! ch j = o_pending s !! ch j ∧ o_queued s' !! ch j = o_queued s !! ch j.
Proof.
  intros Ho. revert s i s'; induction f as [|f IH]; intros s i s' Hst Hi Hbar; cbn [evict]; [discriminate|].
  destruct (o_pending s !! ch i) as [pb|] eqn:Hp; [|by intros [= <-]].
  destruct (pend_chain _ _ _ _ Hst Hp) as (i' & -> & Hpar & Hh). rewrite Hh, Hpar.
  set (s1 := send (set_pending s _) _).
  assert (Hst1 : stored (Gd D) s1) by (eapply stored_ext; [..|apply (stored_delete _ s (ch (S i')) Hst)]; done).
  assert (Hne : ∀ j, m < j → ch (S i') ≠ ch j) by (intros j Hj E; apply ch_inj in E; lia).
  assert (Hbar1 : finished s1 (ch (S m)) = true ∨ o_pending s1 !! ch (S m) = None).
  { destruct Hbar as [?|Hbar]; [by left|right]. cbn. apply lookup_delete_None. by right. }
  destruct (evict f o s1 (ch i')) as [s2| |] eqn:E2; ob; [|discriminate|discriminate].
  assert (S2 := E2). apply evict_sub in S2 as [S2 F2].
  assert (Hst2 : stored (Gd D) s2) by (by eapply stored_sub).
  assert (H2 : ∀ j, m < j → o_pending s2 !! ch j = o_pending s !! ch j ∧ o_queued s2 !! ch j = o_queued s !! ch j).
  { intros j Hj. assert (Hi' : i' ≤ m) by lia. destruct (IH _ _ _ Hst1 Hi' Hbar1 E2 j Hj) as [-> ->]. cbn.
    rewrite lookup_delete_ne by auto. done. }
  assert (Hbar2 : finished s2 (ch (S m)) = true ∨ o_pending s2 !! ch (S m) = None).
  { destruct Hbar1 as [Hb|Hb]; [left; unfold finished in *; by rewrite F2|right].
    destruct (o_pending s2 !! ch (S m)) eqn:E; [|done]. eapply lookup_weaken in E; [|apply S2]. congruence. }
  destruct (o_queued s2 !! ch (S i')) as [cs|] eqn:Hq; [|intros [= <-]; done].
  destruct (foldM _ _ s2) as [s3| |] eqn:E3; ob; [|discriminate|discriminate].
  intros [= <-].
  set (P := λ x, stored (Gd D) x ∧ (finished x (ch (S m)) = true ∨ o_pending x !! ch (S m) = None) ∧
    ∀ j, m < j → o_pending x !! ch j = o_pending s !! ch j ∧ o_queued x !! ch j = o_queued s !! ch j).
  assert (H3 : P s3).
  { revert E3. apply (foldM_inv P); [|done].
    intros x c x' Hc (X1 & X2 & X3). apply order_elem in Hc; [|done]. apply elem_of_elements in Hc.
    destruct (queued_next _ _ _ _ _ Hst2 Hq Hc) as [-> _].
    destruct (finished x (ch (S (S i')))) eqn:Ef; [intros [= <-]; done|].
    intros Hev. assert (Sx := Hev). apply evict_sub in Sx as [Sx Fx].
    split; [by eapply stored_sub|]. split.
    - destruct X2 as [Hb|Hb]; [left; unfold finished in *; by rewrite Fx|right].
      destruct (o_pending x' !! ch (S m)) eqn:E; [|done]. eapply lookup_weaken in E; [|apply Sx]. congruence.
    - intros j Hj. destruct (decide (S (S i') ≤ m)) as [Hle|Hgt].
      + destruct (IH _ _ _ X1 Hle X2 Hev j Hj) as [-> ->]. by apply X3.
      + assert (S i' = m) as <- by lia. destruct X2 as [X2|X2]; [congruence|].
        assert (x' = x) as ->; [|by apply X3].
        destruct f; cbn [evict] in Hev; [discriminate|]. rewrite X2 in Hev. by injection Hev. }
  destruct H3 as (_ & _ & H3). intros j Hj. cbn. destruct (H3 j Hj) as [-> <-]. split; [done|].
  rewrite lookup_delete_ne by auto. done.
Qed.

Definition fin_upto (s : omp) (k : nat) : Prop := ∀ h, finished s h = true → ∃ i, i ≤ k ∧ h = ch i.
Definition cache_ok (s : omp) : Prop := 0 < lru_cap (o_fin s) ∧ lru_wf (o_fin s).

Lemma fin_add_chain D m p o s s' :
  order_ok o → stored (Gd D) s → cache_ok s → fin_upto s m → p ≤ S m →
  p = S m ∨ o_pending s !! ch (S m) = None →
  fin_add o s (ch p) = Ok s' →
  stored (Gd D) s' ∧ cache_ok s' ∧ sub s s' ∧ fin_upto s' (max p m) ∧ finished s' (ch p) = true ∧
  (∀ j, m < j → o_pending s' !! ch j = o_pending s !! ch j ∧ o_queued s' !! ch j = o_queued s !! ch j) ∧
  ∀ n, EvEvict n ∈ o_out s' → EvEvict n ∈ o_out s ∨ (n <= t_num T (ch m))%Z.
Proof.
  intros Ho Hst [Hcap Hwf] Hfin Hp Hbar Hadd.
  assert (Hself := fin_add_self _ _ _ _ Hcap Hadd).
  assert (Hsub := Hadd). apply fin_add_sub in Hsub as [Hsub Ef].
  assert (Hcap' : cache_ok s').
  { split; rewrite Ef; [by rewrite lru_add_cap|by apply lru_add_wf]. }
  split; [by eapply stored_sub|]. split; [done|]. split; [done|]. split; [|split; [done|]].
  2: assert (Hlook : ∀ j, m < j → o_pending s' !! ch j = o_pending s !! ch j ∧ o_queued s' !! ch j = o_queued s !! ch j);
     [|split; [exact Hlook|]].
  - intros h Hh. unfold finished, lru_contains in Hh. apply bool_decide_eq_true in Hh. rewrite Ef in Hh.
    apply lru_add_elem in Hh as [->|Hh]; [exists p; split; [lia|done]|].
    destruct (Hfin h) as (i & Hi & ->); [by apply bool_decide_eq_true|]. exists i. split; [lia|done].
  - unfold fin_add in Hadd. pose proof (lru_add_evicted (o_fin s) (ch p)) as He.
    destruct (lru_add (o_fin s) (ch p)) as [l [k|]] eqn:El; [|by injection Hadd as <-].
    destruct (He k Hcap Hwf eq_refl) as (Hk & _).
    destruct (Hfin k) as (i & Hi & ->); [by apply bool_decide_eq_true|].
    intros j Hj. eapply (evict_barrier D m) in Hadd; [exact Hadd|done| |done| |done].
    + eapply stored_ext; [..|exact Hst]; done.
    + destruct Hbar as [->|Hbar]; [left|by right].
      unfold finished, lru_contains. apply bool_decide_eq_true. cbn [o_fin set_fin].
      pose proof (lru_add_self (o_fin s) (ch (S m)) Hcap) as Hs. by rewrite El in Hs.
  - intros n Hn. unfold fin_add in Hadd.
    destruct (lru_add (o_fin s) (ch p)) as [l [k|]]; [|injection Hadd as <-; by left].
    assert (Hk : keyed (set_fin s l)) by (intros h b Hb; by apply (st_pending _ _ Hst) in Hb as [? _]).
    apply evict_events in Hadd as [_ Hev]; [|done]. destruct (Hev n Hn) as [?|(x & b & Hx & Hx' & <-)]; [by left|right].
    destruct (pend_in _ _ _ _ Hst Hx) as [Eh ((_ & _ & -> & _) & _ & _ & i & Hi)].
    rewrite Hi, !(ch_num (S i)), (ch_num m). destruct (decide (m < S i)) as [Hlt|]; [|lia].
    destruct (Hlook _ Hlt) as [E _]. rewrite <- Hi, Eh in E. cbn in Hx. congruence.
Qed.

(** All later received blocks are stored and queued. *)
Definition ahead (D : gset hash) (s : omp) (k : nat) : Prop :=
  ∀ j, k < j → ch j ∈ D → is_Some (o_pending s !! ch j) ∧
    ∃ cs, o_queued s !! ch (pred j) = Some cs ∧ ch j ∈ cs.

Lemma siblings_none D o s pb i :
  stored (Gd D) s → order_ok o → pb_hash pb = ch (S i) → pb_parent pb = ch i → finish_siblings o s pb = Ok s.
Proof.
  intros Hst Ho Hh Hp. unfold finish_siblings. rewrite Hp.
  destruct (o_queued s !! ch i) as [cs|] eqn:Hq; [|done].
  assert (Hall : ∀ c, c ∈ o SSiblings 0 (ch i) (elements cs) → c = pb_hash pb).
  { intros c Hc. apply order_elem in Hc; [|done]. apply elem_of_elements in Hc.
    rewrite Hh. by eapply queued_next. }
  revert Hall. generalize (o SSiblings 0 (ch i) (elements cs)). intros l Hall.
  generalize (qfuel s). intros n. induction l as [|c l IH]; [done|]. cbn [foldM].
  rewrite bool_decide_eq_false_2; [|intros Hne; apply Hne; apply Hall; apply elem_of_list_here].
  ob. apply IH. intros x Hx. apply Hall. by apply elem_of_list_further.
Qed.

Lemma order_ne o st n h cs : order_ok o → cs ≠ (∅ : gset hash) → o st n h (elements cs) ≠ [].
Proof.
  intros Ho Hne E. pose proof (Ho st n h (elements cs)) as Hperm. rewrite E in Hperm.
  apply Permutation_nil_l in Hperm. symmetry in Hperm. apply elements_empty_inv in Hperm.
  apply Hne. by apply leibniz_equiv.
Qed.

Lemma difficulty_chain D f o s k j w :
  order_ok o → stored (Gd D) s → ahead D s k → k < j → ch j ∈ D →
  difficulty f o s (ch j) = Ok w → (0 < w)%N.
Proof.
  intros Ho Hst Hah. revert j w; induction f as [|f IH]; intros j w Hj HD; cbn [difficulty]; [discriminate|].
  destruct (o_queued s !! ch j) as [cs|] eqn:Hq.
  - assert (Hall : ∀ c, c ∈ o SDiff f (ch j) (elements cs) → c = ch (S j) ∧ c ∈ D).
    { intros c Hc. apply order_elem in Hc; [|done]. apply elem_of_elements in Hc. by eapply queued_next. }
    assert (Hne := order_ne o SDiff f (ch j) cs Ho (st_nonempty _ _ Hst _ _ Hq)).
    revert Hall Hne. generalize (o SDiff f (ch j) (elements cs)). intros l Hall Hne.
    destruct l as [|c l]; [done|]. cbn [foldM].
    destruct (Hall c) as [-> Hc]; [apply elem_of_list_here|].
    destruct (difficulty f o s (ch (S j))) as [w1| |] eqn:E1; ob; [|discriminate|discriminate].
    assert (0 < w1)%N as Hw1 by (eapply IH; [|exact Hc|exact E1]; lia).
    apply (foldM_inv (λ m, (0 < m)%N)).
    + intros m y m' _ Hm. destruct (difficulty f o s y) as [w2| |]; ob; [|discriminate|discriminate].
      intros [= <-]. destruct (m <? w2)%N eqn:E; [apply N.ltb_lt in E; lia|done].
    + destruct (0 <? w1)%N eqn:E; [done|]. apply N.ltb_ge in E. lia.
  - destruct (Hah j Hj HD) as [[b Hb] _]. rewrite Hb. intros [= <-].
    destruct (pend_in _ _ _ _ Hst Hb) as [Eh ((_ & _ & _ & ->) & _)]. rewrite Eh.
    pose proof (ch_wt k j Hj). lia.
Qed.

Lemma get_child_chain D n o s k :
  order_ok o → stored (Gd D) s → ahead D s k →
  (get_child n o s (ch k) = Ok None ∧ ch (S k) ∉ D) ∨
  (get_child n o s (ch k) = Ok (Some (ch (S k))) ∧ ch (S k) ∈ D) ∨
  get_child n o s (ch k) = Hang.
Proof.
  intros Ho Hst Hah. unfold get_child. destruct (o_queued s !! ch k) as [cs|] eqn:Hq.
  - assert (Hall : ∀ c, c ∈ o SChild n (ch k) (elements cs) → c = ch (S k) ∧ c ∈ D).
    { intros c Hc. apply order_elem in Hc; [|done]. apply elem_of_elements in Hc. by eapply queued_next. }
    assert (Hne := order_ne o SChild n (ch k) cs Ho (st_nonempty _ _ Hst _ _ Hq)).
    revert Hall Hne. generalize (o SChild n (ch k) (elements cs)). intros l Hall Hne.
    destruct l as [|c l]; [done|]. cbn [foldM].
    destruct (Hall c) as [-> Hc]; [apply elem_of_list_here|]. cbn [fst].
    right. destruct (difficulty (qfuel s) o s (ch (S k))) as [w1| |] eqn:E1; ob; [| |by right].
    + left. split; [|done]. assert (0 < w1)%N as Hw1 by (eapply difficulty_chain; [..|exact E1]; eauto).
      rewrite (proj2 (N.ltb_lt _ _) Hw1).
      assert (Hl : ∃ w, foldM (λ (acc : N * hash) c,
                 td ← difficulty (qfuel s) o s c;
                 Ok (if (acc.1 <? td)%N then (td, c) else acc)) l (w1, ch (S k)) = Ok (w, ch (S k))).
      { assert (Hall' : ∀ c, c ∈ l → c = ch (S k)).
        { intros c Hin. apply Hall. by apply elem_of_list_further. }
        clear Hall Hne Hw1. generalize w1 at 1. induction l as [|c l IH]; intros w; cbn [foldM]; [by eexists|].
        rewrite (Hall' c) by apply elem_of_list_here. rewrite E1. ob.
        destruct (_ <? _)%N; apply IH; intros x Hx; apply Hall'; by apply elem_of_list_further. }
      destruct Hl as [w ->]. ob. done.
    + by apply difficulty_np in E1.
  - left. split; [done|]. intros HD. destruct (Hah (S k)) as [_ (cs & Hcs & _)]; [lia|done|].
    cbn in Hcs. congruence.
Qed.

(** Invariant after handling a block, with head [ch k]. *)
Record chain_inv (D : gset hash) (k : nat) (s : omp) : Prop := {
  ci_stored : stored (Gd D) s;
  ci_cache : cache_ok s;
  ci_last : o_last s = ch k;
  ci_lastw : o_lastw s = t_wt T (ch k);
  ci_fin : fin_upto s k;
  ci_gap : ch (S k) ∉ D;
  ci_ahead : ahead D s k;
  ci_empty : o_empty s = false;
  ci_bl : o_bl s = ∅ ∧ o_wl s = wl;
  ci_evs : ∀ n, EvEvict n ∈ o_out s → (n <= t_num T (ch k))%Z
}.

Lemma emit_loop_chain D f o s new k :
  order_ok o → stored (Gd D) s → cache_ok s → o_last s = ch k → o_lastw s = t_wt T (ch k) →
  fin_upto s k → ahead D s k → o_empty s = false → o_bl s = ∅ ∧ o_wl s = wl →
  (∀ x, EvEvict x ∈ o_out s → (x <= t_num T (ch k))%Z) →
  okP (λ r, ∃ n more, chain_inv D (k + n) r.1 ∧ r.2 = new ++ more ∧ map pb_hash more = map ch (seq (S k) n) ∧
         (∀ i, k < i ≤ k + n → ch i ∈ D) ∧ Forall (Gd D) more) (emit_loop f o s new).
Proof.
  intros Ho. revert s new k; induction f as [|f IH]; intros s new k Hst Hca Hl Hlw Hfin Hah He Hb Hev; cbn [emit_loop]; [done|].
  rewrite Hl. destruct (get_child_chain D f o s k Ho Hst Hah) as [[Eg HD]|[[Eg HD]|Eg]]; rewrite Eg; ob; [| |done].
  - exists 0, []. rewrite Nat.add_0_r, app_nil_r. split_and!; try done. intros i Hi. lia.
  - destruct (Hah (S k)) as [[pb Hpb] _]; [lia|done|]. rewrite Hpb.
    destruct (pend_chain _ _ _ _ Hst Hpb) as (k' & [= <-] & Hpar & Hh).
    destruct (pend_in _ _ _ _ Hst Hpb) as [_ Hg].
    rewrite (siblings_none D o s pb k) by done. ob. rewrite Hh.
    set (s1 := set_last s _ _).
    destruct (fin_add o s1 (ch (S k))) as [s2| |] eqn:E2; ob; [|by apply fin_add_np in E2|done].
    apply (fin_add_chain D k) in E2 as (A1 & A2 & A3 & A4 & _ & A6 & A7); try done; [|eapply stored_ext; [..|exact Hst]; done|by left].
    eapply okP_mono; [apply (IH s2 (new ++ [pb]) (S k)); try done|].
    + by rewrite (sub_last _ _ A3).
    + rewrite (sub_lastw _ _ A3). cbn. destruct Hg as ((_ & _ & _ & ->) & _). by rewrite Hh.
    + by replace (max (S k) k) with (S k) in A4 by lia.
    + intros j Hj Hd. destruct (Hah j) as [Hx (cs & Hy & Hz)]; [lia|done|].
      split; [rewrite (proj1 (A6 j ltac:(lia))); done|]. exists cs. split; [|done].
      rewrite (proj2 (A6 (pred j) ltac:(lia))). done.
    + by rewrite (sub_empty _ _ A3).
    + by rewrite (sub_bl _ _ A3), (sub_wl _ _ A3).
    + intros x Hx. rewrite (ch_num (S k)). destruct (A7 x Hx) as [Hx'|Hx']; [apply Hev in Hx'|]; rewrite (ch_num k) in Hx'; lia.
    + intros [s3 new'] _ (n & more & B1 & B2 & B3 & B4 & B5). cbn [fst snd] in *.
      exists (S n), (pb :: more). rewrite Nat.add_succ_r. split_and!; [done|by rewrite B2, <- app_assoc| | |].
      * cbn. by rewrite Hh, B3.
      * intros i Hi. destruct (decide (i = S k)) as [->|]; [done|]. apply B4. lia.
      * by constructor.
Qed.

Lemma prepare_emit_chain D o s pb k :
  order_ok o → stored (Gd D) s → cache_ok s → fin_upto s k → ahead D s (S k) → o_empty s = false → o_bl s = ∅ ∧ o_wl s = wl →
  (∀ x, EvEvict x ∈ o_out s → (x <= t_num T (ch k))%Z) →
  pb_hash pb = ch (S k) → pb_parent pb = ch k → Gd D pb →
  okP (λ s', ∃ n more evs, chain_inv D (k + n) s' ∧ Forall is_evict evs ∧ o_out s' = o_out s ++ evs ++ [EvUpdate more []] ∧
         map pb_hash more = map ch (seq (S k) n) ∧
         (∀ i, k < i ≤ k + n → ch i ∈ D) ∧ Forall (Gd D) more) (prepare_emit o s [pb] []).
Proof.
  intros Ho Hst Hca Hfin Hah He Hb Hev Hh Hp Hg. unfold prepare_emit. cbn [last].
  set (s1 := set_last s _ _).
  assert (Hst1 : stored (Gd D) s1) by (eapply stored_ext; [..|exact Hst]; done).
  rewrite (siblings_none D o s1 pb k) by done. ob. rewrite Hh.
  destruct (fin_add o s1 (ch (S k))) as [s2| |] eqn:E2; ob; [|by apply fin_add_np in E2|done].
  apply (fin_add_chain D k) in E2 as (A1 & A2 & A3 & A4 & _ & A6 & A7); try done; [|by left].
  assert (HD : ch (S k) ∈ D) by (rewrite <- Hh; apply Hg).
  eapply okP_bind.
  - apply (emit_loop_chain D _ o s2 [pb] (S k)); try done.
    + rewrite (sub_last _ _ A3). cbn. done.
    + rewrite (sub_lastw _ _ A3). cbn. destruct Hg as ((_ & _ & _ & ->) & _). by rewrite Hh.
    + by replace (max (S k) k) with (S k) in A4 by lia.
    + intros j Hj Hd. destruct (Hah j) as [Hx (cs & Hy & Hz)]; [lia|done|].
      split; [rewrite (proj1 (A6 j ltac:(lia))); done|]. exists cs. split; [|done].
      rewrite (proj2 (A6 (pred j) ltac:(lia))). done.
    + by rewrite (sub_empty _ _ A3).
    + by rewrite (sub_bl _ _ A3), (sub_wl _ _ A3).
    + intros x Hx. rewrite (ch_num (S k)). destruct (A7 x Hx) as [Hx'|Hx']; [apply Hev in Hx'|]; rewrite (ch_num k) in Hx'; lia.
  - intros [s3 new'] E3 (n & more & B1 & B2 & B3 & B4 & B5). cbn [fst snd okP] in *.
    pose proof (emit_loop_frame _ _ _ _ _ _ E3) as (_ & _ & _ & _ & _ & ev3 & Hev3 & Hf3).
    pose proof (sub_out _ _ A3) as (ev2 & Hev2 & Hf2). cbn in Hev2.
    exists (S n), (pb :: more), (ev2 ++ ev3). rewrite Nat.add_succ_r. split_and!.
    + destruct B1 as [C1 C2 C3 C4 C5 C6 C7 C8 C9 C10]. split; try done; [eapply stored_ext; [..|exact C1]; done|].
      intros x. cbn. rewrite elem_of_app, elem_of_list_singleton. intros [Hx|?]; [by apply C10|done].
    + by apply Forall_app.
    + cbn. rewrite Hev3, Hev2, !app_assoc. by rewrite B2.
    + cbn. by rewrite Hh, B3.
    + intros i Hi. destruct (decide (i = S k)) as [->|]; [done|]. apply B4. lia.
    + by constructor.
Qed.

Lemma chain_sub D k s s' :
  chain_inv D k s → sub s s' → cache_ok s' → fin_upto s' k →
  (∀ x, EvEvict x ∈ o_out s' → EvEvict x ∈ o_out s ∨ (x <= t_num T (ch k))%Z) →
  (∀ j, k < j → o_pending s' !! ch j = o_pending s !! ch j) →
  (∀ j, k ≤ j → ch (S j) ∈ D → o_queued s' !! ch j = o_queued s !! ch j) → chain_inv D k s'.
Proof.
  intros [H1 H2 H3 H4 H5 H6 H7 H8 H9 H10] Hs Hc Hf He Hp Hq. split; try done.
  - by eapply stored_sub.
  - by rewrite (sub_last _ _ Hs).
  - by rewrite (sub_lastw _ _ Hs).
  - intros j Hj HD. destruct (H7 j Hj HD) as [A (cs & B & C)]. split; [by rewrite Hp|].
    exists cs. split; [|done]. rewrite Hq; [done|lia|]. by replace (S (pred j)) with j by lia.
  - by rewrite (sub_empty _ _ Hs).
  - by rewrite (sub_bl _ _ Hs), (sub_wl _ _ Hs).
  - intros x Hx. destruct (He x Hx); [by apply H10|done].
Qed.

Lemma queue_elem s pb h c cs : o_queued s !! h = Some cs → c ∈ cs →
  ∃ cs', o_queued (queue s pb) !! h = Some cs' ∧ c ∈ cs'.
Proof.
  intros Hq Hc. cbn. destruct (decide (pb_parent pb = h)) as [->|Hne].
  - rewrite lookup_insert. eexists; split; [done|]. rewrite Hq. cbn. set_solver.
  - rewrite lookup_insert_ne by done. eauto.
Qed.

Lemma chain_queue D k s pb : chain_inv D k s → Gd D pb → chain_inv D k (queue s pb).
Proof.
  intros [H1 H2 H3 H4 H5 H6 H7 H8 H9 H10] Hg. split; try done.
  - by apply stored_queue.
  - intros j Hj HD. destruct (H7 j Hj HD) as [A (cs & B & C)]. split; [done|].
    by eapply queue_elem.
Qed.

Definition chain_res (D : gset hash) (k : nat) (s s' : omp) : Prop :=
  ∃ n more, chain_inv D (k + n) s' ∧
    all_added (o_out s') = all_added (o_out s) ++ more ∧ all_removed (o_out s') = all_removed (o_out s) ∧
    map pb_hash more = map ch (seq (S k) n) ∧ (∀ i, k < i ≤ k + n → ch i ∈ D) ∧ Forall (Gd D) more.

Lemma chain_res_0 D k s s' : chain_inv D k s' → updates_of (o_out s') = updates_of (o_out s) → chain_res D k s s'.
Proof.
  intros H E. exists 0, []. rewrite Nat.add_0_r, app_nil_r. unfold all_added, all_removed. rewrite E.
  split_and!; try done. intros i Hi. lia.
Qed.

Lemma handle_chain D f o s pb r k :
  order_ok o → chain_inv D k s → Gd ({[pb_hash pb]} ∪ D) pb →
  (r = true → pb_hash pb ∈ D ∧ finished s (pb_parent pb) = true) →
  okP (λ s', chain_res ({[pb_hash pb]} ∪ D) k s s' ∧ (r = true → updates_of (o_out s') = updates_of (o_out s) ∧ chain_inv D k s'))
    (handle f o s pb r).
Proof.
  intros Ho. revert s pb r D; induction f as [|f IH]; intros s pb r D Hi Hg Hr; [done|].
  cbn [handle]. destruct (ci_bl _ _ _ Hi) as [Hbl Hw].
  rewrite Hw, Hwl by apply Hg.
  rewrite bool_decide_eq_false_2 by (rewrite Hbl; set_solver).
  set (s1 := set_pending s _). set (D1 := {[pb_hash pb]} ∪ D) in *.
  assert (Hg' := Hg). destruct Hg' as (Ha & _ & _ & p & Hp).
  destruct Ha as (Hz & Epar & Enum & Ewt).
  destruct (HC p) as [Ep _]. rewrite Hp in Epar, Ewt. rewrite Ep in Epar.
  assert (HD1 : D ⊆ D1) by set_solver.
  assert (Hst1 : stored (Gd D1) s1).
  { apply (stored_pending (Gd D1)); [|done]. eapply stored_mono; [exact HD1|]. apply Hi. }
  assert (Hgap : p ≠ k → ch (S k) ∉ D1).
  { intros Hne [E|E]%elem_of_union; [|by eapply ci_gap]. apply elem_of_singleton in E. rewrite Hp in E.
    apply ch_inj in E. lia. }
  assert (Hup : updates_of (o_out s1) = updates_of (o_out s)) by done.
  assert (Hlow : p < k → chain_inv D1 k s1).
  { intros Hlt. destruct Hi as [H1 H2 H3 H4 H5 H6 H7 H8 H9 H10]. split; try done.
    - apply Hgap. lia.
    - intros j Hj HD.
      assert (ch j ≠ pb_hash pb) by (rewrite Hp; intros E; apply ch_inj in E; lia).
      destruct (H7 j Hj) as [A B]; [set_solver|]. split; [|done]. cbn. by rewrite lookup_insert_ne. }
  assert (Hpk : r = true → p ≠ k).
  { intros E ->. destruct (Hr E) as [HD _]. rewrite Hp in HD. by eapply ci_gap. }
  assert (HDr : r = true → D1 = D).
  { intros E. destruct (Hr E) as [HD _]. apply leibniz_equiv. set_solver. }
  assert (Hfin1 : fin_upto s1 k) by apply Hi.
  assert (Hres0 : ∀ s', chain_inv D1 k s' → updates_of (o_out s') = updates_of (o_out s) →
     chain_res D1 k s s' ∧ (r = true → updates_of (o_out s') = updates_of (o_out s) ∧ chain_inv D k s')).
  { intros s' A B. split; [by apply chain_res_0|]. intros E. rewrite (HDr E) in A. done. }
  destruct (finished s1 (pb_hash pb) && negb r) eqn:Hf.
  { apply andb_true_iff in Hf as [Hf _].
    destruct (Hfin1 _ Hf) as (i & Hik & E). rewrite Hp in E. apply ch_inj in E. apply Hres0; [|done]. apply Hlow. lia. }
  case_bool_decide as Hpl.
  { change (o_last s1) with (o_last s) in Hpl. rewrite (ci_last _ _ _ Hi), Epar in Hpl. apply ch_inj in Hpl as ->.
    assert (r = false) as -> by (destruct r; [by destruct Hpk|done]).
    eapply okP_mono; [apply (prepare_emit_chain D1 o s1 pb k); try done; try apply Hi|].
    - intros j Hj HD.
      assert (ch j ≠ pb_hash pb) by (rewrite Hp; intros E; apply ch_inj in E; lia).
      destruct (ci_ahead _ _ _ Hi j) as [A B]; [lia|set_solver|]. split; [|done]. cbn. by rewrite lookup_insert_ne.
    - intros s' _ (n & more & evs & A1 & A2 & A3 & A4 & A5 & A6). split; [|done].
      exists n, more. split; [done|]. rewrite A3. change (o_out s1) with (o_out s).
      rewrite !all_added_app, !all_removed_app. unfold all_added at 2 3, all_removed at 2 3.
      rewrite !updates_of_evicts by done. cbn. rewrite !app_nil_r. done. }
  change (o_empty s1) with (o_empty s). rewrite (ci_empty _ _ _ Hi). cbn [andb].
  destruct (finished s1 (pb_parent pb)) eqn:Hfp.
  - assert (Hlt : p < k).
    { destruct (Hfin1 _ Hfp) as (i & Hik & E). rewrite Epar in E. apply ch_inj in E as <-.
      destruct (decide (p = k)) as [->|]; [|lia]. exfalso. apply Hpl. rewrite Epar. symmetry. apply Hi. }
    assert (Hi1 := Hlow Hlt).
    assert (Hng : o_pending s1 !! ch (S k) = None).
    { destruct (o_pending s1 !! ch (S k)) eqn:E; [|done]. exfalso. destruct (pend_in _ _ _ _ Hst1 E) as [Eh (_ & _ & Hd & _)].
      rewrite Eh in Hd. by eapply Hgap; [|exact Hd]; lia. }
    assert (Hlight :
      okP (λ s', chain_res D1 k s s' ∧ (r = true → updates_of (o_out s') = updates_of (o_out s) ∧ chain_inv D k s'))
      (s ← fin_add o s1 (pb_hash pb);
        c ← get_child 0 o s (pb_hash pb);
        match c with
        | Some child =>
          s ← match o_pending s !! child with
              | Some cpb => handle f o s cpb true
              | None => Ok s
              end;
          Ok (queue s pb)
        | None => Ok (queue s pb)
        end)).
    { rewrite Hp. destruct (fin_add o s1 (ch (S p))) as [s3| |] eqn:E3; ob; [|by apply fin_add_np in E3|done].
      apply (fin_add_chain D1 k) in E3 as (A1 & A2 & A3 & A4 & A5 & A6 & A7); try done; [|apply Hi|lia|by right].
      assert (Hi3 : chain_inv D1 k s3).
      { apply (chain_sub D1 k s1); try done.
        - by replace (max (S p) k) with k in A4 by lia.
        - intros j Hj. by apply A6.
        - intros j Hj HD. destruct (decide (j = k)) as [->|]; [|apply A6; lia].
          exfalso. by eapply Hgap; [|exact HD]; lia. }
      assert (Hu3 : updates_of (o_out s3) = updates_of (o_out s)) by (by rewrite (sub_updates _ _ A3)).
      destruct (get_child 0 o s3 (ch (S p))) as [c| |] eqn:Eg; ob; [| |done].
      2: { unfold get_child in Eg. destruct (o_queued s3 !! ch (S p)) as [cs|]; [|done].
           match goal with Eg : (?x ≫= _) = Panic |- _ => destruct x eqn:E end; ob; try done.
           revert E. apply foldM_np. intros [w h] c. cbn [fst].
           destruct (difficulty (qfuel s3) o s3 c) eqn:Ed; ob; try done.
           by apply difficulty_np in Ed. }
      destruct c as [child|].
      2: { cbn [okP]. apply Hres0; [by apply chain_queue|done]. }
      destruct (o_pending s3 !! child) as [cpb|] eqn:Ec; ob.
      2: { cbn [okP]. apply Hres0; [by apply chain_queue|done]. }
      destruct (pend_in _ _ _ _ A1 Ec) as [Ech Hcg].
      assert (HDc : {[pb_hash cpb]} ∪ D1 = D1) by (destruct Hcg as (_ & _ & Hx & _); apply subseteq_union_1_L; by apply singleton_subseteq_l).
      assert (Hfc : finished s3 (pb_parent cpb) = true).
      { destruct (get_child_elem _ _ _ _ _ Ho Eg) as (cs & Hcs & [Hin| ->]).
        - destruct (queued_next _ _ _ _ _ A1 Hcs Hin) as [-> _].
          destruct (pend_chain _ _ _ _ A1 Ec) as (j & [= <-] & -> & _). done.
        - destruct Hcg as ((? & _) & _). congruence. }
      eapply okP_bind.
      - apply (IH s3 cpb true D1); [done|by rewrite HDc|]. intros _. split; [apply Hcg|done].
      - intros s4 _ [_ B]. destruct (B eq_refl) as [B1 B2]. cbn [okP].
        apply Hres0; [by apply chain_queue|]. rewrite <- Hu3, <- B1. done. }
    destruct (o_pending s1 !! o_last s1); [|done].
    replace (o_lastw s1 <? pb_weight pb)%N with false; [done|].
    symmetry. apply N.ltb_ge. change (o_lastw s1) with (o_lastw s). rewrite (ci_lastw _ _ _ Hi), Ewt.
    apply ch_wt_le. lia.
  - assert (Hrf : r = false).
    { destruct r; [|done]. destruct (Hr eq_refl) as [_ E]. unfold finished in *. cbn in Hfp. congruence. }
    assert (Hne : p ≠ k).
    { intros ->. apply Hpl. rewrite Epar. symmetry. apply Hi. }
    destruct (_ <? _)%N eqn:Hlw.
    + assert (Hlt : p < k).
      { apply N.ltb_lt in Hlw. change (o_lastw s1) with (o_lastw s) in Hlw. rewrite (ci_lastw _ _ _ Hi), Ewt in Hlw.
        destruct (decide (p < k)); [done|]. pose proof (ch_wt_le k (S p)). lia. }
      assert (Hi1 := Hlow Hlt).
      match goal with |- okP _ (if ?b then _ else _) => destruct b end.
      * cbn [okP]. apply Hres0; [|done]. destruct Hi1 as [H1 H2 H3 H4 H5 H6 H7 H8 H9 H10]. split; try done.
        -- by apply stored_delete.
        -- intros j Hj HD. destruct (H7 j Hj HD) as [A B]. split; [|done]. cbn. rewrite lookup_delete_ne; [done|].
           rewrite Hp. intros E. apply ch_inj in E. lia.
      * assert (Hng : o_pending s1 !! ch (S k) = None).
        { destruct (o_pending s1 !! ch (S k)) eqn:E; [|done]. exfalso. destruct (pend_in _ _ _ _ Hst1 E) as [Eh (_ & _ & Hd & _)].
          rewrite Eh in Hd. by eapply Hgap; [|exact Hd]; lia. }
        rewrite Hp. destruct (fin_add o s1 (ch (S p))) as [s3| |] eqn:E3; ob; [|by apply fin_add_np in E3|done].
        apply (fin_add_chain D1 k) in E3 as (A1 & A2 & A3 & A4 & A5 & A6 & A7); try done; [|apply Hi|lia|by right].
        cbn [okP]. apply Hres0; [|by rewrite <- Hup, <- (sub_updates _ _ A3)]. apply chain_queue; [|done].
        apply (chain_sub D1 k s1); try done.
        -- by replace (max (S p) k) with k in A4 by lia.
        -- intros j Hj. by apply A6.
        -- intros j Hj HD. destruct (decide (j = k)) as [->|]; [|apply A6; lia].
          exfalso. by eapply Hgap; [|exact HD]; lia.
    + cbn [okP]. apply Hres0; [|done].
      destruct Hi as [H1 H2 H3 H4 H5 H6 H7 H8 H9 H10]. split; try done.
      * by apply stored_queue.
      * by apply Hgap.
      * intros j Hj HD. destruct (decide (j = S p)) as [->|Hjp].
        -- rewrite <- Hp. split; [exists pb; apply lookup_insert|]. cbn [pred]. rewrite <- Epar.
           cbn. rewrite lookup_insert. eexists; split; [done|]. set_solver.
        -- assert (ch j ≠ pb_hash pb) by (rewrite Hp; intros E; apply ch_inj in E; lia).
           destruct (H7 j Hj) as [A (cs & B & C)]; [set_solver|]. split; [cbn; by rewrite lookup_insert_ne|].
           by eapply (queue_elem s1).
Qed.
End chain.

Lemma chain_run (T : tree) ch (HC : single_chain T ch) L wl (Hwl : ∀ b, b ∈ L → excluded wl b = false) l s D k :
  orders_ok l → no_reorgs l → Forall (agree T) (batches_of l) →
  (∀ b, b ∈ batches_of l → b ∈ L ∧ ∃ i, pb_hash b = ch (S i)) →
  chain_inv T ch L wl D k s →
  okP (chain_res T ch L wl (D ∪ list_to_set (map pb_hash (batches_of l))) k s) (omp_run s l).
Proof.
  revert s D k; induction l as [|[o i] l IH]; intros s D k Hord Hnr Hag HL Hi; unfold omp_run; cbn [foldM].
  { cbn [okP]. apply chain_res_0; [|done]. cbn. by rewrite union_empty_r_L. }
  apply Forall_cons in Hord as [Ho Hord]. cbn in Ho.
  destruct i as [pb|n h].
  2: { exfalso. by unfold no_reorgs, reorgs_of in Hnr. }
  unfold omp_step. cbn [fst snd].
  unfold batches_of in Hag, HL. cbn in Hag, HL. apply Forall_cons in Hag as [Hagb Hag].
  destruct (HL pb) as [HLb Hix]; [apply elem_of_list_here|].
  eapply okP_bind.
  - unfold handle_batch. eapply (handle_chain T ch HC L wl Hwl D); try done. split_and!; try done. set_solver.
  - intros s1 _ [(n & more & A1 & A2 & A3 & A4 & A5 & A6) _].
    eapply okP_mono; [apply (IH s1 ({[pb_hash pb]} ∪ D) (k + n)); try done|].
    + intros b Hb. apply HL. by apply elem_of_list_further.
    + replace (D ∪ list_to_set (map pb_hash (batches_of ((o, InBatch pb) :: l))))
        with ({[pb_hash pb]} ∪ D ∪ list_to_set (map pb_hash (batches_of l)) : gset hash)
        by (cbn; apply leibniz_equiv; set_solver).
      intros s2 _ (n' & more' & B1 & B2 & B3 & B4 & B5 & B6).
      exists (n + n'), (more ++ more'). rewrite Nat.add_assoc. split_and!.
      * done.
      * by rewrite B2, A2, app_assoc.
      * by rewrite B3, A3.
      * rewrite map_app, A4, B4, seq_app, map_app. done.
      * intros i Hin. destruct (decide (i ≤ k + n)); [|apply B5; lia].
        apply elem_of_union_l. apply A5. lia.
      * apply Forall_app. split; [|done]. eapply Forall_impl; [exact A6|]. intros b. apply Gd_mono. set_solver.
Qed.

Lemma chain_delivered_evs (T : tree) (ch : nat → hash) cfg s0 l n :
  single_chain T ch → cfg_last_hash cfg = ch n → ch n ≠ zero_hash → new_omp cfg = Ok s0 →
  t_wt T (ch n) = cfg_last_weight cfg →
  orders_ok l → no_reorgs l → Forall (agree T) (batches_of l) →
  (∀ b, b ∈ batches_of l → excluded (cfg_whitelist cfg) b = false ∧ ∃ i, pb_hash b = ch (S i)) →
  ∃ s k, omp_run s0 l = Ok s ∧
    map pb_hash (all_added (o_out s)) = map ch (seq (S n) k) ∧
    (∀ i, n < i ≤ n + k → ch i ∈ map pb_hash (batches_of l)) ∧
    ch (S (n + k)) ∉ map pb_hash (batches_of l) ∧
    (∀ b, b ∈ all_added (o_out s) → b ∈ batches_of l) ∧
    all_removed (o_out s) = [] ∧
    ∀ x, EvEvict x ∈ o_out s → (x <= t_num T (ch (n + k)%nat))%Z.
Proof.
  intros HC Hl Hz H0 Hw Hord Hnr Hag Hall.
  assert (Hgr : Forall (λ b, growing T (pb_hash b)) (batches_of l)).
  { apply Forall_forall. intros b Hb. destruct (Hall b Hb) as [_ [i ->]]. apply HC. }
  assert (Hlive := never_hangs T cfg s0 l H0 Hord Hag Hgr).
  assert (Hi : chain_inv T ch (batches_of l) (cfg_whitelist cfg) ∅ n s0).
  { assert (Hst := stored_init (Gd T ch (batches_of l) ∅) _ _ H0). destruct (new_cap_pos _ _ H0) as [Hc Hwf].
    revert H0 Hst Hc Hwf. unfold new_omp. case_bool_decide; [discriminate|].
    intros [= <-] Hst Hc Hwf. split; cbn; try done.
    - intros h Hh. exists n. split; [done|].
      unfold finished, lru_contains in Hh. apply bool_decide_eq_true in Hh.
      cbn [o_fin] in Hh. apply lru_add_elem in Hh as [->|Hh]; [done|].
      cbn in Hh. by apply elem_of_nil in Hh.
    - rewrite Hl. by apply bool_decide_eq_false_2.
    - intros x Hx. by apply elem_of_nil in Hx. }
  assert (Hout : o_out s0 = []).
  { revert H0. unfold new_omp. case_bool_decide; [discriminate|]. by intros [= <-]. }
  assert (H := chain_run T ch HC (batches_of l) (cfg_whitelist cfg) (λ b Hb, proj1 (Hall b Hb)) l s0 ∅ n Hord Hnr Hag
     (λ b Hb, conj Hb (proj2 (Hall b Hb))) Hi).
  destruct (omp_run s0 l) as [s| |] eqn:Er; [|done|done].
  destruct H as (k & more & A1 & A2 & A3 & A4 & A5 & A6).
  rewrite Hout in A2, A3. cbn in A2, A3.
  exists s, k. rewrite A2, A3. split_and!; try done.
  - intros i Hin. specialize (A5 i Hin). set_solver.
  - intros Hin. apply (ci_gap _ _ _ _ _ _ _ A1). set_solver.
  - intros b Hb. rewrite Forall_forall in A6. apply A6 in Hb as (_ & ? & _). done.
  - apply (ci_evs _ _ _ _ _ _ _ A1).
Qed.

Lemma chain_delivered (T : tree) (ch : nat → hash) cfg s0 l n :
  single_chain T ch → cfg_last_hash cfg = ch n → ch n ≠ zero_hash → new_omp cfg = Ok s0 →
  t_wt T (ch n) = cfg_last_weight cfg →
  orders_ok l → no_reorgs l → Forall (agree T) (batches_of l) →
  (∀ b, b ∈ batches_of l → excluded (cfg_whitelist cfg) b = false ∧ ∃ i, pb_hash b = ch (S i)) →
  ∃ s k, omp_run s0 l = Ok s ∧
    map pb_hash (all_added (o_out s)) = map ch (seq (S n) k) ∧
    (∀ i, n < i ≤ n + k → ch i ∈ map pb_hash (batches_of l)) ∧
    ch (S (n + k)) ∉ map pb_hash (batches_of l) ∧
    (∀ b, b ∈ all_added (o_out s) → b ∈ batches_of l) ∧
    all_removed (o_out s) = [].
Proof.
  intros HC Hl Hz H0 Hw Hord Hnr Hag Hall.
  destruct (chain_delivered_evs T ch cfg s0 l n HC Hl Hz H0 Hw Hord Hnr Hag Hall)
    as (s & k & A1 & A2 & A3 & A4 & A5 & A6 & _). exists s, k. done.
Qed.
