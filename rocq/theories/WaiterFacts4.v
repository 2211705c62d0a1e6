From Verif Require Import Base Waiter SpecWaiter WaiterFacts WaiterFacts2 WaiterFacts3.

Lemma success_truthful tr s q k : wrun tr w_init = Ok s → w_qs s !! q = Some (QDone k Success) →
  ∃ h n ch, AAnnounce h n ch ∈ tr ∧ (h, n, ch) ∈ received tr ∧ matches k (h, n, ch) ∧ called tr ch.
Proof.
  intros Hr Hq. destruct (g_success _ _ (run_good _ _ Hr) _ _ Hq) as ([[h n] ch] & H1 & H2 & H3). exists h, n, ch. split; [|done].
  assert (Ha : (h, n, ch) ∈ announced tr) by (rewrite announced_received; apply elem_of_app; by left).
  unfold announced in Ha. apply elem_of_list_omap in Ha as (a & Ha & E). destruct a; try done. by injection E as -> -> ->.
Qed.

Lemma fresh_query tr s q : wrun tr w_init = Ok s → (∀ x, ALookup q x.1 x.2 ∉ tr) → w_qs s !! q = None.
Proof.
  intros Hr Hn. destruct (w_qs s !! q) as [x|] eqn:E; [|done]. exfalso. pose proof (run_asked _ _ Hr _ _ E) as Ha. destruct x; cbn in Ha.
  - by apply (Hn (k, d)).
  - destruct Ha as (pre & b & post & d & -> & H & _). apply (Hn (k, d)). apply elem_of_app. by left.
  - destruct Ha as [d H]. by apply (Hn (k, d)).
Qed.
Lemma lookup_result tr s q k d : wrun (tr ++ [ALookup q k d]) w_init = Ok s → (∀ x, ALookup q x.1 x.2 ∉ tr) →
  ∃ s0, wrun tr w_init = Ok s0 ∧ w_qs s !! q = Some (match find s0 k with Some c => QLooked k c d | None => QDone k NotFound end) ∧ w_closed s = w_closed s0 ∧
  w_now s = w_now s0.
Proof.
  intros Hr Hn. apply run_snoc in Hr as (s0 & Hr & Hs). exists s0. split; [done|]. cbn [wstep] in Hs. rewrite (fresh_query _ _ _ Hr Hn) in Hs.
  injection Hs as <-. cbn. by rewrite lookup_insert.
Qed.
Lemma expired_witness tr n : expired tr n → ∃ h' ch' pre a post, (h', n, ch') ∈ received tr ∧ tr = pre ++ a :: post ∧
  (a = ADone ch' ∨ ∃ c, a = ADoneBegin c ch') ∧ (clock pre + sixty ≤ clock tr)%N.
Proof.
  intros (t & (h' & c & Hrec & (pre & a & post & E & Ha & <-)) & Hle). by exists h', c, pre, a, post.
Qed.
Lemma found_for_a_minute tr s q d h n ch :
  wrun (tr ++ [ALookup q (KHash h) d]) w_init = Ok s → (∀ x, ALookup q x.1 x.2 ∉ tr) →
  (h, n, ch) ∈ received tr → (∀ y, y ∈ received tr → y.1.1 = h → y = (h, n, ch)) →
  w_qs s !! q = Some (QDone (KHash h) NotFound) →
  ∃ h' ch' pre a post, (h', n, ch') ∈ received tr ∧ tr = pre ++ a :: post ∧ (a = ADone ch' ∨ ∃ c, a = ADoneBegin c ch') ∧
    (clock pre + sixty ≤ clock tr)%N.
Proof.
  intros Hr Hn H1 H2 Hq. destruct (lookup_result _ _ _ _ _ Hr Hn) as (s0 & Hr0 & E & _). rewrite E in Hq. cbn [find] in Hq.
  destruct (run_found _ _ Hr0) as [F _]. destruct (F h n ch) as [F1|F1]; [by split|by rewrite F1 in Hq|]. by apply expired_witness.
Qed.
Lemma number_found_for_a_minute tr s q d h n ch :
  wrun (tr ++ [ALookup q (KNum n) d]) w_init = Ok s → (∀ x, ALookup q x.1 x.2 ∉ tr) →
  (h, n, ch) ∈ received tr → w_qs s !! q = Some (QDone (KNum n) NotFound) →
  ∃ h' ch' pre a post, (h', n, ch') ∈ received tr ∧ tr = pre ++ a :: post ∧ (a = ADone ch' ∨ ∃ c, a = ADoneBegin c ch') ∧
    (clock pre + sixty ≤ clock tr)%N.
Proof.
  intros Hr Hn H1 Hq. destruct (lookup_result _ _ _ _ _ Hr Hn) as (s0 & Hr0 & E & _). rewrite E in Hq. cbn [find] in Hq.
  destruct (run_found _ _ Hr0) as [_ F]. destruct (F h n ch) as [[id F1]|F1]; [done|by rewrite F1 in Hq|]. by apply expired_witness.
Qed.
Lemma unannounced tr s q d h :
  wrun (tr ++ [ALookup q (KHash h) d]) w_init = Ok s → (∀ x, ALookup q x.1 x.2 ∉ tr) →
  (∀ n ch, (h, n, ch) ∉ received tr) → w_qs s !! q = Some (QDone (KHash h) NotFound).
Proof.
  intros Hr Hn H. destruct (lookup_result _ _ _ _ _ Hr Hn) as (s0 & Hr0 & E & _). rewrite E. cbn [find].
  destruct (w_hashes s0 !! h) as [ch|] eqn:Eh; [|done]. destruct (g_hash _ _ (run_good _ _ Hr0) _ _ Eh) as [n Hrec]. by destruct (H n ch).
Qed.
Lemma done_wakes tr s q h n ch c dl :
  wrun tr w_init = Ok s → serial ∅ (tr ++ [ADone ch]) →
  (h, n, ch) ∈ received tr → (∀ y, y ∈ received tr → y.1.1 = h → y = (h, n, ch)) →
  w_qs s !! q = Some (QParked (KHash h) c dl) →
  ∃ s', wrun (tr ++ [ADone ch]) w_init = Ok s' ∧ w_qs s' !! q = Some (QDone (KHash h) Success).
Proof.
  intros Hr Hser H1 H2 Hq. destruct (run_serial _ Hser) as [s' Hs']. exists s'. split; [done|].
  apply run_snoc in Hs' as (s0 & Hr0 & Hs). assert (s0 = s) as -> by congruence. cbn [wstep] in Hs.
  destruct (g_parked _ _ (run_good _ _ Hr) _ _ _ _ Hq) as [(n' & ch' & -> & Hrec) Hc].
  assert ((h, n', ch') = (h, n, ch)) as [= -> ->] by (by apply H2).
  unfold done in Hs. rewrite bool_decide_eq_false_2 in Hs by (by rewrite <- (b_nil _ _ (run_basic _ _ Hr))).
  apply close_ok in Hs as [_ ->]. cbn. rewrite lookup_fmap, Hq. cbn. by rewrite bool_decide_eq_true_2.
Qed.
Lemma done_before tr s s' q h d b :
  wrun tr w_init = Ok s → (∀ x, ALookup q x.1 x.2 ∉ tr) → (0 < d)%Z →
  (∀ n ch, (h, n, ch) ∈ received tr → ADone ch ∈ tr) →
  wrun (tr ++ [ALookup q (KHash h) d; ASelect q b]) w_init = Ok s' →
  w_qs s' !! q = Some (QDone (KHash h) Success) ∨ w_qs s' !! q = Some (QDone (KHash h) NotFound).
Proof.
  intros Hr Hn Hd H Hr'. change [ALookup q (KHash h) d; ASelect q b] with ([ALookup q (KHash h) d] ++ [ASelect q b]) in Hr'.
  rewrite app_assoc in Hr'. apply run_snoc in Hr' as (s1 & Hr1 & Hs). destruct (lookup_result _ _ _ _ _ Hr1 Hn) as (s0 & Hr0 & E & Ec & _).
  assert (s0 = s) as -> by congruence. cbn [wstep] in Hs. rewrite E in Hs. cbn [find] in *. destruct (w_hashes s !! h) as [ch|] eqn:Eh; cbn [fmap option_fmap option_map] in *.
  - injection Hs as <-. cbn. rewrite lookup_insert. left. rewrite bool_decide_eq_false_2 by lia. cbn. rewrite Ec. rewrite bool_decide_eq_true_2; [done|].
    destruct (g_hash _ _ (run_good _ _ Hr) _ _ Eh) as [n Hrec]. apply (b_nil _ _ (run_basic _ _ Hr)). apply (b_done _ _ (run_basic _ _ Hr)). by eapply H.
  - injection Hs as <-. by right.
Qed.

Lemma update_done_spec tr s added removed : wrun tr w_init = Ok s →
  ∃ s', update_done added removed s = Ok s' ∧
    (∀ ch, ch ∈ w_nil s' ↔ ch ∈ added ∨ ch ∈ removed ∨ ch ∈ w_nil s) ∧
    (∀ c, c ∈ w_closed s' ↔ (∃ ch, c = CH ch ∧ (ch ∈ added ∨ ch ∈ removed)) ∨ c ∈ w_closed s) ∧
    (∀ q k ch dl, w_qs s !! q = Some (QParked k (CH ch) dl) → ch ∈ added ∨ ch ∈ removed → w_qs s' !! q = Some (QDone k Success)) ∧
    (∀ q, (∀ k ch dl, ch ∈ added ∨ ch ∈ removed → w_qs s !! q ≠ Some (QParked k (CH ch) dl)) → w_qs s' !! q = w_qs s !! q) ∧
    (∀ added' removed', (∀ ch, ch ∈ added' ∨ ch ∈ removed' → ch ∈ added ∨ ch ∈ removed) → update_done added' removed' s' = Ok s').
Proof.
  intros Hr. pose proof (run_basic _ _ Hr) as B. pose proof (run_good _ _ Hr) as G.
  destruct (update_done_ok (added ++ removed) s (b_nil _ _ B)) as (s' & E & En & Ec & _ & Eq & _).
  { intros q k c dl Hq. by destruct (g_parked _ _ G _ _ _ _ Hq). }
  exists s'. split; [done|]. split; [|split; [|split; [|split]]].
  - intros ch. rewrite En, elem_of_union, elem_of_list_to_set, elem_of_app. tauto.
  - intros c. rewrite Ec, elem_of_union, elem_of_list_to_set, elem_of_list_fmap. setoid_rewrite elem_of_app. done.
  - intros q k ch dl Hq Hin. rewrite Eq, lookup_fmap, Hq. cbn. rewrite bool_decide_eq_true_2; [done|]. by apply elem_of_app.
  - intros q Hq. rewrite Eq, lookup_fmap. destruct (w_qs s !! q) as [[|k [ch|] dl|]|] eqn:Ew; cbn; try done.
    rewrite bool_decide_eq_false_2; [done|]. rewrite elem_of_app. intros Hin. by destruct (Hq k ch dl Hin).
  - intros added' removed' Hsub. destruct (update_done_ok (added' ++ removed') s') as (s2 & E2 & _ & _ & _ & _ & Es).
    + intros ch. rewrite En, Ec, !elem_of_union, !elem_of_list_to_set, elem_of_list_fmap, (b_nil _ _ B). naive_solver.
    + intros q k c dl Hq. rewrite Eq, lookup_fmap in Hq. rewrite Ec. destruct (w_qs s !! q) as [[|k' [ch|n i] dl'|]|] eqn:Ew; cbn in Hq; try done.
      * case_bool_decide as Hd; [done|]. injection Hq as <- <- <-. destruct (g_parked _ _ G _ _ _ _ Ew) as [_ Hc].
        rewrite elem_of_union, elem_of_list_to_set, elem_of_list_fmap. intros [(x & [= ->] & Hx)|Hx]; done.
      * injection Hq as <- <- <-. destruct (g_parked _ _ G _ _ _ _ Ew) as [_ Hc].
        rewrite elem_of_union, elem_of_list_to_set, elem_of_list_fmap. intros [(x & Hx & _)|Hx]; done.
    + unfold update_done. rewrite E2. f_equal. apply Es. apply Forall_forall. intros ch Hch. rewrite En, elem_of_union, elem_of_list_to_set, elem_of_app. left.
      apply Hsub. by apply elem_of_app.
Qed.

Lemma run_exists tr (P : wst → Prop) : match wrun tr w_init with Ok s => P s | _ => False end → ∃ s, wrun tr w_init = Ok s ∧ P s.
Proof. destruct (wrun tr w_init) as [s| |]; [|done|done]. by exists s. Qed.
