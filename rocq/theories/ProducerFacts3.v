(** Proofs about SendBatch, histories of calls, redundancy and schemas (C12-C14, C16). *)
From Verif Require Import Base Types Avro AvroFacts Wire SpecWire WireFacts GoPath Producer SpecBlock SpecProducer
  ProducerFacts ProducerFacts2.

(** * The order of strings *)
Lemma byte_N_inj x y : byte_N x = byte_N y → x = y.
Proof.
  intros H. rewrite <- (byte_of_N x), <- (byte_of_N y). by rewrite H.
Qed.
#[global] Instance bytes_le_total : Total bytes_le.
Proof.
  intros a. unfold bytes_le. induction a as [|x a IH]; intros b; [by left|]. destruct b as [|y b]; [by right|]. cbn.
  destruct (N.ltb_spec (byte_N x) (byte_N y)); [by left|]. destruct (N.ltb_spec (byte_N y) (byte_N x)); [by right|]. apply IH.
Qed.
#[global] Instance bytes_le_trans : Transitive bytes_le.
Proof.
  intros a. unfold bytes_le. induction a as [|x a IH]; intros b c; [done|]. destruct b as [|y b]; [done|]. destruct c as [|z c].
  { cbn. by destruct (N.ltb_spec (byte_N x) (byte_N y)), (N.ltb_spec (byte_N y) (byte_N x)). }
  cbn. destruct (N.ltb_spec (byte_N x) (byte_N y)), (N.ltb_spec (byte_N y) (byte_N x)),
    (N.ltb_spec (byte_N y) (byte_N z)), (N.ltb_spec (byte_N z) (byte_N y)),
    (N.ltb_spec (byte_N x) (byte_N z)), (N.ltb_spec (byte_N z) (byte_N x)); try done; try lia. apply IH.
Qed.
#[global] Instance bytes_le_antisymm : AntiSymm (=) bytes_le.
Proof.
  intros a. unfold bytes_le. induction a as [|x a IH]; intros b; [by destruct b|]. destruct b as [|y b]; [done|]. cbn.
  destruct (N.ltb_spec (byte_N x) (byte_N y)), (N.ltb_spec (byte_N y) (byte_N x)); try done; try lia.
  intros H1 H2. f_equal; [apply byte_N_inj; lia|by apply IH].
Qed.
Lemma bytes_le_before a b : bytes_le a b ↔ before a b.
Proof.
  unfold bytes_le. revert b. induction a as [|x a IH]; intros b.
  { split; [intros _; left; apply prefix_nil|done]. }
  destruct b as [|y b].
  { split; [done|]. intros [H%prefix_nil_inv|(p & u & v & a' & b' & _ & H & _)]; [done|by destruct p]. }
  cbn. destruct (N.ltb_spec (byte_N x) (byte_N y)) as [H1|H1].
  { split; [|done]. intros _. right. by exists [], x, y, a, b. }
  destruct (N.ltb_spec (byte_N y) (byte_N x)) as [H2|H2].
  { split; [done|]. intros [H|(p & u & v & a' & b' & Ea & Eb & H)]; exfalso.
    - apply prefix_cons_inv_1 in H as ->. lia.
    - destruct p as [|z p]; [injection Ea as -> ->; injection Eb as -> ->; lia|]. injection Ea as -> _. injection Eb as -> _. lia. }
  assert (x = y) as <- by (apply byte_N_inj; lia). rewrite IH. split.
  - intros [H|(p & u & v & a' & b' & -> & -> & H)]; [left; by apply prefix_cons|]. right. by exists (x :: p), u, v, a', b'.
  - intros [H|(p & u & v & a' & b' & Ea & Eb & H)]; [left; by eapply prefix_cons_inv_2|].
    destruct p as [|z p]; [injection Ea as -> ->; injection Eb as -> ->; lia|]. injection Ea as -> ->. injection Eb as ->. right. by exists p, u, v, a', b'.
Qed.
Lemma sorted_le_before ks : Sorted bytes_le ks ↔ Sorted before ks.
Proof.
  assert (Hh : ∀ x l, HdRel bytes_le x l ↔ HdRel before x l).
  { intros x l. destruct l as [|y l]; [split; constructor|]. split; intros H; inversion H; subst; constructor; by apply bytes_le_before. }
  induction ks as [|x l IH]; [split; constructor|]. split; intros H; inversion H; subst; constructor; (by apply IH) || (by apply Hh).
Qed.

(** * SendBatch *)
Lemma send_entries_lookup h id vals i n v : vals !! n = Some v →
  send_entries h id i vals !! n = Some (PMsg (key_of (KSubMsg h id (i + Z.of_nat n))) v).
Proof.
  revert i n; induction vals as [|w vals IH]; intros i n; [done|]. destruct n as [|n]; cbn [send_entries lookup list_lookup].
  - intros [= ->]. by rewrite Z.add_0_r.
  - intros Hv. change (send_entries h id (i + 1) vals !! n = Some (PMsg (key_of (KSubMsg h id (i + Z.of_nat (S n)))) v)).
    rewrite (IH _ _ Hv). by replace (i + 1 + Z.of_nat n)%Z with (i + Z.of_nat (S n))%Z by lia.
Qed.
Lemma send_entries_len h id vals i : length (send_entries h id i vals) = length vals.
Proof. revert i; induction vals as [|w vals IH]; intros i; cbn; [done|]. by rewrite IH. Qed.

Definition part_value (pt : part) : bytes := encode_sub (pt_deletes pt) (map_to_list (pt_updates pt)).
Lemma send_ok p ord id deletes update p' tm : (∀ l, ord l ≡ₚ l) → send_batch p ord id deletes update = (p', Some tm) →
  ∃ t h ps, p_pending p !! id = Some (t, h) ∧ is_parts deletes update ps ∧
    p' = Prod (p_schema p) (p_default p) (delete id (p_pending p)) ∧
    tm = {[t := PMsg (key_of (KSubHead h id)) (avro_int (Z.of_nat (length ps))) ::
                send_entries h id 0 (map part_value ps)]}.
Proof.
  intros Ho. unfold send_batch. destruct (p_pending p !! id) as [[t h]|] eqn:E; [|done]. intros [= <- <-].
  set (ks := merge_sort bytes_le (ord (map_to_list update).*1)).
  assert (Hks : ks ≡ₚ (map_to_list update).*1). { unfold ks. rewrite merge_sort_Permutation. apply Ho. }
  exists t, h, ((match deletes with [] => [] | _ => [Part deletes ∅] end) ++ map (λ k, Part [] {[k := default [] (update !! k)]}) ks).
  split; [done|]. split; [|split; [done|]].
  - exists ks. split; [apply sorted_le_before, Sorted_merge_sort, _|]. split; [rewrite Hks; apply NoDup_fst_map_to_list|]. split; [|done].
    intros k. rewrite Hks, elem_of_dom, elem_of_list_fmap. split.
    + intros ([k' v] & -> & H%elem_of_map_to_list). by exists v.
    + intros [v H]. exists (k, v). split; [done|]. by apply elem_of_map_to_list.
  - do 2 f_equal; [|].
    + f_equal. rewrite send_entries_len, !app_length, !map_length. destruct deletes; done.
    + f_equal. rewrite map_app. f_equal; [by destruct deletes|]. rewrite map_map. apply map_ext. intros k. unfold part_value. cbn.
      by rewrite map_to_list_singleton.
Qed.
Lemma send_none p ord id deletes update p' : send_batch p ord id deletes update = (p', None) → p' = p ∧ p_pending p !! id = None.
Proof. unfold send_batch. destruct (p_pending p !! id) as [[t h]|] eqn:E; [done|]. by intros [= <-]. Qed.
Lemma parts_unique deletes update ps ps' : is_parts deletes update ps → is_parts deletes update ps' → ps = ps'.
Proof.
  intros (ks & S1%sorted_le_before & N1 & E1 & ->) (ks' & S2%sorted_le_before & N2 & E2 & ->). f_equal. f_equal.
  apply (Sorted_unique bytes_le); [done|done|]. apply NoDup_Permutation; [done|done|]. intros k. by rewrite E1, E2.
Qed.
Lemma send_same p1 p2 ord1 ord2 id deletes update : (∀ l, ord1 l ≡ₚ l) → (∀ l, ord2 l ≡ₚ l) →
  p_pending p1 !! id = p_pending p2 !! id →
  snd (send_batch p1 ord1 id deletes update) = snd (send_batch p2 ord2 id deletes update).
Proof.
  intros H1 H2 Hp.
  destruct (send_batch p1 ord1 id deletes update) as [q1 [tm1|]] eqn:E1.
  - apply send_ok in E1 as (t & h & ps & Hp1 & P1 & _ & ->); [|done].
    destruct (send_batch p2 ord2 id deletes update) as [q2 [tm2|]] eqn:E2.
    + apply send_ok in E2 as (t' & h' & ps' & Hp2 & P2 & _ & ->); [|done]. rewrite Hp, Hp2 in Hp1. simplify_eq.
      by rewrite (parts_unique _ _ _ _ P1 P2).
    + apply send_none in E2 as [_ E2]. congruence.
  - apply send_none in E1 as [_ E1]. rewrite Hp in E1. unfold send_batch. by rewrite E1.
Qed.

(** * AddBlock in short *)
Lemma add_cases p o a : aorder_ok o →
  (∃ p' tm, add_block p o a = (p', inr tm) ∧ ¬ refused (prefix_of_key p) a) ∨
  (∃ p' e, add_block p o a = (p', inl e) ∧ refused (prefix_of_key p) a).
Proof.
  intros Ho. destruct (add_block p o a) as [p' [e|tm]] eqn:E.
  - right. exists p', e. split; [done|]. apply add_err in E as [E _]; [|done]. destruct e; [by left|by right].
  - left. exists p', tm. split; [done|]. apply add_ok in E as [[? ?] _]; [|done]. by intros [].
Qed.

(** * Histories *)
Lemma step_fixed p x : call_ok x → p_schema (step p x) = p_schema p ∧ p_default (step p x) = p_default p.
Proof.
  intros Hx. destruct x as [o a|ord id d u]; cbn.
  - destruct (add_cases p o a Hx) as [(p' & tm & E & _)|(p' & e & E & _)]; rewrite E.
    + by apply add_ok in E as (_ & _ & ? & ? & _).
    + by apply add_err in E as (_ & ? & ? & _).
  - unfold send_batch. by destruct (p_pending p !! id) as [[]|].
Qed.
Lemma calls_fixed p l : Forall call_ok l → p_schema (calls p l) = p_schema p ∧ p_default (calls p l) = p_default p.
Proof.
  unfold calls. revert p; induction l as [|x l IH]; intros p Hl; cbn [foldl]; [done|]. apply Forall_cons in Hl as [Hx Hl].
  destruct (step_fixed p x Hx) as [E1 E2]. destruct (IH (step p x) Hl) as [-> ->]. done.
Qed.
Lemma route_ext p p' : p_schema p' = p_schema p → prefix_of_key p' = prefix_of_key p.
Proof. unfold prefix_of_key. by intros ->. Qed.

Lemma awaiting_snoc mt l x id a : (∀ o' a', x = CAdd o' a' → ¬ announces a' id) → (∀ ord d u, x ≠ CSend ord id d u) →
  awaiting mt (l ++ [x]) id a ↔ awaiting mt l id a.
Proof.
  intros Hx1 Hx2. split.
  - intros (pre & o & post & E & Ha & Hr & Hs & Hc). destruct post as [|y post _] using rev_ind.
    + apply app_inj_tail in E as [-> ->]. exfalso. by eapply Hx1.
    + rewrite app_comm_cons, app_assoc in E. apply app_inj_tail in E as [-> ->]. exists pre, o, post.
      split; [done|]. split; [done|]. split; [done|]. split.
      * intros ord d u Hin. apply (Hs ord d u). apply elem_of_app. by left.
      * intros o' a' Hin. apply (Hc o' a'). apply elem_of_app. by left.
  - intros (pre & o & post & -> & Ha & Hr & Hs & Hc). exists pre, o, (post ++ [x]).
    split; [by rewrite <- app_assoc|]. split; [done|]. split; [done|]. split.
    + intros ord d u [Hin|Hin]%elem_of_app; [by eapply Hs|]. apply elem_of_list_singleton in Hin. by apply (Hx2 ord d u).
    + intros o' a' [Hin|Hin]%elem_of_app; [by eapply Hc|]. apply elem_of_list_singleton in Hin. by apply (Hx1 o' a').
Qed.
Lemma pending_awaiting p l id : p_pending p = ∅ → Forall call_ok l → no_refused_mention (prefix_of_key p) l id →
  (∀ t h, p_pending (calls p l) !! id = Some (t, h) → ∃ a k, awaiting (prefix_of_key p) l id a ∧ h = ba_hash a ∧
     ba_batches a !! k = Some id ∧ t = topic_of_key p k) ∧
  (∀ a, awaiting (prefix_of_key p) l id a → is_Some (p_pending (calls p l) !! id)).
Proof.
  intros Hp. induction l as [|x l IH] using rev_ind; intros Hl Hm.
  { split; [intros t h; cbn; rewrite Hp, lookup_empty; done|]. intros a (pre & o & post & E & _). by destruct pre. }
  apply Forall_app in Hl as [Hl Hx]. apply Forall_cons in Hx as [Hx _].
  destruct (IH Hl) as [IH1 IH2]. { intros o a Hin. apply (Hm o a). apply elem_of_app. by left. } clear IH.
  destruct (calls_fixed p l Hl) as [Es Ed]. unfold calls in *. rewrite foldl_app. cbn [foldl].
  set (q := foldl step p l) in *.
  assert (Hsame : (∀ o' a', x = CAdd o' a' → ¬ announces a' id) → (∀ ord d u, x ≠ CSend ord id d u) →
    p_pending (step q x) !! id = p_pending q !! id →
    (∀ t h, p_pending (step q x) !! id = Some (t, h) → ∃ a k, awaiting (prefix_of_key p) (l ++ [x]) id a ∧ h = ba_hash a ∧
       ba_batches a !! k = Some id ∧ t = topic_of_key p k) ∧
    (∀ a, awaiting (prefix_of_key p) (l ++ [x]) id a → is_Some (p_pending (step q x) !! id))).
  { intros H1 H2 ->. assert (W : ∀ a, awaiting (prefix_of_key p) (l ++ [x]) id a ↔ awaiting (prefix_of_key p) l id a).
    { intros a. by apply awaiting_snoc. }
    split.
    - intros t h E. destruct (IH1 t h E) as (a & k & Ha & ? & ? & ?). exists a, k. by rewrite W.
    - intros a Ha%W. by apply (IH2 a). }
  destruct x as [o a|ord id' d u].
  - cbn in Hx. destruct (add_cases q o a Hx) as [(p' & tm & E & Hr)|(p' & e & E & Hr)]; rewrite (route_ext _ _ Es) in Hr.
    + assert (Hdec : announces a id ∨ ¬ announces a id).
      { destruct (decide (id ∈ (map_to_list (ba_batches a)).*2)) as [Hin|Hin].
        - left. apply elem_of_list_fmap in Hin as ([k i] & -> & Hin%elem_of_map_to_list). by exists k.
        - right. intros [k Hk]. apply Hin, elem_of_list_fmap. exists (k, id). split; [done|]. by apply elem_of_map_to_list. }
      pose proof (add_ok q o a Hx p' tm E) as (_ & _ & _ & _ & G1 & G2).
      destruct Hdec as [Hann|Hann].
      * destruct (G2 id Hann) as (k & Hk & Ek). cbn [step]. rewrite E. cbn [fst]. rewrite Ek. split; [|by eexists].
        intros t h [= <- <-]. exists a, k. split; [|].
        -- exists l, o, []. split; [done|]. split; [done|]. split; [done|]. split; [by intros ? ? ? ?%elem_of_nil|by intros ? ? ?%elem_of_nil].
        -- split; [done|]. split; [done|]. unfold topic_of_key. by rewrite Es, Ed.
      * apply Hsame; [by intros ? ? [= <- <-]|done|]. cbn [step]. rewrite E. cbn [fst]. by apply G1.
    + assert (Hann : ¬ announces a id). { apply (Hm o a); [apply elem_of_app; right; by apply elem_of_list_singleton|done]. }
      pose proof (add_err q o a Hx p' e E) as (_ & _ & _ & G1).
      apply Hsame; [by intros ? ? [= <- <-]|done|]. cbn [step]. rewrite E. cbn [fst]. by apply G1.
  - destruct (decide (id' = id)) as [->|Hne].
    + cbn [step]. assert (E : p_pending (fst (send_batch q ord id d u)) !! id = None).
      { unfold send_batch. destruct (p_pending q !! id) as [[]|] eqn:E; cbn; [by rewrite lookup_delete|done]. }
      rewrite E. split; [done|]. intros a (pre & o & post & El & _ & _ & Hs & _). exfalso.
      destruct post as [|y post _] using rev_ind; [by apply app_inj_tail in El as [_ ?]|].
      rewrite app_comm_cons, app_assoc in El. apply app_inj_tail in El as [_ <-].
      apply (Hs ord d u). apply elem_of_app. right. by apply elem_of_list_singleton.
    + apply Hsame; [done|by intros ? ? ? [= ? ? ? ?]|]. cbn [step]. unfold send_batch.
      destruct (p_pending q !! id') as [[]|]; cbn; [by rewrite lookup_delete_ne|done].
Qed.

(** C13 *)
Lemma send_history p l id ord d u : p_pending p = ∅ → Forall call_ok l → no_refused_mention (prefix_of_key p) l id → (∀ x, ord x ≡ₚ x) →
  ((∀ a, ¬ awaiting (prefix_of_key p) l id a) → send_batch (calls p l) ord id d u = (calls p l, None)) ∧
  ∀ a, awaiting (prefix_of_key p) l id a → ∃ p' tm k ps,
    send_batch (calls p l) ord id d u = (p', Some tm) ∧ ba_batches a !! k = Some id ∧ is_parts d u ps ∧
    (∀ t, t ≠ topic_of_key p k → on_topic tm t = []) ∧
    ∃ entries, on_topic tm (topic_of_key p k) =
        PMsg (key_of (KSubHead (ba_hash a) id)) (avro_int (Z.of_nat (length ps))) :: entries ∧
      length entries = length ps ∧
      ∀ i pt, ps !! i = Some pt → entries !! i =
        Some (PMsg (key_of (KSubMsg (ba_hash a) id (Z.of_nat i))) (encode_sub (pt_deletes pt) (map_to_list (pt_updates pt)))).
Proof.
  intros Hp Hl Hm Ho. destruct (pending_awaiting p l id Hp Hl Hm) as [A B]. split.
  - intros Hno. unfold send_batch. destruct (p_pending (calls p l) !! id) as [[t h]|] eqn:E; [|done].
    exfalso. destruct (A t h eq_refl) as (a & k & Ha & _). by apply (Hno a).
  - intros a Ha. destruct (B a Ha) as [[t h] E]. destruct (A t h E) as (a' & k & Ha' & -> & Hk & ->).
    assert (a' = a) as ->.
    { destruct Ha as (pre & o & post & El & Han & _ & _ & Hc). destruct Ha' as (pre' & o' & post' & El' & Han' & _ & _ & Hc').
      rewrite El in El'. clear -El' Han Han' Hc Hc'.
      revert pre' El'. induction pre as [|x pre IH]; intros [|x' pre'] El'; cbn in El'; simplify_eq; [done| | |by eapply IH].
      - exfalso. apply (Hc o' a'); [|done]. apply elem_of_app. right. apply elem_of_list_here.
      - exfalso. apply (Hc' o a); [|done]. apply elem_of_app. right. apply elem_of_list_here. }
    destruct (send_batch (calls p l) ord id d u) as [p' [tm|]] eqn:Es.
    2: { apply send_none in Es as [_ Es]. congruence. }
    apply send_ok in Es as (t & h & ps & E' & Hps & _ & ->); [|done]. rewrite E in E'. simplify_eq.
    exists p', {[topic_of_key p k := PMsg (key_of (KSubHead (ba_hash a) id)) (avro_int (Z.of_nat (length ps))) ::
                send_entries (ba_hash a) id 0 (map part_value ps)]}, k, ps.
    split; [done|]. split; [done|]. split; [done|]. unfold on_topic, topics in *. unfold topic in *. split.
    { intros t Ht. by rewrite lookup_singleton_ne. }
    eexists. rewrite lookup_singleton. split; [reflexivity|]. split; [by rewrite send_entries_len, map_length|].
    intros i pt Hi. rewrite (send_entries_lookup _ _ _ _ i (part_value pt)); [done|]. change (map part_value ps) with (part_value <$> ps).
    rewrite list_lookup_fmap. by rewrite Hi.
Qed.
