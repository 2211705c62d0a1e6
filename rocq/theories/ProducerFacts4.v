(** Proofs about producers: redundancy, schemas, refused blocks. *)
From Verif Require Import Base Types Avro Wire SpecWire WireFacts GoPath PathFacts Producer SpecBlock SpecProducer ProducerFacts ProducerFacts2 ProducerFacts3.

(** C11 *)
Lemma add_sends p o a p' tm : aorder_ok o → add_block p o a = (p', inr tm) →
  ∃ x es, is_header (prefix_of_key p) (Block a (λ _, [])) x ∧ es ≡ₚ map_to_list (b_updates x) ∧
  ∀ t, ∃ ms, on_topic tm t = ms ++ (if decide (t = p_default p) then [PMsg (key_of (KBatch (ba_hash a))) (encode_batch x es)] else []) ∧
    NoDup (pm_key <$> ms) ∧ ∀ m, m ∈ ms ↔ own_message p a t m.
Proof.
  intros Ho E. destruct (add_ok p o a Ho p' tm E) as (_ & (x & es & Hx & Hes & H) & _). exists x, es.
  split; [done|]. split; [done|]. intros t. rewrite H. eexists. split; [reflexivity|]. split; [by apply s2_nodup|].
  intros m. by apply s2_own.
Qed.

(** C12 *)
Lemma own_same p1 p2 a t m : (∀ k, route (p_schema p1) k = route (p_schema p2) k) → own_message p1 a t m → own_message p2 a t m.
Proof. intros Hr. intros [k v x Hk Hx|k x Hk Hx]; rewrite Hr in Hx; by econstructor. Qed.
Lemma mt_same p1 p2 : (∀ k, route (p_schema p1) k = route (p_schema p2) k) → ∀ k, prefix_of_key p1 k = prefix_of_key p2 k.
Proof. intros Hr k. unfold prefix_of_key. by rewrite Hr. Qed.
Lemma count_same mt1 mt2 b x : (∀ k, mt1 k = mt2 k) → count_of mt1 b x = count_of mt2 b x.
Proof.
  intros Hm. unfold count_of. f_equal; f_equal; apply leibniz_equiv; intros k; rewrite !elem_of_filter, Hm; done.
Qed.
Lemma header_same mt1 mt2 b x : (∀ k, mt1 k = mt2 k) → is_header mt1 b x → is_header mt2 b x.
Proof.
  intros Hm (H1 & H2 & H3 & H4). split; [done|]. split; [done|]. split; [done|]. intros k r. rewrite H4.
  split.
  - intros [k0 v Hk Hn Hd|k0 Hk Hn|k0 id Hk|p Hp].
    + apply HValue; [done| |done]. by rewrite <- Hm.
    + apply HDelete; [done|]. by rewrite <- Hm.
    + by apply HBatch.
    + rewrite (count_same mt1 mt2) by done. apply HCount. by rewrite <- (count_same mt1 mt2).
  - intros [k0 v Hk Hn Hd|k0 Hk Hn|k0 id Hk|p Hp].
    + apply HValue; [done| |done]. by rewrite Hm.
    + apply HDelete; [done|]. by rewrite Hm.
    + by apply HBatch.
    + rewrite <- (count_same mt1 mt2) by done. apply HCount. by rewrite (count_same mt1 mt2).
Qed.
Lemma header_unique mt b x y : is_header mt b x → is_header mt b y → x = y.
Proof.
  intros (A1 & A2 & A3 & A4) (B1 & B2 & B3 & B4). destruct x as [n w pa u], y as [n' w' pa' u']; cbn in *. subst. f_equal.
  apply map_eq. intros k. apply option_eq. intros r. by rewrite A4, B4.
Qed.
Lemma header_fits mt a x : args_ok mt a → is_header mt (Block a (λ _, [])) x → batch_ok x.
Proof.
  intros (Hn & Hp & Hb & Hc) (H1 & H2 & H3 & H4). split; [by rewrite H1|]. split; [by rewrite H3|].
  intros k r Hr. apply H4 in Hr. unfold record_ok. assert (hash_ok zero_hash) by done. assert (in_int32 0) by done.
  destruct Hr as [k v|k|k id Hid|p Hcp]; cbn [br_count br_sub]; try done.
  split; [done|]. apply Hb. by exists k.
Qed.
Lemma refused_same p1 p2 a : (∀ k, route (p_schema p1) k = route (p_schema p2) k) →
  refused (prefix_of_key p1) a → refused (prefix_of_key p2) a.
Proof.
  intros Hr. pose proof (mt_same p1 p2 Hr) as Hm. intros [?|[k Hk]]; [by left|right]. exists k. unfold inline in *.
  setoid_rewrite Hm in Hk. done.
Qed.
Lemma same_blocks p1 p2 o1 o2 a p1' p2' tm1 r2 :
  (∀ k, route (p_schema p1) k = route (p_schema p2) k) → p_default p1 = p_default p2 → aorder_ok o1 → aorder_ok o2 →
  add_block p1 o1 a = (p1', inr tm1) → add_block p2 o2 a = (p2', r2) →
  ∃ tm2, r2 = inr tm2 ∧ ∀ t m1, m1 ∈ on_topic tm1 t →
    ∃ m2, m2 ∈ on_topic tm2 t ∧ pm_key m2 = pm_key m1 ∧
      (pm_val m2 = pm_val m1 ∨
       pm_key m1 = key_of (KBatch (ba_hash a)) ∧
       (args_ok (prefix_of_key p1) a → sized (length (pm_val m1)) → sized (length (pm_val m2)) →
        ∃ x, decode_batch (pm_val m1) = Some x ∧ decode_batch (pm_val m2) = Some x)).
Proof.
  intros Hr Hd Ho1 Ho2 E1 E2.
  destruct (add_cases p2 o2 a Ho2) as [(q & tm2 & E & _)|(q & e & E & Href)]; rewrite E in E2; simplify_eq.
  2: { exfalso. destruct (add_cases p1 o1 a Ho1) as [(? & ? & E' & Hn)|(? & ? & E' & _)]; rewrite E' in E1; simplify_eq.
       apply Hn. eapply refused_same; [|done]. intros k. by rewrite Hr. }
  exists tm2. split; [done|]. intros t m1 Hin.
  destruct (add_sends p1 o1 a _ _ Ho1 E1) as (x1 & es1 & Hx1 & Hes1 & H1).
  destruct (add_sends p2 o2 a _ _ Ho2 E) as (x2 & es2 & Hx2 & Hes2 & H2).
  assert (x2 = x1) as ->.
  { eapply header_unique; [exact Hx2|]. eapply header_same; [|exact Hx1]. by apply mt_same. }
  destruct (H1 t) as (ms1 & F1 & _ & G1). destruct (H2 t) as (ms2 & F2 & _ & G2).
  rewrite F1 in Hin. apply elem_of_app in Hin as [Hin|Hin].
  - exists m1. rewrite F2. split; [|by split; [|left]]. apply elem_of_app. left. apply G2. apply G1 in Hin.
    eapply own_same; [|exact Hin]. done.
  - destruct (decide (t = p_default p1)) as [Ht|Ht]; [|by apply elem_of_nil in Hin]. apply elem_of_list_singleton in Hin as ->.
    exists (PMsg (key_of (KBatch (ba_hash a))) (encode_batch x1 es2)). rewrite F2, decide_True by congruence.
    split; [apply elem_of_app; right; by apply elem_of_list_singleton|]. split; [done|]. right. split; [done|].
    cbn [pm_val]. intros Hok Hs1 Hs2. exists x1. assert (batch_ok x1) by (by eapply header_fits).
    split; by apply batch_roundtrip.
Qed.

(** * C14 *)
Lemma new_schema_overlap compile schema es :
  (∀ i, i ∈ es.*1 → is_Some (compile i) ∧ is_Some (compile (caret :: i))) →
  match new_schema compile schema es with
  | inl NOverlap => ∃ i j, i ∈ es.*1 ∧ j ∈ dom schema ∧ i ≠ j ∧ j `prefix_of` i
  | inl NCompile => False
  | inr s => (∀ i j, i ∈ es.*1 → j ∈ dom schema → i ≠ j → ¬ j `prefix_of` i) ∧
      Forall2 (λ e f, f.2 = e.2 ∧ (has_prefix e.1 [caret] = false → compile (caret :: e.1) = Some f.1)) es s
  end.
Proof.
  induction es as [|[i t] es IH]; intros Hc; cbn [new_schema fmap list_fmap].
  { split; [by intros ? ? ?%elem_of_nil|constructor]. }
  assert (Hkeys : ∀ j, j ∈ (map_to_list schema).*1 ↔ j ∈ dom schema).
  { intros j. rewrite elem_of_dom. split.
    - intros ([j' v] & -> & H%elem_of_map_to_list)%elem_of_list_fmap. by eexists.
    - intros [v H]. apply elem_of_list_fmap. exists (j, v). split; [done|]. by apply elem_of_map_to_list. }
  case_bool_decide as Hov.
  { apply Exists_exists in Hov as (j & Hj%Hkeys & Hne & Hp). exists i, j. split; [left|]. split; [done|]. split; [done|].
    unfold has_prefix in Hp. by apply bool_decide_eq_true in Hp. }
  destruct (Hc i) as [[f Hf] [g Hg]]; [left|]. rewrite Hf, Hg.
  assert (IH' := IH (λ i Hi, Hc i (elem_of_list_further _ _ _ Hi))). clear IH.
  assert (Hi : ∀ j, j ∈ dom schema → i ≠ j → ¬ j `prefix_of` i).
  { intros j Hj Hne Hp. apply Hov, Exists_exists. exists j. split; [by apply Hkeys|]. split; [done|]. by apply bool_decide_eq_true. }
  destruct (has_prefix i [caret]) eqn:Ec.
  all: destruct (new_schema compile schema es) as [[]|s].
  all: try done.
  all: try (destruct IH' as (i' & j & ? & ?); exists i', j; split; [by right|done]).
  all: destruct IH' as [IH1 IH2]; split; [intros i' j [->|Hi']%elem_of_cons; [by apply Hi|by apply IH1]|].
  all: constructor; [|done]; cbn; split; [done|]; intros; congruence.
Qed.

Lemma overlap_iff compile dflt schema es : es ≡ₚ map_to_list schema →
  (∀ i, i ∈ dom schema → is_Some (compile i) ∧ is_Some (compile (caret :: i))) →
  (new_producer compile dflt schema es = inl NOverlap ↔ ∃ i j, i ∈ dom schema ∧ j ∈ dom schema ∧ i ≠ j ∧ j `prefix_of` i) ∧
  new_producer compile dflt schema es ≠ inl NCompile.
Proof.
  intros Hes Hc.
  assert (Hkeys : ∀ j, j ∈ es.*1 ↔ j ∈ dom schema).
  { intros j. rewrite elem_of_dom, Hes. split.
    - intros ([j' v] & -> & H%elem_of_map_to_list)%elem_of_list_fmap. by eexists.
    - intros [v H]. apply elem_of_list_fmap. exists (j, v). split; [done|]. by apply elem_of_map_to_list. }
  pose proof (new_schema_overlap compile schema es) as H. unfold new_producer.
  destruct (new_schema compile schema es) as [[]|s].
  - split; [|done]. split; [|done]. intros _. destruct H as (i & j & Hi%Hkeys & ?); [|by exists i, j]. intros i Hi%Hkeys. by apply Hc.
  - exfalso. apply H. intros i Hi%Hkeys. by apply Hc.
  - split; [|done]. split; [done|]. intros (i & j & Hi & Hj & Hne & Hp). exfalso.
    destruct H as [H _]; [intros x Hx%Hkeys; by apply Hc|]. apply Hkeys in Hi. by apply (H i j).
Qed.

Lemma prefixes_comparable (a b c : bytes) : a `prefix_of` c → b `prefix_of` c → a `prefix_of` b ∨ b `prefix_of` a.
Proof. intros Ha Hb. destruct (prefix_weak_total a b c Ha Hb); auto. Qed.

Lemma route_plain compile dflt schema es p : es ≡ₚ map_to_list schema → (∀ i, i ∈ dom schema → plain_text compile i) →
  new_producer compile dflt schema es = inr p →
  p_default p = dflt ∧ p_pending p = ∅ ∧
  (∀ k i j, i ∈ dom schema → j ∈ dom schema → i `prefix_of` k → j `prefix_of` k → i = j) ∧
  ∀ k, match route (p_schema p) k with
       | Some (i, t) => schema !! i = Some t ∧ i `prefix_of` k
       | None => ∀ i, i ∈ dom schema → ¬ i `prefix_of` k
       end.
Proof.
  intros Hes Hpl E. unfold new_producer in E.
  assert (Hel : ∀ i t, (i, t) ∈ es ↔ schema !! i = Some t). { intros i t. by rewrite Hes, elem_of_map_to_list. }
  assert (Hkeys : ∀ j, j ∈ es.*1 → j ∈ dom schema).
  { intros j ([j' v] & -> & Hin%Hel)%elem_of_list_fmap. apply elem_of_dom. by eexists. }
  pose proof (new_schema_overlap compile schema es) as H.
  destruct (new_schema compile schema es) as [|s]; [done|]. simplify_eq. cbn [p_default p_pending p_schema].
  destruct H as [H1 H2]. { intros i Hi%Hkeys. destruct (Hpl i Hi) as (_ & _ & ? & f & ? & _). eauto. }
  split; [done|]. split; [done|]. split.
  { intros k i j Hi Hj Pi Pj. destruct (decide (i = j)) as [|Hne]; [done|]. exfalso.
    assert (Hin : ∀ x, x ∈ dom schema → x ∈ es.*1).
    { intros x [t Ht]%elem_of_dom. apply elem_of_list_fmap. exists (x, t). split; [done|]. by apply Hel. }
    destruct (prefixes_comparable i j k Pi Pj); [eapply (H1 j i)|eapply (H1 i j)]; eauto. }
  intros k.
  assert (G : match route s k with
       | Some (i, t) => (i, t) ∈ es ∧ i `prefix_of` k
       | None => ∀ i, i ∈ es.*1 → ¬ i `prefix_of` k end).
  { clear H1. assert (Hpl' : ∀ i, i ∈ es.*1 → plain_text compile i) by auto. clear Hes Hel Hkeys Hpl.
    induction H2 as [|[i t] [f t'] es s [Et Hf] H2 IH]; cbn [route]; [by intros ? ?%elem_of_nil|]. cbn in Et, Hf. subst t'.
    destruct (Hpl' i) as (Hc & Hne & _ & g & Hg & Hgk); [left|]. specialize (Hf Hc). rewrite Hg in Hf. injection Hf as <-.
    rewrite Hgk. unfold has_prefix. case_bool_decide as Hp.
    - destruct i as [|x i]; [done|]. split; [left|done].
    - destruct (route s k) as [[i' t']|].
      + destruct IH as [? ?]; [intros x Hx; apply Hpl'; by right|]. split; [by right|done].
      + intros x [->|Hx]%elem_of_cons; [done|]. apply IH; [|done]. intros y Hy; apply Hpl'; by right. }
  destruct (route s k) as [[i t]|]. { destruct G as [?%Hel ?]. done. }
  intros i [t Ht]%elem_of_dom. apply G. apply elem_of_list_fmap. exists (i, t). split; [done|]. by apply Hel.
Qed.
Lemma route_order compile dflt schema es1 es2 p1 p2 : es1 ≡ₚ map_to_list schema → es2 ≡ₚ map_to_list schema →
  (∀ i, i ∈ dom schema → plain_text compile i) →
  new_producer compile dflt schema es1 = inr p1 → new_producer compile dflt schema es2 = inr p2 →
  ∀ k, route (p_schema p1) k = route (p_schema p2) k.
Proof.
  intros He1 He2 Hp E1 E2 k. destruct (route_plain _ _ _ _ _ He1 Hp E1) as (_ & _ & U & R1).
  destruct (route_plain _ _ _ _ _ He2 Hp E2) as (_ & _ & _ & R2). specialize (R1 k). specialize (R2 k).
  destruct (route (p_schema p1) k) as [[i t]|], (route (p_schema p2) k) as [[j u]|].
  - destruct R1 as [A1 B1], R2 as [A2 B2]. assert (i = j) as -> by (apply (U k); try done; apply elem_of_dom; by eexists).
    rewrite A1 in A2. by simplify_eq.
  - destruct R1 as [A1 B1]. exfalso. apply (R2 i); [|done]. apply elem_of_dom. by eexists.
  - destruct R2 as [A1 B1]. exfalso. apply (R1 j); [|done]. apply elem_of_dom. by eexists.
  - done.
Qed.

(** * Paths under plain directories *)
Lemma join_split p : join_slash (split_slash p) = p.
Proof.
  induction p as [|b p IH]; [done|]. cbn [split_slash]. case_bool_decide as Hb; subst.
  - cbn [join_slash]. pose proof (split_ne p). destruct (split_slash p) eqn:E; [done|]. rewrite IH. done.
  - pose proof (split_ne p). destruct (split_slash p) as [|c cs] eqn:E; [done|]. cbn [join_slash] in *.
    destruct cs; [by rewrite IH|]. cbn [app]. f_equal. exact IH.
Qed.
Lemma directory_prefix cs q : Forall plain cs → cs ≠ [] → q ++ [slash] `prefix_of` join_slash cs →
  ∃ n, 1 ≤ n < length cs ∧ q = join_slash (take n cs).
Proof.
  intros Hp Hne [r E]. rewrite <- app_assoc in E. cbn [app] in E.
  assert (Es : split_slash q ++ split_slash r = cs) by (by rewrite <- split_app, <- E, split_join).
  exists (length (split_slash q)). split.
  - rewrite <- Es, app_length. pose proof (split_ne q). pose proof (split_ne r).
    destruct (split_slash q); [done|]. destruct (split_slash r); [done|]. cbn. lia.
  - rewrite <- Es, take_app. by rewrite join_split.
Qed.
Lemma join_take_prefix cs n : 1 ≤ n < length cs → join_slash (take n cs) ++ [slash] `prefix_of` join_slash cs.
Proof.
  intros Hn. rewrite <- (take_drop n cs) at 2. rewrite join_app.
  - exists (join_slash (drop n cs)). by rewrite <- app_assoc.
  - intros E. apply (f_equal length) in E. rewrite take_length in E. cbn in E. lia.
  - intros E. apply (f_equal length) in E. rewrite drop_length in E. cbn in E. lia.
Qed.
Lemma lookup_keys_elem cs q : Forall plain cs → cs ≠ [] →
  q ∈ lookup_keys (join_slash cs) ↔ q = join_slash cs ∨ ∃ n, 1 ≤ n ≤ length cs ∧ q = join_slash (take n cs) ++ [slash].
Proof.
  intros Hp Hne. rewrite lookup_keys_plain, elem_of_cons by done. unfold dirs_of.
  rewrite elem_of_list_In, in_map_iff. setoid_rewrite <- in_rev. setoid_rewrite in_seq. split.
  - intros [?|(n & <- & ?)]; [by left|right]. exists n. split; [lia|done].
  - intros [?|(n & ? & ->)]; [by left|right]. exists n. split; [done|lia].
Qed.

Lemma count_nonzero mt b q : count_of mt b q ≠ 0 →
  ∃ k, (k ∈ dom (ba_updates (bk_args b)) ∨ k ∈ ba_deletes (bk_args b)) ∧ mt k = Some q.
Proof.
  intros H. unfold count_of in H.
  destruct (decide (size (filter (λ k, mt k = Some q) (dom (ba_updates (bk_args b)))) = 0)) as [E|E].
  - assert (E2 : size (filter (λ k, mt k = Some q) (ba_deletes (bk_args b))) ≠ 0) by lia.
    apply size_non_empty_iff, set_choose in E2 as [k Hk]. apply elem_of_filter in Hk as [? ?]. exists k. auto.
  - apply size_non_empty_iff, set_choose in E as [k Hk]. apply elem_of_filter in Hk as [? ?]. exists k. auto.
Qed.

Lemma literal_paths compile dflt schema es p b : es ≡ₚ map_to_list schema →
  (∀ i, i ∈ dom schema → plain_text compile i ∧ directory i) → new_producer compile dflt schema es = inr p →
  (∀ k, k ∈ dom (ba_updates (bk_args b)) ∨ k ∈ ba_deletes (bk_args b) → prefix_of_key p k ≠ None → relative_path k) →
  ∀ k x, k ∈ dom (ba_updates (bk_args b)) ∨ k ∈ ba_deletes (bk_args b) → prefix_of_key p k = Some x →
    rooted k = false ∧ x ∈ lookup_keys k ∧ (∀ q, q ∈ lookup_keys k → count_of (prefix_of_key p) b q ≠ 0 → q = x).
Proof.
  intros Hes Hs E Hk k x Hin Hx.
  destruct (route_plain _ _ _ _ _ Hes (λ i Hi, proj1 (Hs i Hi)) E) as (_ & _ & U & R).
  destruct (Hk k Hin) as (cs & Hne & Hcs & ->); [congruence|]. change (Forall plain cs) in Hcs.
  assert (Hroute : ∀ k x, prefix_of_key p k = Some x → x ∈ dom schema ∧ x `prefix_of` k).
  { clear -R. intros k x Hx. unfold prefix_of_key in Hx. specialize (R k). destruct (route (p_schema p) k) as [[i t]|]; [|done].
    cbn in Hx. simplify_eq. destruct R as [R1 R2]. split; [|done]. apply elem_of_dom. by eexists. }
  destruct (Hroute _ _ Hx) as [Hd Hp]. split; [by apply join_head, plain_elem|].
  destruct (Hs x Hd) as [_ [q ->]]. destruct (directory_prefix cs q Hcs Hne Hp) as (n & Hn & ->).
  split. { apply lookup_keys_elem; [done|done|]. right. exists n. split; [lia|done]. }
  intros y Hy Hc. destruct (count_nonzero _ _ _ Hc) as (k' & _ & Hk'). destruct (Hroute _ _ Hk') as [Hd' _].
  apply lookup_keys_elem in Hy; [|done|done].
  assert (Hcase : y `prefix_of` join_slash cs ∨ y = join_slash cs ++ [slash]).
  { destruct Hy as [->|(m & Hm & ->)]; [by left|]. destruct (decide (m = length cs)) as [->|].
    - right. by rewrite firstn_all.
    - left. apply join_take_prefix. unfold bytes in *; lia. }
  destruct Hcase as [Hyp| ->].
  - by apply (U (join_slash cs)).
  - apply (U (join_slash cs ++ [slash])); [done|done|done|]. by apply prefix_app_r.
Qed.

(** * Redundant producers *)
Lemma same_awaiting mt l1 l2 id a : Forall2 same_call l1 l2 → awaiting mt l1 id a → awaiting mt l2 id a.
Proof.
  intros Hs (pre & o & post & -> & Ha & Hr & H1 & H2).
  apply Forall2_app_inv_l in Hs as (pre' & r & Hpre & Hr' & ->). apply Forall2_cons_inv_l in Hr' as (y & post' & Hy & Hpost & ->).
  inversion Hy as [? o2 ? E1 E2|]; subst. exists pre', o2, post'. split; [done|]. split; [done|]. split; [done|]. split.
  - intros ord d u Hin. apply elem_of_list_lookup in Hin as [i Hi]. destruct (Forall2_lookup_r _ _ _ _ _ Hpost Hi) as (z & Hz & Hsz).
    inversion Hsz; subst. eapply H1. apply elem_of_list_lookup. eauto.
  - intros o' a' Hin. apply elem_of_list_lookup in Hin as [i Hi]. destruct (Forall2_lookup_r _ _ _ _ _ Hpost Hi) as (z & Hz & Hsz).
    inversion Hsz; subst. eapply H2. apply elem_of_list_lookup. eauto.
Qed.
Lemma awaiting_unique mt l id a a' : awaiting mt l id a → awaiting mt l id a' → a = a'.
Proof.
  intros (pre & o & post & El & Han & _ & _ & Hc) (pre' & o' & post' & El' & Han' & _ & _ & Hc').
  rewrite El in El'. clear El. revert pre' El'. induction pre as [|x pre IH]; intros [|x' pre'] El'; cbn in El'; simplify_eq; [done| | |by eapply IH].
  - exfalso. apply (Hc o' a'); [|done]. apply elem_of_app. right. apply elem_of_list_here.
  - exfalso. apply (Hc' o a); [|done]. apply elem_of_app. right. apply elem_of_list_here.
Qed.
Lemma awaiting_call mt l id a : awaiting mt l id a → ∃ o, CAdd o a ∈ l.
Proof. intros (pre & o & post & -> & _). exists o. apply elem_of_app. right. apply elem_of_list_here. Qed.
Lemma same_call_sym l1 l2 : Forall2 same_call l1 l2 → Forall2 same_call l2 l1.
Proof. intros H. apply Forall2_flip. eapply Forall2_impl; [exact H|]. intros x y []; constructor. Qed.
Lemma same_mention p1 p2 l1 l2 id : (∀ k, route (p_schema p1) k = route (p_schema p2) k) → Forall2 same_call l1 l2 →
  no_refused_mention (prefix_of_key p1) l1 id → no_refused_mention (prefix_of_key p2) l2 id.
Proof.
  intros Hr Hs H o a Hin Href. apply elem_of_list_lookup in Hin as [i Hi]. destruct (Forall2_lookup_r _ _ _ _ _ Hs Hi) as (z & Hz & Hsz).
  inversion Hsz; subst. eapply H; [by apply elem_of_list_lookup; eauto|]. eapply refused_same; [|exact Href]. intros k. by rewrite Hr.
Qed.
Lemma awaiting_mt p1 p2 l id a : (∀ k, route (p_schema p1) k = route (p_schema p2) k) →
  awaiting (prefix_of_key p1) l id a → awaiting (prefix_of_key p2) l id a.
Proof.
  intros Hr (pre & o & post & -> & Ha & Hn & H). exists pre, o, post. split; [done|]. split; [done|]. split; [|done].
  intros Href. apply Hn. eapply refused_same; [|exact Href]. intros k. by rewrite Hr.
Qed.
Lemma same_pending p1 p2 l1 l2 id : (∀ k, route (p_schema p1) k = route (p_schema p2) k) → p_default p1 = p_default p2 →
  p_pending p1 = ∅ → p_pending p2 = ∅ → Forall call_ok l1 → Forall call_ok l2 → Forall2 same_call l1 l2 →
  no_refused_mention (prefix_of_key p1) l1 id →
  (∀ o a k k', CAdd o a ∈ l1 → ba_batches a !! k = Some id → ba_batches a !! k' = Some id → k = k') →
  p_pending (calls p1 l1) !! id = p_pending (calls p2 l2) !! id.
Proof.
  intros Hr Hd H1 H2 O1 O2 Hs Hm Hu.
  destruct (pending_awaiting p1 l1 id H1 O1 Hm) as [A1 B1].
  destruct (pending_awaiting p2 l2 id H2 O2 (same_mention _ _ _ _ _ Hr Hs Hm)) as [A2 B2].
  destruct (p_pending (calls p1 l1) !! id) as [[t h]|] eqn:E1.
  - destruct (A1 t h eq_refl) as (a & k & Ha & -> & Hk & ->).
    assert (Ha2 : awaiting (prefix_of_key p2) l2 id a) by (eapply same_awaiting; [exact Hs|]; by eapply awaiting_mt).
    destruct (B2 a Ha2) as [[t' h'] E2]. rewrite E2. destruct (A2 t' h' E2) as (a' & k' & Ha' & -> & Hk' & ->).
    assert (a' = a) as -> by (by eapply awaiting_unique). destruct (awaiting_call _ _ _ _ Ha) as [o Ho].
    assert (k' = k) as -> by (by eapply Hu). unfold topic_of_key. by rewrite Hr, Hd.
  - destruct (p_pending (calls p2 l2) !! id) as [[t h]|] eqn:E2; [|done]. exfalso.
    destruct (A2 t h eq_refl) as (a & k & Ha & _). destruct (B1 a) as [? ?]; [|done].
    eapply same_awaiting; [by apply same_call_sym|]. eapply awaiting_mt; [|exact Ha]. intros j. by rewrite Hr.
Qed.
Lemma same_batches p1 p2 l1 l2 id r1 r2 d u : (∀ k, route (p_schema p1) k = route (p_schema p2) k) → p_default p1 = p_default p2 →
  p_pending p1 = ∅ → p_pending p2 = ∅ → Forall call_ok l1 → Forall call_ok l2 → Forall2 same_call l1 l2 →
  no_refused_mention (prefix_of_key p1) l1 id →
  (∀ o a k k', CAdd o a ∈ l1 → ba_batches a !! k = Some id → ba_batches a !! k' = Some id → k = k') →
  (∀ l, r1 l ≡ₚ l) → (∀ l, r2 l ≡ₚ l) →
  snd (send_batch (calls p1 l1) r1 id d u) = snd (send_batch (calls p2 l2) r2 id d u).
Proof. intros. apply send_same; [done|done|]. by apply same_pending. Qed.
Lemma same_accepted p1 p2 o1 o2 a : (∀ k, route (p_schema p1) k = route (p_schema p2) k) → aorder_ok o1 → aorder_ok o2 →
  (∃ tm, snd (add_block p1 o1 a) = inr tm) ↔ (∃ tm, snd (add_block p2 o2 a) = inr tm).
Proof.
  intros Hr O1 O2.
  destruct (add_cases p1 o1 a O1) as [(q1 & t1 & -> & N1)|(q1 & e1 & -> & N1)];
  destruct (add_cases p2 o2 a O2) as [(q2 & t2 & -> & N2)|(q2 & e2 & -> & N2)]; cbn.
  - split; eauto.
  - exfalso. apply N1. eapply refused_same; [|exact N2]. intros k. by rewrite Hr.
  - exfalso. apply N2. eapply refused_same; [|exact N1]. done.
  - split; by intros [].
Qed.

(** * C15, C16 *)
Lemma refusal p o a : aorder_ok o → ((∃ e, snd (add_block p o a) = inl e) ↔ zero_sub a ∨ two_roles (prefix_of_key p) a) ∧
  (snd (add_block p o a) = inl AInvalidBatch → zero_sub a) ∧ (snd (add_block p o a) = inl APrefixConflict → two_roles (prefix_of_key p) a).
Proof.
  intros Ho. destruct (add_block p o a) as [q [e|tm]] eqn:E; cbn [snd].
  - apply add_err in E as [E _]; [|done]. split; [split; [|eauto]; intros _; destruct e; auto|]. split; intros [= ->]; done.
  - apply add_ok in E as [[H1 H2] _]; [|done]. split; [|done]. split; [by intros []|]. by intros [].
Qed.
Lemma failed_add p o a q e : aorder_ok o → add_block p o a = (q, inl e) →
  p_schema q = p_schema p ∧ p_default q = p_default p ∧ ∀ id, ¬ announces a id → p_pending q !! id = p_pending p !! id.
Proof. intros Ho E. by apply add_err in E as (_ & ? & ? & ?). Qed.

(** * What was sent are messages of the block *)
Lemma header_block mt a ps x : is_header mt (Block a (λ _, [])) x ↔ is_header mt (Block a ps) x.
Proof.
  unfold is_header; cbn [bk_args].
  assert (H : ∀ f g k r, header_entry mt (Block a f) k r → header_entry mt (Block a g) k r).
  { intros f g k r []; [by apply HValue|by apply HDelete|by apply HBatch|].
    change (count_of mt (Block a f) p) with (count_of mt (Block a g) p). by apply HCount. }
  split; intros (H1 & H2 & H3 & H4); (split; [done|]; split; [done|]; split; [done|]; intros k r; rewrite H4; split; apply H).
Qed.
Lemma add_sent p o b p' tm : aorder_ok o → add_block p o (bk_args b) = (p', inr tm) →
  (∀ t m, m ∈ on_topic tm t → ∃ kd, pm_key m = key_of kd ∧ sent (prefix_of_key p) b kd (pm_val m)) ∧
  (∀ kd v, sent (prefix_of_key p) b kd v →
    match kd with KSubHead _ _ | KSubMsg _ _ _ => True
    | _ => ∃ t m, m ∈ on_topic tm t ∧ pm_key m = key_of kd end).
Proof.
  intros Ho E. destruct (add_sends p o _ _ _ Ho E) as (x & es & Hx & Hes & H). destruct b as [a ps]. cbn [bk_args] in *.
  apply (header_block _ _ ps) in Hx. split.
  - intros t m Hin. destruct (H t) as (ms & E1 & _ & E2). rewrite E1 in Hin. apply elem_of_app in Hin as [Hin|Hin].
    + apply E2 in Hin as [k v y Hk Hr|k y Hk Hr]; cbn [pm_key pm_val].
      * exists (KUpdate (ba_hash a) k). split; [done|]. eapply (SentUpdate _ (Block a ps)); [done|]. unfold prefix_of_key. by rewrite Hr.
      * exists (KDelete (ba_hash a) k). split; [done|]. eapply (SentDelete _ (Block a ps)); [done|]. unfold prefix_of_key. by rewrite Hr.
    + destruct (decide (t = p_default p)) as [->|]; [|by apply elem_of_nil in Hin]. apply elem_of_list_singleton in Hin as ->.
      exists (KBatch (ba_hash a)). split; [done|]. by apply (SentHeader _ (Block a ps)).
  - intros kd v Hs. destruct Hs as [x' es' Hx' Hes'|k v y Hk Hr|k v y Hk Hr|id Hid|id i pt es' Hid]; [| | |done|done]; cbn [bk_args] in *.
    + destruct (H (p_default p)) as (ms & E1 & _). rewrite decide_True in E1 by done. eexists _, _. rewrite E1.
      split; [apply elem_of_app; right; by apply elem_of_list_singleton|]. done.
    + unfold prefix_of_key in Hr. destruct (route (p_schema p) k) as [[y' t]|] eqn:Er; [|done]. destruct (H t) as (ms & E1 & _ & E2).
      eexists t, (PMsg (key_of (KUpdate (ba_hash a) k)) v). rewrite E1. split; [|done]. apply elem_of_app. left. apply E2. by econstructor.
    + unfold prefix_of_key in Hr. destruct (route (p_schema p) k) as [[y' t]|] eqn:Er; [|done]. destruct (H t) as (ms & E1 & _ & E2).
      eexists t, (PMsg (key_of (KDelete (ba_hash a) k)) []). rewrite E1. split; [|done]. apply elem_of_app. left. apply E2. by econstructor.
Qed.
Lemma send_sent mt p b id ord d u t p' tm : (∀ l, ord l ≡ₚ l) → p_pending p !! id = Some (t, ba_hash (bk_args b)) →
  announced b id → is_parts d u (bk_parts b id) → send_batch p ord id d u = (p', Some tm) →
  (∀ t' m, m ∈ on_topic tm t' → ∃ kd, pm_key m = key_of kd ∧ sent mt b kd (pm_val m)) ∧
  (∃ m, m ∈ on_topic tm t ∧ pm_key m = key_of (KSubHead (ba_hash (bk_args b)) id)) ∧
  (∀ i, i < length (bk_parts b id) → ∃ m, m ∈ on_topic tm t ∧ pm_key m = key_of (KSubMsg (ba_hash (bk_args b)) id (Z.of_nat i))).
Proof.
  intros Ho Hp Ha Hps E. apply send_ok in E as (t0 & h & ps & Hp' & Hps' & _ & ->); [|done]. rewrite Hp in Hp'. simplify_eq.
  rewrite (parts_unique d u ps (bk_parts b id)) by done. clear Hps Hps' ps. set (h := ba_hash (bk_args b)) in *.
  set (ps := bk_parts b id) in *. unfold on_topic, topics, topic in *. rewrite lookup_singleton. cbn [default].
  assert (Hl : ∀ i pt, ps !! i = Some pt → send_entries h id 0 (map part_value ps) !! i =
    Some (PMsg (key_of (KSubMsg h id (Z.of_nat i))) (part_value pt))).
  { intros i pt Hi. rewrite (send_entries_lookup _ _ _ _ i (part_value pt)); [done|].
    change (map part_value ps) with (part_value <$> ps). rewrite list_lookup_fmap. by rewrite Hi. }
  split; [|split].
  - intros t' m Hin. destruct (decide (t' = t0)) as [->|Hne].
    2: { rewrite lookup_singleton_ne in Hin by done. by apply elem_of_nil in Hin. }
    rewrite lookup_singleton in Hin. cbn in Hin. apply elem_of_cons in Hin as [->|Hin].
    + exists (KSubHead h id). split; [done|]. by apply (SentSubHead mt b).
    + apply elem_of_list_lookup in Hin as [i Hi].
      assert (Hlt : i < length ps). { apply lookup_lt_Some in Hi. by rewrite send_entries_len, map_length in Hi. }
      destruct (lookup_lt_is_Some_2 ps i Hlt) as [pt Hpt]. rewrite (Hl i pt Hpt) in Hi. simplify_eq.
      exists (KSubMsg h id (Z.of_nat i)). split; [done|]. cbn [pm_val]. by eapply (SentSubMsg mt b).
  - eexists. split; [left|]. done.
  - intros i Hi. destruct (lookup_lt_is_Some_2 ps i Hi) as [pt Hpt]. eexists. split; [right; apply elem_of_list_lookup; exists i; by apply Hl|done].
Qed.
(** An accepted block satisfies the conditions AddBlock checks. *)
Lemma accepted_roles mt b : ¬ refused mt (bk_args b) →
  (∀ id, announced b id → id ≠ zero_hash) ∧
  (∀ x id, ba_batches (bk_args b) !! x = Some id →
     (x ∈ dom (ba_updates (bk_args b)) ∨ x ∈ ba_deletes (bk_args b) → mt x ≠ None) ∧ count_of mt b x = 0) ∧
  (∀ x, (x ∈ dom (ba_updates (bk_args b)) ∨ x ∈ ba_deletes (bk_args b)) → mt x = None → count_of mt b x = 0).
Proof.
  intros Hn. split; [|split].
  - intros id [x Hx] ->. apply Hn. left. by exists x.
  - intros x id Hx. assert (Hd : x ∈ dom (ba_batches (bk_args b))) by (apply elem_of_dom; by eexists). split.
    + intros Hin Hm. apply Hn. right. exists x. left. by split.
    + destruct (decide (count_of mt b x = 0)) as [|Hc]; [done|]. exfalso. apply count_nonzero in Hc as (k & Hk & Hm).
      apply Hn. right. exists x. right. left. split; [done|]. by exists k.
  - intros x Hin Hm. destruct (decide (count_of mt b x = 0)) as [|Hc]; [done|]. exfalso. apply count_nonzero in Hc as (k & Hk & Hmk).
    apply Hn. right. exists x. right. right. split; [by split|]. by exists k.
Qed.

Lemma same_messages p1 p2 l1 l2 id r1 r2 d u : (∀ k, route (p_schema p1) k = route (p_schema p2) k) →
  p_pending p1 = ∅ → p_pending p2 = ∅ → Forall call_ok l1 → Forall call_ok l2 → Forall2 same_call l1 l2 →
  no_refused_mention (prefix_of_key p1) l1 id → (∀ l, r1 l ≡ₚ l) → (∀ l, r2 l ≡ₚ l) →
  match snd (send_batch (calls p1 l1) r1 id d u), snd (send_batch (calls p2 l2) r2 id d u) with
  | Some tm1, Some tm2 => ∃ t1 t2 ms, tm1 = {[t1 := ms]} ∧ tm2 = {[t2 := ms]}
  | None, None => True
  | _, _ => False
  end.
Proof.
  intros Hr H1 H2 O1 O2 Hs Hm P1 P2.
  destruct (pending_awaiting p1 l1 id H1 O1 Hm) as [A1 B1].
  destruct (pending_awaiting p2 l2 id H2 O2 (same_mention _ _ _ _ _ Hr Hs Hm)) as [A2 B2].
  destruct (send_batch (calls p1 l1) r1 id d u) as [q1 [tm1|]] eqn:E1; destruct (send_batch (calls p2 l2) r2 id d u) as [q2 [tm2|]] eqn:E2; cbn [snd].
  - apply send_ok in E1 as (t1 & h1 & ps1 & F1 & G1 & _ & ->); [|done]. apply send_ok in E2 as (t2 & h2 & ps2 & F2 & G2 & _ & ->); [|done].
    destruct (A1 _ _ F1) as (a & k & Ha & -> & Hk & ->). destruct (A2 _ _ F2) as (a' & k' & Ha' & -> & Hk' & ->).
    assert (a' = a) as ->. { eapply awaiting_unique; [exact Ha'|]. eapply same_awaiting; [exact Hs|]. by eapply awaiting_mt. }
    rewrite (parts_unique d u ps2 ps1) by done. by eexists _, _, _.
  - apply send_ok in E1 as (t1 & h1 & ps1 & F1 & _); [|done]. apply send_none in E2 as [_ E2].
    destruct (A1 _ _ F1) as (a & k & Ha & _). destruct (B2 a) as [? ?]; [|congruence].
    eapply same_awaiting; [exact Hs|]. by eapply awaiting_mt.
  - apply send_ok in E2 as (t1 & h1 & ps1 & F1 & _); [|done]. apply send_none in E1 as [_ E1].
    destruct (A2 _ _ F1) as (a & k & Ha & _). destruct (B1 a) as [? ?]; [|congruence].
    eapply same_awaiting; [by apply same_call_sym|]. eapply awaiting_mt; [|exact Ha]. intros j. by rewrite Hr.
  - done.
Qed.
