(** Proofs about AddBlock (C11, C15, C16). *)
From Verif Require Import Base Types Avro AvroFacts Wire SpecWire WireFacts GoPath Producer SpecBlock SpecProducer ProducerFacts.

Lemma filter_fst {A} (P : bytes → Prop) (d1 : ∀ x : bytes * A, Decision (P x.1)) (d2 : ∀ x, Decision (P x)) (l : list (bytes * A)) :
  length (filter (λ x, P x.1) l) = length (filter P l.*1).
Proof.
  induction l as [|[k v] l IH]; [done|]. cbn [fmap list_fmap fst]. rewrite !filter_cons. cbn [fst].
  repeat case_decide; cbn; by rewrite ?IH.
Qed.
Lemma size_filter (P : bytes → Prop) `{∀ x, Decision (P x)} (X : gset bytes) l :
  NoDup l → (∀ k, k ∈ l ↔ k ∈ X) → size (filter P X) = length (filter P l).
Proof.
  intros Hn Hl. unfold size, set_size. cbn. apply Permutation_length, NoDup_Permutation; [apply NoDup_elements|by apply NoDup_filter|].
  intros k. rewrite elem_of_elements, elem_of_filter, elem_of_list_filter, Hl. done.
Qed.

Section add.
  Context (p : producer) (o : aorder) (a : block_args) (Ho : aorder_ok o).
  Notation sch := (p_schema p).
  Notation mt := (prefix_of_key p).
  Notation h := (ba_hash a).
  Definition lu := ao_upd o (map_to_list (ba_updates a)).
  Definition ld := ao_del o (elements (ba_deletes a)).
  Definition lb := ao_bat o (map_to_list (ba_batches a)).
  Definition s1 := foldl (add_update sch h) (AS {[p_default p := []]} ∅ ∅) lu.
  Definition s2 := foldl (add_delete sch h) s1 ld.
  Definition lc := ao_cnt o (map_to_list (as_counts s2)).

  Lemma lu_perm : lu ≡ₚ map_to_list (ba_updates a). Proof. apply Ho. Qed.
  Lemma ld_perm : ld ≡ₚ elements (ba_deletes a). Proof. apply Ho. Qed.
  Lemma lb_perm : lb ≡ₚ map_to_list (ba_batches a). Proof. apply Ho. Qed.
  Lemma lc_perm : lc ≡ₚ map_to_list (as_counts s2). Proof. apply Ho. Qed.
  Lemma lu_nodup : NoDup lu.*1. Proof. rewrite lu_perm. apply NoDup_fst_map_to_list. Qed.
  Lemma ld_nodup : NoDup ld. Proof. rewrite ld_perm. apply NoDup_elements. Qed.
  Lemma lb_nodup : NoDup lb.*1. Proof. rewrite lb_perm. apply NoDup_fst_map_to_list. Qed.
  Lemma lc_nodup : NoDup lc.*1. Proof. rewrite lc_perm. apply NoDup_fst_map_to_list. Qed.
  Lemma lu_elem k v : (k, v) ∈ lu ↔ ba_updates a !! k = Some v.
  Proof. rewrite lu_perm. apply elem_of_map_to_list. Qed.
  Lemma lu_key k : k ∈ lu.*1 ↔ k ∈ dom (ba_updates a).
  Proof.
    rewrite elem_of_dom. split.
    - intros ([k' v] & -> & H%lu_elem)%elem_of_list_fmap. by exists v.
    - intros [v H%lu_elem]. apply elem_of_list_fmap. by exists (k, v).
  Qed.
  Lemma ld_elem k : k ∈ ld ↔ k ∈ ba_deletes a.
  Proof. rewrite ld_perm. apply elem_of_elements. Qed.
  Lemma lb_elem k id : (k, id) ∈ lb ↔ ba_batches a !! k = Some id.
  Proof. rewrite lb_perm. apply elem_of_map_to_list. Qed.
  Lemma lb_id id : id ∈ lb.*2 ↔ announces a id.
  Proof.
    split.
    - intros ([k' v] & -> & H%lb_elem)%elem_of_list_fmap. by exists k'.
    - intros [k H%lb_elem]. apply elem_of_list_fmap. by exists (k, id).
  Qed.
  Lemma lc_elem k c : (k, c) ∈ lc ↔ as_counts s2 !! k = Some c.
  Proof. rewrite lc_perm. apply elem_of_map_to_list. Qed.

  Lemma route_none k : route sch k = None ↔ mt k = None.
  Proof. unfold prefix_of_key. by rewrite fmap_None. Qed.

  Lemma s2_count x : default 0%Z (as_counts s2 !! x) = Z.of_nat (count_of mt (Block a (λ _, [])) x).
  Proof.
    unfold s2. rewrite deletes_count. unfold s1. rewrite updates_count. cbn [as_counts]. rewrite lookup_empty. cbn [default].
    unfold count_of, prefix_of_key. cbn [bk_args].
    assert (E : length (filter (λ y, fst <$> route sch y.1 = Some x) lu) = length (filter (λ k, fst <$> route sch k = Some x) lu.*1))
      by apply (filter_fst (λ k, fst <$> route sch k = Some x)).
    rewrite E.
    rewrite (size_filter _ (dom (ba_updates a)) lu.*1 lu_nodup lu_key).
    rewrite (size_filter _ (ba_deletes a) ld ld_nodup ld_elem). lia.
  Qed.
  Lemma s2_pos : counts_pos (as_counts s2).
  Proof. apply deletes_pos, updates_pos. intros q n. cbn. by rewrite lookup_empty. Qed.
  Lemma s2_counts x c : as_counts s2 !! x = Some c ↔
    c = Z.of_nat (count_of mt (Block a (λ _, [])) x) ∧ count_of mt (Block a (λ _, [])) x ≠ 0.
  Proof.
    pose proof (s2_count x) as H. split.
    - intros E. rewrite E in H. cbn in H. apply s2_pos in E. split; [done|lia].
    - intros [-> Hc]. destruct (as_counts s2 !! x) as [c|] eqn:E; cbn in H; [by rewrite H|lia].
  Qed.
  Lemma count_pos x : count_of mt (Block a (λ _, [])) x ≠ 0 ↔ ∃ k, mt k = Some x ∧ (k ∈ dom (ba_updates a) ∨ k ∈ ba_deletes a).
  Proof.
    unfold count_of. cbn [bk_args]. split.
    - intros Hc. destruct (decide (size (filter (λ k, mt k = Some x) (dom (ba_updates a))) = 0)) as [E|E].
      + assert (E2 : size (filter (λ k, mt k = Some x) (ba_deletes a)) ≠ 0) by lia.
        destruct (set_choose_or_empty (filter (λ k, mt k = Some x) (ba_deletes a))) as [[k Hk]|He].
        * apply elem_of_filter in Hk as [? ?]. exists k. auto.
        * apply size_empty_iff in He. lia.
      + destruct (set_choose_or_empty (filter (λ k, mt k = Some x) (dom (ba_updates a)))) as [[k Hk]|He].
        * apply elem_of_filter in Hk as [? ?]. exists k. auto.
        * apply size_empty_iff in He. lia.
    - intros (k & Hk & Hin) Hz. assert (H1 : size (filter (λ k, mt k = Some x) (dom (ba_updates a))) = 0) by lia.
      assert (H2 : size (filter (λ k, mt k = Some x) (ba_deletes a)) = 0) by lia.
      apply size_empty_iff in H1, H2. destruct Hin.
      + apply (not_elem_of_empty (C := gset bytes) k), H1. by apply elem_of_filter.
      + apply (not_elem_of_empty (C := gset bytes) k), H2. by apply elem_of_filter.
  Qed.
  Lemma s2_ups k r : as_ups s2 !! k = Some r ↔
    mt k = None ∧ ((k ∈ ba_deletes a ∧ r = BR [] 0 zero_hash true) ∨
                   (k ∉ ba_deletes a ∧ ∃ v, ba_updates a !! k = Some v ∧ r = BR v 0 zero_hash false)).
  Proof.
    unfold s2. rewrite deletes_ups. unfold s1. rewrite updates_ups by apply lu_nodup. cbn [as_ups]. rewrite lookup_empty.
    rewrite ld_elem, !route_none. setoid_rewrite lu_elem. split.
    - intros [(? & ? & ?)|[Hd [(v & ? & Hr & ?)|[_ Hbad]]]]; [by split; [|left]| |discriminate Hbad].
      apply route_none in Hr. split; [done|]. right. split; [by destruct Hd|by exists v].
    - intros [Hm [[? ?]|(? & v & ? & ?)]]; [by left|]. right. split; [by left|]. left. exists v. apply route_none in Hm. done.
  Qed.
  Lemma s2_inline k : is_Some (as_ups s2 !! k) ↔ inline mt a k.
  Proof.
    unfold inline. rewrite elem_of_dom. split.
    - intros [r [Hm [[? _]|(_ & v & ? & _)]]%s2_ups]; (split; [done|]); [by right|left; by exists v].
    - intros [Hm Hin]. destruct (decide (k ∈ ba_deletes a)).
      + eexists. apply s2_ups. split; [done|]. left. done.
      + destruct Hin as [[v Hv]|]; [|done]. eexists. apply s2_ups. split; [done|]. right. split; [done|]. by exists v.
  Qed.
  Lemma s2_tm t : on_topic (as_tm s2) t = omap (upd_msg sch h t) lu ++ omap (del_msg sch h t) ld.
  Proof.
    unfold s2. rewrite deletes_tm. unfold s1. rewrite updates_tm. cbn [as_tm].
    assert (E : on_topic {[p_default p := []]} t = []).
    { unfold on_topic, topics. unfold topic in *. destruct (decide (t = p_default p)) as [->|Hne]; [by rewrite lookup_singleton|by rewrite lookup_singleton_ne]. }
    by rewrite E.
  Qed.
  Lemma s2_own t m : m ∈ on_topic (as_tm s2) t ↔ own_message p a t m.
  Proof.
    rewrite s2_tm, elem_of_app, !elem_of_list_omap. split.
    - intros [([k v] & Hin%lu_elem & E)|(k & Hin%ld_elem & E)].
      + unfold upd_msg in E. cbn in E. destruct (route sch k) as [[x t']|] eqn:Er; [|done]. case_decide; [|done]. simplify_eq. by econstructor.
      + unfold del_msg in E. destruct (route sch k) as [[x t']|] eqn:Er; [|done]. case_decide; [|done]. simplify_eq. by econstructor.
    - intros [k v x Hk Hr|k x Hk Hr].
      + left. exists (k, v). split; [by apply lu_elem|]. unfold upd_msg. cbn. rewrite Hr. by rewrite decide_True.
      + right. exists k. split; [by apply ld_elem|]. unfold del_msg. rewrite Hr. by rewrite decide_True.
  Qed.
  Lemma s2_nodup t : NoDup (pm_key <$> on_topic (as_tm s2) t).
  Proof.
    rewrite s2_tm, fmap_app. apply NoDup_app. split; [|split].
    - assert (G : ∀ l, NoDup l.*1 → NoDup (pm_key <$> omap (upd_msg sch h t) l)).
      { intros l. induction l as [|[k v] l IH]; intros Hn; [constructor|]. cbn in Hn. apply NoDup_cons in Hn as [Hn0 Hn]. cbn [omap list_omap].
        unfold upd_msg at 1. cbn [fst]. destruct (route sch k) as [[x t']|]; [|by apply IH]. case_decide; [|by apply IH].
        cbn [fmap list_fmap pm_key]. apply NoDup_cons. split; [|by apply IH].
        intros (m & E & ([k' v'] & Hin & Em)%elem_of_list_omap)%elem_of_list_fmap. unfold upd_msg in Em. cbn [fst snd] in Em.
        destruct (route sch k') as [[x'' t'']|]; [|done]. case_decide; [|done]. simplify_eq. cbn [pm_key] in E.
        assert (k = k') as <-. { cbn [key_of get_key concat] in E. injection E as E. by rewrite !app_nil_r in E. }
        apply Hn0. apply elem_of_list_fmap. by exists (k, v'). }
      apply G, lu_nodup.
    - intros kk (m & -> & ([k v] & _ & Em)%elem_of_list_omap)%elem_of_list_fmap (m' & E & (k' & _ & Em')%elem_of_list_omap)%elem_of_list_fmap.
      unfold upd_msg in Em. unfold del_msg in Em'. cbn [fst snd] in Em.
      destruct (route sch k) as [[x t']|]; [|done]. case_decide; [|done].
      destruct (route sch k') as [[x' t'']|]; [|done]. case_decide; [|done]. simplify_eq.
    - assert (G : ∀ l, NoDup l → NoDup (pm_key <$> omap (del_msg sch h t) l)).
      { intros l. induction l as [|k l IH]; intros Hn; [constructor|]. apply NoDup_cons in Hn as [Hn0 Hn]. cbn [omap list_omap].
        unfold del_msg at 1. destruct (route sch k) as [[x t']|]; [|by apply IH]. case_decide; [|by apply IH].
        cbn [fmap list_fmap pm_key]. apply NoDup_cons. split; [|by apply IH].
        intros (m & E & (k' & Hin & Em)%elem_of_list_omap)%elem_of_list_fmap. unfold del_msg in Em.
        destruct (route sch k') as [[x'' t'']|]; [|done]. case_decide; [|done]. simplify_eq. cbn [pm_key] in E.
        assert (k = k') as <-. { cbn [key_of get_key concat] in E. injection E as E. by rewrite !app_nil_r in E. }
        done. }
      apply G, ld_nodup.
  Qed.

  Lemma add_unfold : add_block p o a =
    let '(p1, r) := add_batches p h lb (as_ups s2) in
    (p1, match r with
         | inl e => inl e
         | inr ups => match add_counts lc ups with
           | inl e => inl e
           | inr ups => inr (add_msg (as_tm s2) (p_default p1)
               (PMsg (key_of (KBatch h)) (encode_batch (Batch (ba_num a) (bigint_bytes (ba_weight a)) (ba_parent a) ups)
                  (ao_hdr o (map_to_list ups)))))
           end
         end).
  Proof. unfold add_block, lc, lb, s2, s1, ld, lu. done. Qed.

  Lemma add_ok p' tm : add_block p o a = (p', inr tm) →
    (¬ zero_sub a ∧ ¬ two_roles mt a) ∧
    (∃ x es, is_header mt (Block a (λ _, [])) x ∧ es ≡ₚ map_to_list (b_updates x) ∧
       ∀ t, on_topic tm t = on_topic (as_tm s2) t ++
              (if decide (t = p_default p) then [PMsg (key_of (KBatch h)) (encode_batch x es)] else [])) ∧
    p_schema p' = p_schema p ∧ p_default p' = p_default p ∧
    (∀ id, ¬ announces a id → p_pending p' !! id = p_pending p !! id) ∧
    (∀ id, announces a id → ∃ k, ba_batches a !! k = Some id ∧ p_pending p' !! id = Some (topic_of_key p k, h)).
  Proof.
    rewrite add_unfold. destruct (add_batches p h lb (as_ups s2)) as [p1 r] eqn:Eb. intros [= <- E].
    destruct r as [|ups]; [done|]. destruct (add_counts lc ups) as [|ups'] eqn:Ec; [done|]. injection E as <-.
    pose proof (add_batches_fixed _ _ _ _ _ _ Eb) as (F1 & F2 & F3).
    apply add_batches_ok in Eb as (B1 & B2 & B3); [|apply lb_nodup].
    apply add_counts_ok in Ec as (C1 & C2); [|apply lc_nodup].
    assert (Hnb : ∀ k, k ∈ dom (ba_batches a) → as_ups s2 !! k = None).
    { intros k [id Hk]%elem_of_dom. apply (B1 k id). by apply lb_elem. }
    assert (Hnc : ∀ k, (∃ x, mt x = Some k ∧ (x ∈ dom (ba_updates a) ∨ x ∈ ba_deletes a)) → ups !! k = None).
    { intros k Hk%count_pos. apply (C1 k (Z.of_nat (count_of mt (Block a (λ _, [])) k))). apply lc_elem, s2_counts. done. }
    split; [split|split; [|split; [done|split; [done|split]]]].
    - intros [k Hk]. by destruct (B1 k zero_hash) as [? _]; [apply lb_elem|].
    - intros [k [[Hb Hi]|[[Hb Hc]|[Hi Hc]]]].
      + apply s2_inline in Hi as [r Hr]. rewrite Hnb in Hr; done.
      + apply Hnc in Hc. apply elem_of_dom in Hb as [id Hb].
        assert (ups !! k = Some (BR [] 0 id false)); [|congruence]. apply B2. left. exists id. split; [by apply lb_elem|done].
      + apply Hnc in Hc. apply s2_inline in Hi as [r Hr].
        assert (ups !! k = Some r); [|congruence]. apply B2. by right.
    - eexists (Batch (ba_num a) (bigint_bytes (ba_weight a)) (ba_parent a) ups'), _. split; [|split; [apply Ho|]].
      + split; [done|]. split; [done|]. split; [done|]. cbn [b_updates]. intros k r. rewrite C2, B2. setoid_rewrite lc_elem. setoid_rewrite s2_counts.
        setoid_rewrite lb_elem. rewrite s2_ups. split.
        * intros [(c & [-> Hc] & ->)|[(id & Hid & ->)|[Hm [[Hd ->]|(Hd & v & Hv & ->)]]]]; by constructor.
        * destruct 1 as [k v H1 H2 H3|k H1 H2|k id H1|q H1].
          -- right. right. split; [done|]. right. split; [done|]. by exists v.
          -- right. right. split; [done|]. left. done.
          -- right. left. by exists id.
          -- left. eexists. done.
      + intros t. rewrite on_topic_add, F2. done.
    - intros id Hid. apply F3. by rewrite lb_id.
    - intros id Hid. destruct (B3 id) as (k & Hk & E); [by apply lb_id|]. exists k. split; [by apply lb_elem|].
      rewrite E. unfold sub_topic, topic_of_key. by destruct (route sch k) as [[]|].
  Qed.
  Lemma add_err p' e : add_block p o a = (p', inl e) →
    match e with AInvalidBatch => zero_sub a | APrefixConflict => two_roles mt a end ∧
    p_schema p' = p_schema p ∧ p_default p' = p_default p ∧
    (∀ id, ¬ announces a id → p_pending p' !! id = p_pending p !! id).
  Proof.
    rewrite add_unfold. destruct (add_batches p h lb (as_ups s2)) as [p1 r] eqn:Eb. intros [= <- E].
    pose proof (add_batches_fixed _ _ _ _ _ _ Eb) as (F1 & F2 & F3). split; [|split; [done|split; [done|]]].
    2: { intros id Hid. apply F3. by rewrite lb_id. }
    destruct r as [e'|ups].
    - simplify_eq. apply add_batches_err in Eb; [|apply lb_nodup]. destruct e.
      + destruct Eb as [k Hk%lb_elem]. by exists k.
      + destruct Eb as (k & id & Hk%lb_elem & Hi%s2_inline). exists k. left. split; [|done]. apply elem_of_dom. by exists id.
    - destruct (add_counts lc ups) as [e'|] eqn:Ec; [|done]. simplify_eq.
      apply add_batches_ok in Eb as (B1 & B2 & B3); [|apply lb_nodup].
      apply add_counts_err in Ec as (-> & k & c & Hc%lc_elem & [r Hr]); [|apply lc_nodup].
      apply s2_counts in Hc as [_ Hc%count_pos]. exists k. right. apply B2 in Hr as [(id & Hid%lb_elem & _)|Hr].
      + left. split; [|done]. apply elem_of_dom. by exists id.
      + right. split; [|done]. apply s2_inline. by exists r.
  Qed.
End add.
