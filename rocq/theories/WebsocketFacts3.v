(** Consequences of the invariant; JSON strings. *)
From Verif Require Import Base Types Producer Websocket SpecWebsocket WebsocketFacts WebsocketFacts2.

Lemma outs_filter st h : outs st h = filter (hash_is h) (blocks_out st).
Proof.
  unfold outs. induction (blocks_out st) as [|pb l IH]; [done|].
  rewrite !filter_cons, IH. unfold hash_is. by destruct (decide (pb_hash pb = h)).
Qed.

Lemma connect_blocks st : blocks_out (wsc_connect st) = blocks_out st.
Proof. done. Qed.

Lemma assembly st0 ds :
  clean (items ds) → orders_ok ds →
  ∃ new, blocks_out (wsc_run (wsc_connect st0) ds) = blocks_out st0 ++ new ∧
    (∀ b, all_arrived (items ds) b →
       ∃ pb, filter (λ pb, pb_hash pb = tb_hash b) new = [pb] ∧ assembled (items ds) b pb) ∧
    (∀ pb, pb ∈ new → ∃ b, all_arrived (items ds) b ∧ pb_hash pb = tb_hash b).
Proof.
  intros C Ho. destruct (winv_all (wsc_connect st0) ds) as (new & [H1 H2 H3 H4 H5 H6]); [done|done|exact C|exact Ho|done|].
  exists new. split; [exact H1|]. split.
  - intros b Hb. destruct (H5 b (proj1 Hb)) as [(w & pb & W1 & W2 & W3 & W4 & W5 & W6)|(F1 & F2 & F3 & F4)].
    + exfalso. apply set_choose_L in W1 as (id & Hid). apply W5 in Hid as [Ha Hn].
      destruct (proj2 Hb id Ha) as (s & Hs & E). by apply (Hn s Hs).
    + exact F4.
  - intros pb Hpb. destruct (classic_batch (items ds) (pb_hash pb)) as [(b & Hb & E)|Hno].
    + destruct (H5 b Hb) as [(w & pb' & W1 & W2 & W3 & W4 & W5 & W6)|(F1 & F2 & F3 & F4)].
      * exfalso. rewrite E in W6. assert (X : pb ∈ filter (hash_is (pb_hash pb)) new)
          by (apply elem_of_list_filter; by split). rewrite W6 in X. by apply elem_of_nil in X.
      * exists b. by split.
    + exfalso. destruct (H6 _ Hno) as (_ & _ & X).
      assert (Y : pb ∈ filter (hash_is (pb_hash pb)) new) by (apply elem_of_list_filter; by split).
      rewrite X in Y. by apply elem_of_nil in Y.
Qed.

Lemma step_out o st i :
  blocks_out (wsc_step o st i) = blocks_out st ∨ ∃ pb, blocks_out (wsc_step o st i) = blocks_out st ++ [pb].
Proof.
  destruct i as [|n h|b|s|]; cbn [wsc_step].
  - left. destruct (c_ready st); [done|]. unfold blocks_out. cbn. rewrite omap_app. cbn. by rewrite app_nil_r.
  - left. unfold blocks_out. cbn. rewrite omap_app. cbn. by rewrite app_nil_r.
  - destruct (foldl announce _ _) as [[pb subs] wait]. case_decide.
    + right. exists pb. unfold blocks_out. cbn. by rewrite omap_app.
    + by left.
  - destruct (c_batches st !! ts_hash s) as [pb|]; [|by left]. case_decide.
    + right. exists (merge_sub pb s). unfold blocks_out. cbn. by rewrite omap_app.
    + by left.
  - by left.
Qed.

Lemma assembly_last st0 ds d b :
  clean (items (ds ++ [d])) → orders_ok (ds ++ [d]) →
  ¬ all_arrived (items ds) b → all_arrived (items (ds ++ [d])) b →
  ∃ pb, blocks_out (wsc_run (wsc_connect st0) (ds ++ [d])) =
        blocks_out (wsc_run (wsc_connect st0) ds) ++ [pb] ∧ assembled (items (ds ++ [d])) b pb.
Proof.
  intros C Ho Hn Hy.
  assert (C' : clean (items ds)). { unfold items in *. rewrite fmap_app in C. by apply clean_prefix in C. }
  assert (Ho' : orders_ok ds) by (by apply Forall_app in Ho as [Ho _]).
  destruct (assembly st0 ds C' Ho') as (n1 & E1 & _ & O1).
  destruct (assembly st0 (ds ++ [d]) C Ho) as (n2 & E2 & A2 & _).
  destruct (A2 b Hy) as (pb & F & A). exists pb. split; [|exact A].
  assert (F1 : filter (λ pb, pb_hash pb = tb_hash b) n1 = []).
  { destruct (filter (λ pb, pb_hash pb = tb_hash b) n1) as [|x t] eqn:Ex; [done|]. exfalso.
    assert (X : x ∈ filter (λ pb, pb_hash pb = tb_hash b) n1) by (rewrite Ex; apply elem_of_list_here).
    apply elem_of_list_filter in X as [Xh Xn]. destruct (O1 x Xn) as (b' & Hb' & E).
    apply Hn. assert (b' = b) as <-; [|exact Hb'].
    apply (clean_batch_eq (items (ds ++ [d]))); [exact C| |exact (proj1 Hy)|congruence].
    unfold items. rewrite fmap_app. apply elem_of_app. left. exact (proj1 Hb'). }
  unfold wsc_run in *. rewrite foldl_app in *. cbn [foldl] in *.
  destruct (step_out (fst d) (foldl (λ st d, wsc_step (fst d) st (snd d)) (wsc_connect st0) ds) (snd d)) as [X|(pb' & X)].
  - exfalso. rewrite X, E1 in E2. apply app_inv_head in E2 as ->. rewrite F1 in F. discriminate F.
  - rewrite X. f_equal. f_equal. rewrite X, E1, <- app_assoc in E2. apply app_inv_head in E2 as <-.
    rewrite filter_app, F1, filter_cons, filter_nil in F.
    case_decide; [|discriminate F]. cbn in F. by injection F as ->.
Qed.

(** Sub-batches that give the same key the same value. *)
Lemma assembled_exact l b pb :
  assembled l b pb →
  (∀ s1 s2 k v1 v2, part_of l b s1 → part_of l b s2 →
     ts_values s1 !! k = Some v1 → ts_values s2 !! k = Some v2 → v1 = v2) →
  ∀ k v, pb_values pb !! k = Some v ↔
    (∃ s, part_of l b s ∧ ts_values s !! k = Some v) ∨
    (tb_values b !! k = Some v ∧ ∀ s, part_of l b s → ts_values s !! k = None).
Proof.
  intros A Hag k v. split; [apply (as_values _ _ _ A)|]. intros H.
  assert (X : is_Some (pb_values pb !! k)).
  { apply (as_keys _ _ _ A). destruct H as [(s & Hs & Hk)|[Hk _]].
    - right. exists s. split; [exact Hs|by exists v].
    - left. by exists v. }
  destruct X as [v' Hv']. rewrite Hv'. f_equal.
  destruct (as_values _ _ _ A k v' Hv') as [(s' & Hs' & Hk')|[Hk' Hn']];
  destruct H as [(s & Hs & Hk)|[Hk Hn]].
  - by eapply (Hag s' s).
  - rewrite (Hn s' Hs') in Hk'. discriminate Hk'.
  - rewrite (Hn' s Hs) in Hk. discriminate Hk.
  - congruence.
Qed.

(** ** JSON strings *)
Lemma in_range_between lo hi b : in_range lo hi b = true ↔ between lo hi b.
Proof. unfold in_range, between. rewrite andb_true_iff, N.leb_le, N.leb_le. done. Qed.
Lemma in_range_not lo hi b : ¬ between lo hi b → in_range lo hi b = false.
Proof. intros H. destruct (in_range lo hi b) eqn:E; [|done]. by apply in_range_between in E. Qed.
Lemma in_range_disj lo hi lo' hi' b :
  between lo hi b → (hi < lo' ∨ hi' < lo)%N → in_range lo' hi' b = false.
Proof. unfold between. intros H D. apply in_range_not. unfold between. lia. Qed.

Lemma json_string_id l : utf8 l → json_string l = l.
Proof.
  induction 1 as [|b0 l H0 _ IH|b0 b1 l H0 H1 _ IH| | | | | | |].
  - done.
  - cbn [json_string]. unfold utf8_1. by rewrite (proj2 (in_range_between 0 127 b0) H0), IH.
  - cbn [json_string]. unfold utf8_1, utf8_2, cont.
    rewrite (in_range_disj _ _ 0 127 _ H0) by lia.
    rewrite (proj2 (in_range_between _ _ _) H0), (proj2 (in_range_between _ _ _) H1). cbn. by rewrite IH.
  - cbn [json_string]. unfold utf8_1, utf8_2, utf8_3, cont.
    rewrite (in_range_disj _ _ 0 127 _ H) by lia. rewrite (in_range_disj _ _ 194 223 _ H) by lia. cbn [andb].
    rewrite (proj2 (in_range_between _ _ _) H1), (proj2 (in_range_between _ _ _) H), (proj2 (in_range_between _ _ _) H0).
    cbn. by rewrite IHutf8.
  - cbn [json_string]. unfold utf8_1, utf8_2, utf8_3, cont.
    rewrite (in_range_disj _ _ 0 127 _ H) by lia. rewrite (in_range_disj _ _ 194 223 _ H) by lia. cbn [andb].
    rewrite (proj2 (in_range_between _ _ _) H1), (proj2 (in_range_between _ _ _) H), (proj2 (in_range_between _ _ _) H0).
    cbn [andb]. rewrite orb_true_r. cbn. by rewrite IHutf8.
  - cbn [json_string]. unfold utf8_1, utf8_2, utf8_3, cont.
    rewrite (in_range_disj _ _ 0 127 _ H) by lia. rewrite (in_range_disj _ _ 194 223 _ H) by lia. cbn [andb].
    rewrite (proj2 (in_range_between _ _ _) H1), (proj2 (in_range_between _ _ _) H), (proj2 (in_range_between _ _ _) H0).
    cbn [andb]. rewrite orb_true_r. cbn. by rewrite IHutf8.
  - cbn [json_string]. unfold utf8_1, utf8_2, utf8_3, cont.
    rewrite (in_range_disj _ _ 0 127 _ H) by lia. rewrite (in_range_disj _ _ 194 223 _ H) by lia. cbn [andb].
    rewrite (proj2 (in_range_between _ _ _) H1), (proj2 (in_range_between _ _ _) H), (proj2 (in_range_between _ _ _) H0).
    cbn [andb]. rewrite orb_true_r. cbn. by rewrite IHutf8.
  - cbn [json_string]. unfold utf8_1, utf8_2, utf8_3, utf8_4, cont.
    rewrite (in_range_disj _ _ 0 127 _ H) by lia. rewrite (in_range_disj _ _ 194 223 _ H) by lia. cbn [andb].
    rewrite (in_range_disj _ _ 224 224 _ H) by lia. rewrite (in_range_disj _ _ 225 236 _ H) by lia.
    rewrite (in_range_disj _ _ 237 237 _ H) by lia. rewrite (in_range_disj _ _ 238 239 _ H) by lia.
    cbn [andb orb]. rewrite andb_false_r.
    rewrite (proj2 (in_range_between _ _ _) H1), (proj2 (in_range_between _ _ _) H2),
      (proj2 (in_range_between _ _ _) H), (proj2 (in_range_between _ _ _) H0).
    cbn. by rewrite IHutf8.
  - cbn [json_string]. unfold utf8_1, utf8_2, utf8_3, utf8_4, cont.
    rewrite (in_range_disj _ _ 0 127 _ H) by lia. rewrite (in_range_disj _ _ 194 223 _ H) by lia. cbn [andb].
    rewrite (in_range_disj _ _ 224 224 _ H) by lia. rewrite (in_range_disj _ _ 225 236 _ H) by lia.
    rewrite (in_range_disj _ _ 237 237 _ H) by lia. rewrite (in_range_disj _ _ 238 239 _ H) by lia.
    cbn [andb orb]. rewrite andb_false_r.
    rewrite (proj2 (in_range_between _ _ _) H1), (proj2 (in_range_between _ _ _) H2),
      (proj2 (in_range_between _ _ _) H), (proj2 (in_range_between _ _ _) H0).
    cbn [andb]. rewrite orb_true_r. cbn. by rewrite IHutf8.
  - cbn [json_string]. unfold utf8_1, utf8_2, utf8_3, utf8_4, cont.
    rewrite (in_range_disj _ _ 0 127 _ H) by lia. rewrite (in_range_disj _ _ 194 223 _ H) by lia. cbn [andb].
    rewrite (in_range_disj _ _ 224 224 _ H) by lia. rewrite (in_range_disj _ _ 225 236 _ H) by lia.
    rewrite (in_range_disj _ _ 237 237 _ H) by lia. rewrite (in_range_disj _ _ 238 239 _ H) by lia.
    cbn [andb orb]. rewrite andb_false_r.
    rewrite (proj2 (in_range_between _ _ _) H1), (proj2 (in_range_between _ _ _) H2),
      (proj2 (in_range_between _ _ _) H), (proj2 (in_range_between _ _ _) H0).
    cbn [andb]. rewrite orb_true_r. cbn. by rewrite IHutf8.
Qed.

Lemma utf8_replacement l : utf8 l → utf8 (replacement ++ l).
Proof. intros H. apply utf8_ee_ef; [| | |exact H]; unfold between; cbn; lia. Qed.

Ltac br := match goal with
  | H : _ && _ = true |- _ => apply andb_true_iff in H as [? ?]
  | H : _ || _ = true |- _ => apply orb_true_iff in H as [?|?]
  | H : in_range _ _ _ = true |- _ => apply in_range_between in H
  end.

Lemma json_string_utf8 l : utf8 (json_string l).
Proof.
  assert (G : ∀ n l, length l ≤ n → utf8 (json_string l)).
  { induction n as [|n IH]; intros [|b0 l1] Hl; cbn [length] in Hl; [constructor|lia|constructor|].
    cbn [json_string]. destruct (utf8_1 b0) eqn:E1.
    { apply utf8_ascii; [by apply in_range_between|apply IH; lia]. }
    destruct l1 as [|b1 l2]; [apply utf8_replacement, IH; cbn [length] in *; lia|].
    destruct (utf8_2 b0 b1) eqn:E2.
    { unfold utf8_2, cont in E2. repeat br. apply utf8_c2_df; [assumption|assumption|apply IH; cbn [length] in *; lia]. }
    destruct l2 as [|b2 l3]; [apply utf8_replacement, IH; cbn [length] in *; lia|].
    destruct (utf8_3 b0 b1 b2) eqn:E3.
    { unfold utf8_3, cont in E3. repeat br;
      [apply utf8_e0|apply utf8_e1_ec|apply utf8_ed|apply utf8_ee_ef];
      first [assumption|apply IH; cbn [length] in *; lia]. }
    destruct l3 as [|b3 l4]; [apply utf8_replacement, IH; cbn [length] in *; lia|].
    destruct (utf8_4 b0 b1 b2 b3) eqn:E4.
    { unfold utf8_4, cont in E4. repeat br;
      [apply utf8_f0|apply utf8_f1_f3|apply utf8_f4];
      first [assumption|apply IH; cbn [length] in *; lia]. }
    apply utf8_replacement, IH. cbn [length] in *. lia. }
  by apply (G (length l)).
Qed.

Lemma json_string_exact l : json_string l = l ↔ utf8 l.
Proof.
  split; [|apply json_string_id]. intros E. rewrite <- E. apply json_string_utf8.
Qed.

Lemma json_map_id {V} (m : gmap bytes V) : utf8_keys m → json_map m = m.
Proof.
  intros Hk. unfold json_map.
  assert (G : ∀ l (acc : gmap bytes V), (∀ k v, (k, v) ∈ l → utf8 k) → NoDup (fst <$> l) →
    (∀ k, k ∈ fst <$> l → acc !! k = None) →
    foldl (λ acc kv, <[json_string (fst kv) := snd kv]> acc) acc l = list_to_map l ∪ acc).
  { induction l as [|[k v] l IH]; intros acc Hu Hn Hf; cbn [foldl].
    - cbn. by rewrite (left_id_L ∅ (∪)).
    - cbn in Hn. apply NoDup_cons in Hn as [Hnk Hn].
      assert (E : json_string k = k). { apply json_string_id. apply (Hu k v). apply elem_of_list_here. }
      cbn [fst snd]. rewrite E. rewrite IH.
      + cbn [list_to_map foldr]. rewrite <- insert_union_l, insert_union_r; [done|].
        by apply not_elem_of_list_to_map_1.
      + intros k' v' H. apply (Hu k' v'). by apply elem_of_list_further.
      + exact Hn.
      + intros k' Hk'. rewrite lookup_insert_ne; [|intros ->; done].
        apply Hf. cbn. by apply elem_of_list_further. }
  rewrite G.
  - by rewrite list_to_map_to_list, (right_id_L ∅ (∪)).
  - intros k v H. apply Hk. exists v. by apply elem_of_map_to_list.
  - apply NoDup_fst_map_to_list.
  - intros k _. apply lookup_empty.
Qed.

Lemma json_strings_id l : Forall utf8 l → json_string <$> l = l.
Proof. induction 1 as [|k l Hk _ IH]; [done|]. cbn. by rewrite (json_string_id k Hk), IH. Qed.

Lemma json_item_id i : utf8_item i → json_item i = i.
Proof.
  destruct i as [|n h|[num w h p v d bs]|[h id v d]|]; cbn; try done.
  - intros (H1 & H2 & H3). by rewrite (json_map_id v H1), (json_map_id bs H2), (json_strings_id d H3).
  - intros (H1 & H2). by rewrite (json_map_id v H1), (json_strings_id d H2).
Qed.
Lemma json_items_id l : Forall utf8_item l → json_item <$> l = l.
Proof. induction 1 as [|i l Hi _ IH]; [done|]. cbn. by rewrite (json_item_id i Hi), IH. Qed.
