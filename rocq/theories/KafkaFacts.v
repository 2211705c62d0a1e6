(** Resumption tokens, start offsets and heartbeats. *)
From Verif Require Import Base Lru LruFacts Types Avro AvroFacts Wire SpecWire GoText TextFacts Producer SpecBlock SpecProducer Consumer Kafka SpecKafka.

Lemma part_split e : legal_source e.1 → in_int64 e.2 → semicolon ∉ token_part e ∧
  split_byte equals_sign (token_part e) = [e.1; int_text e.2].
Proof.
  intros [Hs He] Hi. destruct (int_text_seps e.2) as [H1 H2]. unfold token_part. split.
  - rewrite not_elem_of_app, not_elem_of_cons. done.
  - rewrite split_join_cons by done. by rewrite split_no_sep.
Qed.
Lemma parse_parts_ok l acc : Forall (λ e : bytes * Z, legal_source e.1 ∧ in_int64 e.2) l →
  parse_parts (map token_part l) acc = Some (foldl (λ m e, <[e.1 := e.2]> m) acc l).
Proof.
  intros H. revert acc. induction H as [|e l [He Hi] Hl IH]; intros acc; [done|]. cbn [map parse_parts].
  rewrite (proj2 (part_split _ He Hi)), atoi_int_text by done. apply IH.
Qed.
Lemma insert_all_lookup (l : list (bytes * Z)) (acc : gmap bytes Z) : NoDup l.*1 → ∀ k,
  foldl (λ m e, <[e.1 := e.2]> m) acc l !! k = match (list_to_map l : gmap bytes Z) !! k with Some v => Some v | None => acc !! k end.
Proof.
  revert acc. induction l as [|[k0 v0] l IH]; intros acc Hnd k; [done|]. cbn [foldl list_to_map foldr fst snd fmap list_fmap] in *.
  apply NoDup_cons in Hnd as [Hk Hnd]. rewrite IH by done. cbn [list_to_map foldr curry].
  destruct (decide (k = k0)) as [->|Hne].
  - rewrite not_elem_of_list_to_map_1 by done. unfold uncurry. cbn. by rewrite !lookup_insert.
  - unfold uncurry. cbn. rewrite lookup_insert_ne by done. rewrite lookup_insert_ne by done. done.
Qed.
Lemma token_roundtrip (res def : gmap bytes Z) es ds : es ≡ₚ map_to_list res → ds ≡ₚ map_to_list def →
  (∀ k v, res !! k = Some v ∨ def !! k = Some v → legal_source k ∧ in_int64 v) →
  parse_token (resumption_text res es ds) = Some (res ∪ def).
Proof.
  intros Hes Hds Hok. unfold parse_token, resumption_text.
  set (l := es ++ filter (λ e : bytes * Z, res !! e.1 = None) ds).
  assert (Hl : Forall (λ e : bytes * Z, legal_source e.1 ∧ in_int64 e.2) l).
  { apply Forall_forall. intros [k v] [H|H]%elem_of_app.
    - rewrite Hes in H. apply elem_of_map_to_list in H. apply Hok. by left.
    - apply elem_of_list_filter in H as [_ H]. rewrite Hds in H. apply elem_of_map_to_list in H. apply Hok. by right. }
  assert (Hnd : NoDup l.*1).
  { unfold l. rewrite fmap_app. apply NoDup_app. split; [|split].
    - rewrite Hes. apply NoDup_fst_map_to_list.
    - intros k [[k1 v] [-> H]]%elem_of_list_fmap [[k2 w] [E H2]]%elem_of_list_fmap. cbn in E. subst k2.
      rewrite Hes in H. apply elem_of_map_to_list in H. apply elem_of_list_filter in H2 as [H2 _]. cbn in H2. congruence.
    - assert (NoDup ds.*1) as Hd by (rewrite Hds; apply NoDup_fst_map_to_list). clear -Hd.
      induction ds as [|[k v] ds IH]; [constructor|]. cbn in Hd. apply NoDup_cons in Hd as [H1 H2]. rewrite filter_cons.
      destruct (decide _); [|by apply IH]. cbn. constructor; [|by apply IH].
      intros [[k2 v2] [E H]]%elem_of_list_fmap. apply elem_of_list_filter in H as [_ H]. apply H1. apply elem_of_list_fmap. by exists (k2, v2). }
  assert (Hm : foldl (λ m e, <[e.1 := e.2]> m) ∅ l = res ∪ def).
  { apply map_eq. intros k. rewrite insert_all_lookup by done. rewrite lookup_empty.
    apply option_eq. intros v. rewrite lookup_union_Some_raw.
    transitivity ((list_to_map l : gmap bytes Z) !! k = Some v); [by destruct (list_to_map l !! k)|].
    rewrite <- elem_of_list_to_map by done. unfold l. rewrite elem_of_app, elem_of_list_filter, Hes, Hds, !elem_of_map_to_list. done. }
  destruct l as [|e l'] eqn:El.
  - cbn [map join_byte split_byte parse_parts]. cbn in Hm. by rewrite Hm.
  - rewrite split_of_join; [|done|].
    + rewrite parse_parts_ok by done. by rewrite Hm.
    + apply Forall_map. eapply Forall_impl; [exact Hl|]. intros e' [H1 H2]. by apply part_split.
Qed.

(** Start offsets *)
Lemma consume_range p q : partition_ok p → (pt_oldest p ≤ q ≤ pt_newest p)%Z → consume_partition p q = Some q.
Proof.
  unfold partition_ok. intros Hp Hq. unfold consume_partition, OffsetNewest, OffsetOldest.
  rewrite !bool_decide_eq_false_2 by lia. by rewrite bool_decide_eq_true_2.
Qed.
Lemma consume_some p q s : partition_ok p → consume_partition p q = Some s →
  (pt_oldest p ≤ s ≤ pt_newest p)%Z ∧ (s = q ∨ q = OffsetNewest ∧ s = pt_newest p ∨ q = OffsetOldest ∧ s = pt_oldest p).
Proof.
  unfold partition_ok, consume_partition. intros Hp. repeat case_bool_decide; intros [= <-]; (split; [lia|naive_solver]).
Qed.
Lemma start_entry o rb start get p : partition_ok p → (0 ≤ rb ≤ o)%Z →
  start_partition (Some o) rb start get p =
    if bool_decide (pt_oldest p ≤ o - rb ≤ pt_newest p)%Z then Some (o - rb)%Z
    else if bool_decide (pt_oldest p ≤ o ≤ pt_newest p)%Z then Some o else None.
Proof.
  unfold partition_ok. intros Hp Hr. unfold start_partition. rewrite (bool_decide_eq_false_2 (o < rb)%Z) by lia.
  unfold consume_partition, OffsetNewest, OffsetOldest. rewrite !(bool_decide_eq_false_2 (_ = _)) by lia.
  by repeat case_bool_decide.
Qed.
Lemma start_never_skips o rb start get p s : partition_ok p → (0 ≤ rb)%Z → (0 ≤ o)%Z → (rb ≤ o)%Z ∨ start ≠ zero_hash →
  start_partition (Some o) rb start get p = Some s →
  (∀ q, held p q → (o ≤ q)%Z → (s ≤ q)%Z) ∧ ((pt_oldest p ≤ o - rb)%Z → (o ≤ pt_newest p)%Z → s = (o - rb)%Z).
Proof.
  unfold partition_ok, held. intros Hp Hrb Ho Hc. destruct (decide (rb ≤ o)%Z) as [Hle|Hgt].
  - rewrite start_entry by (unfold partition_ok; lia). repeat case_bool_decide; intros [= <-]; split; intros; lia.
  - destruct Hc as [?|Hs]; [lia|]. unfold start_partition. rewrite (bool_decide_eq_true_2 (o < rb)%Z) by lia.
    rewrite (bool_decide_eq_false_2 (start = zero_hash)) by done. cbn. intros [= <-]. split; intros; lia.
Qed.
Lemma start_no_entry rb start get p : partition_ok p → start_partition None rb start get p =
  Some (if bool_decide (start = zero_hash) && bool_decide (0 ≤ rb)%Z
        then if get && bool_decide (pt_oldest p < pt_newest p)%Z then (pt_newest p - 1)%Z else pt_newest p
        else pt_oldest p).
Proof.
  unfold partition_ok. intros Hp. unfold start_partition. destruct (bool_decide (start = zero_hash) && bool_decide (0 ≤ rb)%Z) eqn:E.
  - destruct get; cbn [andb].
    + unfold consume_partition, OffsetNewest, OffsetOldest. repeat case_bool_decide; try done; try (f_equal; lia); lia.
    + done.
  - done.
Qed.

(** Heartbeats *)
Lemma count_distinct (pt : gmap hash Z) now d : ∃ ids : list hash, NoDup ids ∧ tracker_count pt now d = length ids ∧
  ∀ id, id ∈ ids ↔ ∃ t, pt !! id = Some t ∧ (now - t < d)%Z.
Proof.
  unfold tracker_count, tracker in *.   exists (filter (λ e : hash * Z, (now - e.2 < d)%Z) (map_to_list pt)).*1. split; [|split].
  - pose proof (NoDup_fst_map_to_list pt) as Hd. revert Hd. generalize (map_to_list pt) as ds. intros ds Hd. induction ds as [|[k v] ds IH]; [constructor|].
    cbn in Hd. apply NoDup_cons in Hd as [H1 H2]. rewrite filter_cons. destruct (decide _); [|by apply IH]. cbn. constructor; [|by apply IH].
    intros [[k2 v2] [E H]]%elem_of_list_fmap. apply elem_of_list_filter in H as [_ H]. apply H1. apply elem_of_list_fmap. by exists (k2, v2).
  - by rewrite fmap_length.
  - intros id. rewrite elem_of_list_fmap. split.
    + intros [[k v] [-> H]]. apply elem_of_list_filter in H as [H1 H2]. apply elem_of_map_to_list in H2. eauto.
    + intros (t & H1 & H2). exists (id, t). split; [done|]. apply elem_of_list_filter. split; [done|]. by apply elem_of_map_to_list.
Qed.
Lemma latest_snoc_beat own l now key id t : beat own key id → latest_beat own (l ++ [(now, key)]) id t ↔ t = now.
Proof.
  intros Hb. split.
  - intros (pre & key' & post & E & Hb' & Hpost). destruct post as [|x post _] using rev_ind.
    + apply app_inj_tail in E as [_ E]. by injection E.
    + rewrite app_comm_cons, app_assoc in E. apply app_inj_tail in E as [_ <-]. exfalso. apply (Hpost (now, key)); [|done].
      apply elem_of_app. right. left.
  - intros ->. exists l, key, []. split; [done|]. split; [done|]. intros x Hx. by apply elem_of_nil in Hx.
Qed.
Lemma latest_snoc_other own l now key id t : ¬ beat own key id → latest_beat own (l ++ [(now, key)]) id t ↔ latest_beat own l id t.
Proof.
  intros Hb. split.
  - intros (pre & key' & post & E & Hb' & Hpost). destruct post as [|x post _] using rev_ind.
    + apply app_inj_tail in E as [_ E]. by injection E as -> ->.
    + rewrite app_comm_cons, app_assoc in E. apply app_inj_tail in E as [-> <-]. exists pre, key', post. split; [done|]. split; [done|].
      intros x Hx. apply Hpost. apply elem_of_app. by left.
  - intros (pre & key' & post & -> & Hb' & Hpost). exists pre, key', (post ++ [(now, key)]). rewrite <- app_assoc. split; [done|].
    split; [done|]. intros x [Hx|Hx]%elem_of_app; [by apply Hpost|]. apply elem_of_list_singleton in Hx as ->. done.
Qed.
Lemma latest_nil own id t : ¬ latest_beat own [] id t.
Proof. intros ([|] & ? & ? & ? & _); done. Qed.
(** One message read *)
Definition tracks (own : bytes → Prop) (feed : list (Z * bytes)) (pt : tracker) : Prop :=
  ∀ id t, pt !! id = Some t ↔ latest_beat own feed id t.
Lemma tracks_beat own feed pt now k : ¬ own k → tracks own feed pt →
  tracks own (feed ++ [(now, PingType :: k)]) (tracker_update pt (bytes_hash k) now).
Proof.
  intros Hk H id t. unfold tracker_update, tracker in *. destruct (decide (id = bytes_hash k)) as [->|Hne].
  - rewrite latest_snoc_beat by (by exists k). rewrite lookup_insert. naive_solver.
  - rewrite latest_snoc_other. 2:{ intros (k' & [= <-] & ? & _). done. } rewrite lookup_insert_ne by done. apply H.
Qed.
Lemma tracks_other (own : bytes → Prop) feed pt now key : (∀ k, key = PingType :: k → own k) → tracks own feed pt → tracks own (feed ++ [(now, key)]) pt.
Proof. intros Hk H id t. rewrite latest_snoc_other; [apply H|]. intros (k' & E & _ & Hn). by apply Hn, Hk. Qed.
Lemma kp_emit_pt kp dp e tm : kp_pt (kp_emit kp dp e tm).1 = kp_pt kp.
Proof. unfold kp_emit. by destruct (emit_bundle _ _). Qed.
Lemma kp_tracks self dp evs kp : kp_run self (kp_new dp) evs = Ok kp → tracks (λ k, k = self) (feed_of evs) (kp_pt kp).
Proof.
  revert kp. induction evs as [|ev evs IH] using rev_ind; intros kp H.
  - injection H as <-. intros id t. cbn [kp_new kp_pt]. unfold tracker. rewrite lookup_empty. split; [done|]. by intros ?%latest_nil.
  - unfold kp_run in H. rewrite foldM_app in H. destruct (foldM _ evs _) as [kp1| |] eqn:E1; try discriminate H. specialize (IH _ E1).
    cbn [mbind outcome_bind foldM] in H. unfold feed_of. rewrite omap_app. fold (feed_of evs). destruct ev as [now key|o ids e a|ord e id ds us|].
    + cbn [omap list_omap]. cbn [kp_step] in H. unfold kp_feed in H. destruct key as [|t r].
      { injection H as <-. by apply tracks_other. }
      destruct (bool_decide (t = BatchType)) eqn:B1.
      { apply bool_decide_eq_true_1 in B1 as ->. case_bool_decide; [done|]. injection H as <-. cbn [kp_pt]. by apply tracks_other. }
      destruct (bool_decide (t = PingType)) eqn:B2.
      * apply bool_decide_eq_true_1 in B2 as ->. case_bool_decide; injection H as <-; cbn [kp_pt].
        -- apply tracks_other; [|done]. intros k [= <-]. done.
        -- by apply tracks_beat.
      * apply bool_decide_eq_false_1 in B2. injection H as <-. apply tracks_other; [|done]. intros k [= E]. done.
    + cbn [omap list_omap]. rewrite app_nil_r. injection H as <-. unfold kp_add.
      destruct (lru_contains _ _); [done|]. destruct (add_block _ _ _) as [dp1 [er|tm]]; [done|]. by rewrite kp_emit_pt.
    + cbn [omap list_omap]. rewrite app_nil_r. injection H as <-. unfold kp_send.
      destruct (send_batch _ _ _ _ _) as [dp1 [tm|]]; [by rewrite kp_emit_pt|done].
    + cbn [omap list_omap]. rewrite app_nil_r. injection H as <-. done.
Qed.
Lemma kc_tracks c re topic ms st st' : kc_pt st = ∅ → kc_run c re topic ms st = Ok st' →
  tracks (λ _, False) (map (λ x, (x.1.1, m_key x.1.2)) ms) (kc_pt st').
Proof.
  intros H0. revert st'. induction ms as [|[[now m] e] ms IH] using rev_ind; intros st' H.
  - injection H as <-. intros id t. rewrite H0. unfold tracker. rewrite lookup_empty. split; [done|]. by intros ?%latest_nil.
  - unfold kc_run in H. rewrite foldM_app in H. destruct (foldM _ ms _) as [st1| |] eqn:E1; try discriminate H. specialize (IH _ E1).
    rewrite map_app. cbn [mbind outcome_bind foldM map fst snd] in *. unfold kc_message in H.
    destruct (m_key m) as [|t r]. { cbn in H. injection H as <-. by apply tracks_other. }
    destruct (bool_decide (t = ReorgType)) eqn:B1.
    { apply bool_decide_eq_true_1 in B1 as ->. destruct re.
      - destruct (process _ _ _ _) as [s| |]; cbn in H; try discriminate H. injection H as <-. by apply tracks_other.
      - cbn in H. injection H as <-. by apply tracks_other. }
    destruct (bool_decide (t = PingType)) eqn:B2.
    { apply bool_decide_eq_true_1 in B2 as ->. cbn in H. injection H as <-. apply tracks_beat; [tauto|done]. }
    apply bool_decide_eq_false_1 in B2. assert (Hn : ∀ k, t :: r = PingType :: k → False) by (intros k [= E]; done).
    destruct (bool_decide (t = ReorgCompleteType)).
    + case_bool_decide; cbn in H; [discriminate H|]. injection H as <-. by apply tracks_other.
    + destruct (process _ _ _ _) as [s| |]; cbn in H; try discriminate H. injection H as <-. by apply tracks_other.
Qed.
