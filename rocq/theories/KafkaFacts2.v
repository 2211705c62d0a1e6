(** Known blocks, skipped batches and what is sent. *)
From Verif Require Import Base Lru LruFacts Types Avro AvroFacts Wire SpecWire GoText Producer SpecBlock SpecProducer Consumer Kafka SpecKafka KafkaFacts.

(** Recency: a key among the [n] most recent ones is among the [n+1] most recent after an addition. *)
Section recency.
  Context {K : Type} `{EqDecision K}.
  Implicit Types (c : lru K).
  Definition recent_in (n : nat) c (x : K) : Prop := x ∈ take n (lru_keys c).
  Lemma take_filter_elem (P : K → Prop) `{!∀ x, Decision (P x)} n l x : x ∈ take n l → P x → x ∈ take n (filter P l).
  Proof.
    revert n. induction l as [|y l IH]; intros n Hx HP; [rewrite take_nil in Hx; by apply elem_of_nil in Hx|]. destruct n as [|n]; [by apply elem_of_nil in Hx|].
    cbn [take] in Hx. rewrite filter_cons. apply elem_of_cons in Hx as [->|Hx].
    - rewrite decide_True by done. cbn. left.
    - destruct (decide (P y)); [cbn; right; by apply IH|]. specialize (IH n Hx HP). clear -IH.
      apply elem_of_take in IH as (i & Hi & Hl). apply elem_of_take. exists i. split; [done|lia].
  Qed.
  Lemma recent_add n c k x : S n ≤ lru_cap c → recent_in n c x → recent_in (S n) (lru_add c k).1 x.
  Proof.
    unfold recent_in, lru_add. intros Hn Hx. destruct (decide (x = k)) as [->|Hne].
    - assert (Hk : k ∈ lru_keys c) by (by eapply elem_of_take in Hx as (i & ? & _); eapply elem_of_list_lookup_2).
      rewrite bool_decide_eq_true_2 by done. cbn. left.
    - case_bool_decide as Hk; cbn [fst lru_keys take].
      + right. by apply take_filter_elem.
      + case_bool_decide as Hl; cbn [fst lru_keys].
        * cbn [length] in Hl. apply elem_of_take in Hx as (i & Hi & Hin).
          apply elem_of_take. exists (S i). split; [|lia].
          rewrite removelast_firstn_len. rewrite lookup_take by (cbn; lia). exact Hi.
        * cbn [take]. right. done.
  Qed.
  Lemma recent_new c k : 0 < lru_cap c → recent_in 1 (lru_add c k).1 k.
  Proof.
    intros Hc. unfold recent_in, lru_add. case_bool_decide as Hk; cbn [fst lru_keys take]; [left|].
    case_bool_decide as Hl; cbn [fst lru_keys take]; [|left]. cbn [removelast]. destruct (lru_keys c) eqn:E; [cbn in Hl; lia|]. left.
  Qed.
  Lemma recent_contains n c x : recent_in n c x → lru_contains c x = true.
  Proof. intros H. apply bool_decide_eq_true_2. apply elem_of_take in H as (i & H & _). by eapply elem_of_list_lookup_2. Qed.
  Lemma recent_le n m c x : n ≤ m → recent_in n c x → recent_in m c x.
  Proof. intros Hnm (i & H & Hi)%elem_of_take. apply elem_of_take. exists i. split; [done|lia]. Qed.
End recency.

Lemma skip_all_cap c l : lru_cap (skip_all c l) = lru_cap c.
Proof. unfold skip_all. revert c. induction l as [|x l IH]; intros c; [done|]. cbn. by rewrite IH, lru_add_cap. Qed.
Lemma skip_all_recent c l n x : n + length l ≤ lru_cap c → recent_in n c x → recent_in (n + length l) (skip_all c l) x.
Proof.
  unfold skip_all. revert c n. induction l as [|y l IH]; intros c n Hc H; cbn [length foldl] in *; [by rewrite Nat.add_0_r|].
  replace (n + S (length l)) with (S n + length l) by lia. apply IH; [rewrite lru_add_cap; lia|]. apply recent_add; [lia|done].
Qed.
Lemma skip_all_new c l x : length l ≤ lru_cap c → x ∈ l → recent_in (length l) (skip_all c l) x.
Proof.
  intros Hc (l1 & l2 & ->)%elem_of_list_split. rewrite app_length in *. cbn [length] in *. unfold skip_all. rewrite foldl_app. cbn [foldl].
  fold (skip_all c l1). fold (skip_all (lru_add (skip_all c l1) x).1 l2).
  apply (recent_le (1 + length l2)); [lia|]. apply skip_all_recent.
  - rewrite lru_add_cap, skip_all_cap. lia.
  - apply recent_new. rewrite skip_all_cap. lia.
Qed.

(** The caches *)
Lemma kp_emit_same kp dp e tm : kp_recent (kp_emit kp dp e tm).1 = kp_recent kp ∧ kp_skip (kp_emit kp dp e tm).1 = kp_skip kp ∧ kp_dp (kp_emit kp dp e tm).1 = dp.
Proof. unfold kp_emit. by destruct (emit_bundle _ _). Qed.
Lemma kp_add_recent kp o ids e a : kp_recent (kp_add kp o ids e a).1 = kp_recent kp.
Proof.
  unfold kp_add. destruct (lru_contains _ _); [done|]. destruct (add_block _ _ _) as [dp [er|tm]]; [done|]. apply kp_emit_same.
Qed.
Lemma kp_send_same kp ord e id d u : kp_recent (kp_send kp ord e id d u).1 = kp_recent kp ∧ kp_skip (kp_send kp ord e id d u).1 = kp_skip kp.
Proof.
  unfold kp_send. destruct (send_batch _ _ _ _ _) as [dp [tm|]]; [|done]. split; apply kp_emit_same.
Qed.
Lemma kp_step_cap self kp ev kp' : kp_step self kp ev = Ok kp' → lru_cap (kp_recent kp') = lru_cap (kp_recent kp) ∧ lru_cap (kp_skip kp') = lru_cap (kp_skip kp).
Proof.
  destruct ev as [now key|o ids e a|ord e id d u|]; cbn [kp_step].
  - unfold kp_feed. destruct key as [|t r]; [by intros [= <-]|]. case_bool_decide.
    { case_bool_decide; [done|]. intros [= <-]. cbn [kp_recent kp_skip]. split; [apply lru_add_cap|done]. }
    repeat case_bool_decide; by intros [= <-].
  - intros [= <-]. rewrite kp_add_recent. split; [done|]. unfold kp_add. destruct (lru_contains _ _); [apply skip_all_cap|].
    destruct (add_block _ _ _) as [dp [er|tm]]; [done|]. f_equal. apply kp_emit_same.
  - intros [= <-]. by destruct (kp_send_same kp ord e id d u) as [-> ->].
  - by intros [= <-].
Qed.
Lemma kp_run_app self kp l1 l2 kp' : kp_run self kp (l1 ++ l2) = Ok kp' ↔ ∃ kp1, kp_run self kp l1 = Ok kp1 ∧ kp_run self kp1 l2 = Ok kp'.
Proof.
  unfold kp_run. rewrite foldM_app. destruct (foldM _ l1 _) as [k| |]; cbn [mbind outcome_bind]; naive_solver.
Qed.
Lemma kp_run_cap self kp l kp' : kp_run self kp l = Ok kp' → lru_cap (kp_recent kp') = lru_cap (kp_recent kp) ∧ lru_cap (kp_skip kp') = lru_cap (kp_skip kp).
Proof.
  revert kp. induction l as [|ev l IH]; intros kp H; [by injection H as ->|].
  unfold kp_run in H. cbn [foldM] in H. destruct (kp_step self kp ev) as [kp1| |] eqn:E; cbn [mbind outcome_bind] in H; try discriminate H.
  destruct (kp_step_cap _ _ _ _ E) as [<- <-]. by apply IH.
Qed.
Lemma block_keys_cons ev l : block_keys (ev :: l) = block_keys [ev] ++ block_keys l.
Proof. unfold block_keys, feed_of. destruct ev; cbn [omap list_omap]; try done. cbn [fmap list_fmap fst snd]. rewrite !filter_cons. by destruct (decide _). Qed.
Lemma kp_step_recent self kp ev kp' n h : ev ≠ KPurge → kp_step self kp ev = Ok kp' → n + length (block_keys [ev]) ≤ lru_cap (kp_recent kp) →
  recent_in n (kp_recent kp) h → recent_in (n + length (block_keys [ev])) (kp_recent kp') h.
Proof.
  intros Hp H Hc Hr. destruct ev as [now key|o ids e a|ord e id d u|]; cbn [kp_step] in H.
  - unfold kp_feed in H. unfold block_keys, feed_of in *. cbn [omap list_omap fmap list_fmap fst snd] in *. rewrite filter_cons in *. destruct key as [|t r].
    { injection H as <-. cbn. by rewrite Nat.add_0_r. }
    case_bool_decide as Ht.
    + subst t. rewrite decide_True in * by done. cbn in Hc |- *. case_bool_decide; [done|]. injection H as <-. cbn [kp_recent].
      rewrite Nat.add_1_r. apply recent_add; [lia|done].
    + rewrite decide_False in * by (cbn; congruence). cbn. rewrite Nat.add_0_r. repeat case_bool_decide; by injection H as <-.
  - injection H as <-. rewrite kp_add_recent. cbn. by rewrite Nat.add_0_r.
  - injection H as <-. destruct (kp_send_same kp ord e id d u) as [-> _]. cbn. by rewrite Nat.add_0_r.
  - done.
Qed.
Lemma kp_run_recent self kp l kp' n h : KPurge ∉ l → kp_run self kp l = Ok kp' → n + length (block_keys l) ≤ lru_cap (kp_recent kp) →
  recent_in n (kp_recent kp) h → recent_in (n + length (block_keys l)) (kp_recent kp') h.
Proof.
  revert kp n. induction l as [|ev l IH]; intros kp n Hp H Hc Hr.
  { injection H as <-. cbn. by rewrite Nat.add_0_r. }
  unfold kp_run in H. cbn [foldM] in H. destruct (kp_step self kp ev) as [kp1| |] eqn:E; cbn [mbind outcome_bind] in H; try discriminate H.
  rewrite block_keys_cons, app_length in Hc |- *. rewrite Nat.add_assoc. apply not_elem_of_cons in Hp as [Hp1 Hp2]. apply (IH kp1); [done|done| |].
  - rewrite (proj1 (kp_step_cap _ _ _ _ E)). lia.
  - eapply kp_step_recent; [done|done|lia|done].
Qed.
Lemma seen_recent self dp evs kp h : hash_ok h → kp_run self (kp_new dp) evs = Ok kp → seen_within 4096 evs h → lru_contains (kp_recent kp) h = true.
Proof.
  intros Hh H (pre & now & post & -> & Hp & Hn). apply kp_run_app in H as (kp1 & H1 & H2).
  destruct (kp_run_cap _ _ _ _ H1) as [Hc _]. cbn [kp_new kp_recent lru_new lru_cap] in Hc.
  unfold kp_run in H2. cbn [foldM kp_step] in H2. unfold kp_feed in H2. cbn [key_of get_key concat] in H2. rewrite app_nil_r in H2.
  rewrite bool_decide_eq_true_2 in H2 by done. unfold get_key in H2. cbn [length concat] in H2. rewrite ?app_nil_r in H2. rewrite hash_bytes_length in H2.
  rewrite bool_decide_eq_false_2 in H2 by lia. cbn [mbind outcome_bind] in H2.
  rewrite take_ge in H2 by (rewrite hash_bytes_length; lia). rewrite bytes_hash_bytes in H2 by done.
  apply (recent_contains (1 + length (block_keys post))). eapply kp_run_recent; [exact Hp|exact H2| |].
  - cbn [kp_recent]. rewrite lru_add_cap, Hc. lia.
  - cbn [kp_recent]. apply recent_new. rewrite Hc. lia.
Qed.
Lemma recent_seen_from self kp0 evs kp h : lru_contains (kp_recent kp0) h = false → kp_run self kp0 evs = Ok kp →
  (∀ k, k ∈ block_keys evs → bytes_hash (take 32 (drop 1 k)) ≠ h) → lru_contains (kp_recent kp) h = false.
Proof.
  intros H0. revert kp. induction evs as [|ev evs IH] using rev_ind; intros kp H Hu.
  { injection H as <-. done. }
  apply kp_run_app in H as (kp1 & H1 & H2).
  assert (Hu1 : ∀ k, k ∈ block_keys evs → bytes_hash (take 32 (drop 1 k)) ≠ h).
  { intros k Hk. apply Hu. unfold block_keys, feed_of in *. rewrite omap_app, fmap_app, filter_app. apply elem_of_app. by left. }
  specialize (IH _ H1 Hu1). unfold kp_run in H2. cbn [foldM] in H2. destruct (kp_step self kp1 ev) as [kp2| |] eqn:E; try discriminate H2. injection H2 as <-.
  destruct ev as [now key|o ids e a|ord e id d u|]; cbn [kp_step] in E.
  - unfold kp_feed in E. destruct key as [|t r]; [by injection E as <-|].
    case_bool_decide as Ht; [|repeat case_bool_decide; by injection E as <-]. subst t.
    case_bool_decide; [done|]. injection E as <-. cbn [kp_recent]. apply bool_decide_eq_false_2. intros Hin.
    apply lru_add_elem in Hin as [->|Hin].
    + assert (Hk : (BatchType :: r) ∈ block_keys (evs ++ [KFeed now (BatchType :: r)])).
      { unfold block_keys, feed_of. rewrite omap_app, fmap_app, filter_app. apply elem_of_app. right. cbn. left. }
      by apply (Hu _ Hk).
    + by apply bool_decide_eq_false_1 in IH.
  - injection E as <-. by rewrite kp_add_recent.
  - injection E as <-. by destruct (kp_send_same kp1 ord e id d u) as [-> _].
  - injection E as <-. done.
Qed.
Lemma since_purge_run self dp evs kp post : kp_run self (kp_new dp) evs = Ok kp → since_purge evs post →
  ∃ kp0, kp_run self kp0 post = Ok kp ∧ ∀ h, lru_contains (kp_recent kp0) h = false ∧ lru_contains (kp_skip kp0) h = false.
Proof.
  intros H [->|[pre ->]]; [by exists (kp_new dp)|]. apply kp_run_app in H as (kp1 & _ & H2). unfold kp_run in H2. cbn [foldM kp_step mbind outcome_bind] in H2.
  exists (kp_purge kp1). done.
Qed.
Lemma recent_seen self dp evs kp h : kp_run self (kp_new dp) evs = Ok kp → unseen evs h → lru_contains (kp_recent kp) h = false.
Proof.
  intros H (post & Hp & Hu). destruct (since_purge_run _ _ _ _ _ H Hp) as (kp0 & H0 & Hc). eapply recent_seen_from; [apply Hc|done|done].
Qed.
Lemma skip_all_elem c l x : x ∈ lru_keys (skip_all c l) → x ∈ lru_keys c ∨ x ∈ l.
Proof.
  unfold skip_all. revert c. induction l as [|y l IH]; intros c; cbn; [by left|]. intros [H|H]%IH; [|right; by right].
  apply lru_add_elem in H as [->|H]; [right; left|by left].
Qed.
Lemma skip_named_from self kp0 evs kp id : lru_contains (kp_skip kp0) id = false → Forall kp_event_ok evs → kp_run self kp0 evs = Ok kp →
  (∀ o ids e a, KAddBlock o ids e a ∈ evs → ¬ announces a id) → lru_contains (kp_skip kp) id = false.
Proof.
  intros H0. revert kp. induction evs as [|ev evs IH] using rev_ind; intros kp Hok H Hu.
  { injection H as <-. done. }
  apply kp_run_app in H as (kp1 & H1 & H2). apply Forall_app in Hok as [Hok Hev]. rewrite Forall_singleton in Hev.
  assert (Hu1 : ∀ o ids e a, KAddBlock o ids e a ∈ evs → ¬ announces a id) by (intros; eapply Hu, elem_of_app; by left).
  specialize (IH _ Hok H1 Hu1). unfold kp_run in H2. cbn [foldM] in H2. destruct (kp_step self kp1 ev) as [kp2| |] eqn:E; try discriminate H2. injection H2 as <-.
  destruct ev as [now key|o ids e a|ord e i d u|]; cbn [kp_step] in E.
  - unfold kp_feed in E. destruct key as [|t r]; [by injection E as <-|]. repeat case_bool_decide; try done; by injection E as <-.
  - injection E as <-. unfold kp_add. destruct (lru_contains (kp_recent kp1) _).
    + cbn [fst kp_skip]. apply bool_decide_eq_false_2. intros [Hin|Hin]%skip_all_elem; [by apply bool_decide_eq_false_1 in IH|].
      destruct Hev as (_ & Hids & _). rewrite Hids in Hin. apply elem_of_list_fmap in Hin as ([p x] & -> & Hx%elem_of_map_to_list).
      eapply (Hu o ids e a); [apply elem_of_app; right; left|]. by exists p.
    + destruct (add_block _ _ _) as [dp [er|tm]]; [done|]. by destruct (kp_emit_same kp1 dp e tm) as (_ & -> & _).
  - injection E as <-. by destruct (kp_send_same kp1 ord e i d u) as [_ ->].
  - injection E as <-. done.
Qed.
Lemma unnamed_unknown self dp evs kp ord e id d u : Forall kp_event_ok evs → kp_run self (kp_new dp) evs = Ok kp → unnamed evs id →
  (send_batch (kp_dp kp) ord id d u).2 = None → (kp_send kp ord e id d u).2 = Some KUnknownBatch.
Proof.
  intros Hok H (post & Hp & Hu) Hs. destruct (since_purge_run _ _ _ _ _ H Hp) as (kp0 & H0 & Hc).
  assert (Hok' : Forall kp_event_ok post).
  { destruct Hp as [->|[pre ->]]; [done|]. apply Forall_app in Hok as [_ Hok]. by apply Forall_cons in Hok as [_ ?]. }
  assert (Hk := skip_named_from _ _ _ _ id (proj2 (Hc id)) Hok' H0 Hu).
  unfold kp_send. destruct (send_batch _ _ _ _ _) as [x [tm|]]; [discriminate Hs|]. by rewrite Hk.
Qed.

(** Known blocks *)
Lemma kp_add_known kp o ids e a : lru_contains (kp_recent kp) (ba_hash a) = true →
  kp_add kp o ids e a = (KP (kp_dp kp) (kp_recent kp) (skip_all (kp_skip kp) (ids (map_to_list (ba_batches a)).*2)) (kp_pt kp) (kp_sent kp), None).
Proof. intros H. unfold kp_add. by rewrite H. Qed.
Lemma kp_step_skip self kp ev kp' n id : ev ≠ KPurge → kp_event_ok ev → kp_step self kp ev = Ok kp' → n + named [ev] ≤ lru_cap (kp_skip kp) →
  recent_in n (kp_skip kp) id → recent_in (n + named [ev]) (kp_skip kp') id.
Proof.
  intros Hp Hok H Hc Hr. destruct ev as [now key|o ids e a|ord e id' d u|]; cbn [kp_step] in H.
  - cbn. rewrite Nat.add_0_r. unfold kp_feed in H. repeat case_match; try discriminate H; by injection H as <-.
  - injection H as <-. unfold named in *. cbn [map sum_list] in *. rewrite Nat.add_0_r in *. unfold kp_add. destruct (lru_contains _ _).
    + cbn [fst kp_skip]. destruct Hok as (_ & Hids & _).
      assert (El : length (ids (map_to_list (ba_batches a)).*2) = size (ba_batches a)).
      { rewrite Hids, fmap_length. done. }
      rewrite <- El in *. by apply skip_all_recent.
    + eapply recent_le; [|]. 2:{ destruct (add_block _ _ _) as [dp [er|tm]]; [exact Hr|]. destruct (kp_emit_same kp dp e tm) as (_ & -> & _). exact Hr. } lia.
  - injection H as <-. destruct (kp_send_same kp ord e id' d u) as [_ ->]. cbn. by rewrite Nat.add_0_r.
  - done.
Qed.
Lemma named_cons ev l : named (ev :: l) = named [ev] + named l.
Proof. unfold named. cbn. lia. Qed.
Lemma kp_run_skip self kp l kp' n id : KPurge ∉ l → Forall kp_event_ok l → kp_run self kp l = Ok kp' → n + named l ≤ lru_cap (kp_skip kp) →
  recent_in n (kp_skip kp) id → recent_in (n + named l) (kp_skip kp') id.
Proof.
  revert kp n. induction l as [|ev l IH]; intros kp n Hp Hok H Hc Hr.
  { injection H as <-. cbn. by rewrite Nat.add_0_r. }
  unfold kp_run in H. cbn [foldM] in H. destruct (kp_step self kp ev) as [kp1| |] eqn:E; cbn [mbind outcome_bind] in H; try discriminate H.
  rewrite named_cons in Hc |- *. rewrite Nat.add_assoc. apply not_elem_of_cons in Hp as [Hp1 Hp2]. apply Forall_cons in Hok as [Hok1 Hok2].
  apply (IH kp1); [done|done|done| |].
  - rewrite (proj2 (kp_step_cap _ _ _ _ E)). lia.
  - eapply kp_step_skip; [done|done|done|lia|done].
Qed.
(** Later SendBatch calls for the sub-batches of a known block *)
Lemma known_batches self dp evs kp o ids e a post kp' id ord e' d u :
  (∀ l, ids l ≡ₚ l) → kp_run self (kp_new dp) evs = Ok kp → lru_contains (kp_recent kp) (ba_hash a) = true →
  announces a id → KPurge ∉ post → Forall kp_event_ok post → (Z.of_nat (size (ba_batches a) + named post) ≤ 1024)%Z →
  kp_run self (kp_add kp o ids e a).1 post = Ok kp' → p_pending (kp_dp kp') !! id = None →
  kp_send kp' ord e' id d u = (kp', None).
Proof.
  intros Hids H Hk [k Hid] Hp Hok Hn H2 Hpend.
  rewrite kp_add_known in H2 by done. cbn [fst] in H2.
  destruct (kp_run_cap _ _ _ _ H) as [_ Hc]. cbn [kp_new kp_skip lru_new lru_cap] in Hc.
  assert (El : length (ids (map_to_list (ba_batches a)).*2) = size (ba_batches a)) by (by rewrite Hids, fmap_length).
  assert (Hin : id ∈ ids (map_to_list (ba_batches a)).*2).
  { rewrite Hids. apply elem_of_list_fmap. exists (k, id). split; [done|]. by apply elem_of_map_to_list. }
  assert (Hr : recent_in (size (ba_batches a) + named post) (kp_skip kp') id).
  { eapply kp_run_skip; [exact Hp|exact Hok|exact H2| |].
    - cbn [kp_skip]. rewrite skip_all_cap, Hc. lia.
    - cbn [kp_skip]. rewrite <- El. apply skip_all_new; [rewrite El, Hc; lia|done]. }
  unfold kp_send, send_batch. rewrite Hpend. rewrite (recent_contains _ _ _ Hr). by destruct kp'.
Qed.

(** Blocks that are not known *)
Lemma filter_pair_fmap (ms : list pmsg) (t t' : topic) : (filter (λ x : topic * pmsg, x.1 = t') (map (pair t) ms)).*2 = if decide (t = t') then ms else [].
Proof.
  induction ms as [|m ms IH]; cbn [map]; [by destruct (decide _)|]. rewrite filter_cons. cbn [fst]. destruct (decide (t = t')).
  - cbn [fmap list_fmap snd]. f_equal. exact IH.
  - exact IH.
Qed.
Lemma bundle_topic es t : NoDup es.*1 → for_topic (bundle_msgs es) t = default [] ((list_to_map es : topics) !! t).
Proof.
  unfold for_topic, bundle_msgs. induction es as [|[t0 ms] es IH]; intros Hnd; [done|]. cbn [map concat fst snd].
  cbn in Hnd. apply NoDup_cons in Hnd as [Ht Hnd]. rewrite filter_app, fmap_app, IH, filter_pair_fmap by done.
  cbn [list_to_map foldr]. unfold uncurry. cbn. unfold topics, topic in *. destruct (decide (t0 = t)) as [->|Hne].
  - rewrite lookup_insert. cbn. rewrite not_elem_of_list_to_map_1 by done. cbn. by rewrite app_nil_r.
  - by rewrite lookup_insert_ne.
Qed.
Lemma bundle_of_map e tm t : kemit_ok e → for_topic (bundle_msgs (ke_ord e (map_to_list tm))) t = on_topic tm t.
Proof.
  intros He. assert (Hnd : NoDup (ke_ord e (map_to_list tm)).*1). { rewrite (He _). apply NoDup_fst_map_to_list. }
  rewrite bundle_topic by done. unfold on_topic. f_equal. rewrite <- (list_to_map_to_list tm) at 2. f_equal.
  apply list_to_map_proper; [done|apply He].
Qed.
Lemma kp_emit_sent kp dp e tm : kemit_ok e → ∃ sent rest, kp_sent (kp_emit kp dp e tm).1 = kp_sent kp ++ sent ∧
  (∀ t, for_topic (sent ++ rest) t = on_topic tm t) ∧
  (((kp_emit kp dp e tm).2 = None ∧ rest = []) ∨ ((kp_emit kp dp e tm).2 = Some KEmit ∧ rest ≠ [] ∧ ke_stop e ≠ None)).
Proof.
  intros He. unfold kp_emit, emit_bundle. destruct (ke_stop e) as [n|] eqn:Es; [case_bool_decide as Hn|].
  - exists (take n (bundle_msgs (ke_ord e (map_to_list tm)))), (drop n (bundle_msgs (ke_ord e (map_to_list tm)))). cbn [fst snd kp_sent]. split; [done|].
    split; [intros t; rewrite take_drop; by apply bundle_of_map|]. right. split; [done|]. split; [|done].
    intros E. apply (f_equal length) in E. rewrite drop_length in E. cbn in E. lia.
  - exists (bundle_msgs (ke_ord e (map_to_list tm))), []. cbn [fst snd kp_sent]. split; [done|]. rewrite app_nil_r. split; [intros t; by apply bundle_of_map|]. by left.
  - exists (bundle_msgs (ke_ord e (map_to_list tm))), []. cbn [fst snd kp_sent]. split; [done|]. rewrite app_nil_r. split; [intros t; by apply bundle_of_map|]. by left.
Qed.
Lemma kp_add_unknown kp o ids e a : lru_contains (kp_recent kp) (ba_hash a) = false → kemit_ok e →
  match add_block (kp_dp kp) o a with
  | (dp, inl er) => (kp_add kp o ids e a).2 = Some (KAdd er) ∧ kp_sent (kp_add kp o ids e a).1 = kp_sent kp
  | (dp, inr tm) => ∃ sent rest, kp_sent (kp_add kp o ids e a).1 = kp_sent kp ++ sent ∧ (∀ t, for_topic (sent ++ rest) t = on_topic tm t) ∧
      (((kp_add kp o ids e a).2 = None ∧ rest = []) ∨ ((kp_add kp o ids e a).2 = Some KEmit ∧ rest ≠ [] ∧ ke_stop e ≠ None))
  end.
Proof.
  intros Hr He. unfold kp_add. rewrite Hr. destruct (add_block _ _ _) as [dp [er|tm]]; [done|]. by apply kp_emit_sent.
Qed.
Lemma kp_send_cases kp ord e id d u : kemit_ok e →
  match send_batch (kp_dp kp) ord id d u with
  | (dp, None) => kp_sent (kp_send kp ord e id d u).1 = kp_sent kp ∧
      ((kp_send kp ord e id d u).2 = None ∨ (kp_send kp ord e id d u).2 = Some KUnknownBatch)
  | (dp, Some tm) => ∃ sent rest, kp_sent (kp_send kp ord e id d u).1 = kp_sent kp ++ sent ∧ (∀ t, for_topic (sent ++ rest) t = on_topic tm t) ∧
      (((kp_send kp ord e id d u).2 = None ∧ rest = []) ∨ ((kp_send kp ord e id d u).2 = Some KEmit ∧ rest ≠ [] ∧ ke_stop e ≠ None))
  end.
Proof.
  intros He. unfold kp_send. destruct (send_batch _ _ _ _ _) as [dp [tm|]]; [by apply kp_emit_sent|].
  cbn [fst snd kp_sent]. destruct (lru_contains _ _); auto.
Qed.

(** The caches are bounded: a block is forgotten after as many others as the cache holds *)
Lemma skip_all_fresh (l : list hash) c : NoDup l → (∀ x, x ∈ l → x ∉ lru_keys c) → length (lru_keys c) ≤ lru_cap c → 0 < lru_cap c →
  lru_keys (skip_all c l) = take (lru_cap c) (rev l ++ lru_keys c).
Proof.
  unfold skip_all. revert c. induction l as [|x l IH]; intros c Hnd Hd Hl Hc; cbn [foldl rev app]; [by rewrite take_ge|].
  apply NoDup_cons in Hnd as [Hx Hnd].
  assert (E : lru_keys (lru_add c x).1 = take (lru_cap c) (x :: lru_keys c)).
  { unfold lru_add. rewrite bool_decide_eq_false_2 by (apply Hd; left). case_bool_decide as Hlt; cbn [fst lru_keys].
    - rewrite removelast_firstn_len. f_equal. cbn [length] in *. lia.
    - rewrite take_ge; [done|]. lia. }
  rewrite IH; [|done| | |].
  - rewrite lru_add_cap, E. rewrite <- app_assoc. cbn [app].
    destruct (decide (length (rev l) ≤ lru_cap c)) as [H|H].
    + rewrite !take_app_ge by done. f_equal. rewrite take_take. f_equal. lia.
    + rewrite !take_app_le by lia. done.
  - intros y Hy Hin. rewrite E in Hin. apply elem_of_take in Hin as (i & Hi & _). apply elem_of_list_lookup_2 in Hi. apply elem_of_cons in Hi as [->|Hi]; [done|].
    apply (Hd y); [by right|done].
  - rewrite lru_add_cap, E, take_length. lia.
  - by rewrite lru_add_cap.
Qed.
Lemma forgotten c (l : list hash) h : NoDup l → h ∉ l → (∀ x, x ∈ l → x ∉ lru_keys c) → length (lru_keys c) ≤ lru_cap c → 0 < lru_cap c → lru_cap c ≤ length l →
  lru_contains (skip_all c l) h = false.
Proof.
  intros Hnd Hh Hd Hl Hc Hle. apply bool_decide_eq_false_2. rewrite skip_all_fresh by done. intros Hin.
  rewrite take_app_le in Hin by (rewrite rev_length; lia). apply elem_of_take in Hin as (i & Hi & _). apply elem_of_list_lookup_2 in Hi.
  by apply elem_of_list_In, in_rev, elem_of_list_In in Hi.
Qed.
Lemma kp_feed_header self kp now h : hash_ok h → kp_feed self kp now (key_of (KBatch h)) =
  Ok (KP (kp_dp kp) (lru_add (kp_recent kp) h).1 (kp_skip kp) (kp_pt kp) (kp_sent kp)).
Proof.
  intros Hh. assert (key_of (KBatch h) = BatchType :: hash_bytes h) as -> by (unfold key_of, get_key; cbn [concat]; by rewrite app_nil_r).
  unfold kp_feed. rewrite bool_decide_eq_true_2 by done. cbn [length]. rewrite hash_bytes_length.
  rewrite bool_decide_eq_false_2 by lia. rewrite take_ge by (rewrite hash_bytes_length; lia). by rewrite bytes_hash_bytes.
Qed.
Lemma feed_all self kp l : Forall hash_ok l → kp_run self kp (map (λ h, KFeed 0 (key_of (KBatch h))) l) =
  Ok (KP (kp_dp kp) (skip_all (kp_recent kp) l) (kp_skip kp) (kp_pt kp) (kp_sent kp)).
Proof.
  intros H. revert kp. induction H as [|h l Hh Hl IH]; intros kp; [by destruct kp|]. cbn [map]. unfold kp_run. cbn [foldM kp_step].
  rewrite kp_feed_header by done. cbn [mbind outcome_bind].
  specialize (IH (KP (kp_dp kp) (lru_add (kp_recent kp) h).1 (kp_skip kp) (kp_pt kp) (kp_sent kp))). exact IH.
Qed.
Lemma unknown_sends kp : kp_dp kp = Prod [] [] ∅ → lru_contains (kp_recent kp) 0%N = false →
  kp_sent (kp_add kp id_aorder id (KE id None) (BA 0 0%N 0%N 0%N ∅ ∅ ∅)).1 ≠ kp_sent kp.
Proof.
  intros Hd Hc E. apply (f_equal length) in E. revert E. unfold kp_add. cbn [ba_hash]. rewrite Hc, Hd.
  assert (Ha : match add_block (Prod [] [] ∅) id_aorder (BA 0 0%N 0%N 0%N ∅ ∅ ∅) with
    | (_, inr tm) => (emit_bundle (id (map_to_list tm)) None).1 ≠ [] | _ => False end) by (vm_compute; discriminate).
  destruct (add_block _ _ _) as [dp [er|tm]]; [done|]. unfold kp_emit. cbn [ke_ord ke_stop] in *.
  destruct (emit_bundle _ _) as [[|m ms] ok]; [done|]. cbn [fst kp_sent]. rewrite app_length. cbn [length]. lia.
Qed.
(** A block read long ago is sent again *)
Lemma forgets self kp n : lru_cap (kp_recent kp) = n → lru_keys (kp_recent kp) = [] → 0 < n → (Z.of_nat n < 5000)%Z →
  ∃ evs kp', KPurge ∉ evs ∧ KFeed 0 (key_of (KBatch 0%N)) ∈ evs ∧ kp_run self kp evs = Ok kp' ∧ kp_dp kp' = kp_dp kp ∧
    lru_contains (kp_recent kp') 0%N = false.
Proof.
  intros Hcap Hk Hn Hs. set (l := map N.of_nat (seq 1 n)).
  assert (Hok : Forall hash_ok (0%N :: l)).
  { constructor; [done|]. apply Forall_map, Forall_forall. intros x Hx. apply elem_of_seq in Hx. unfold hash_ok.
    assert ((N.of_nat x < 5000)%N) by lia. eapply N.lt_trans; [done|]. done. }
  eexists (map (λ h, KFeed 0 (key_of (KBatch h))) (0%N :: l)), _.
  split; [|split; [|split; [apply feed_all; exact Hok|split; [done|]]]].
  - intros (x & E & _)%elem_of_list_fmap. discriminate E.
  - cbn [map]. left.
  - cbn [kp_recent]. unfold skip_all. cbn [foldl]. fold (skip_all (lru_add (kp_recent kp) 0%N).1 l).
    apply forgotten; rewrite ?lru_add_cap, ?Hcap; [| | | |done|].
    + unfold l. apply NoDup_fmap_2; [intros ?? ?; lia|apply NoDup_seq].
    + unfold l. intros (x & E & Hx)%elem_of_list_fmap. apply elem_of_seq in Hx. lia.
    + intros x Hx. unfold l in Hx. apply elem_of_list_fmap in Hx as (y & -> & Hy). apply elem_of_seq in Hy.
      intros Hin. apply lru_add_elem in Hin as [?|Hin]; [lia|]. rewrite Hk in Hin. by apply elem_of_nil in Hin.
    + unfold lru_add. rewrite Hk, Hcap. rewrite bool_decide_eq_false_2 by apply not_elem_of_nil.
      rewrite bool_decide_eq_false_2 by (cbn; lia). cbn. lia.
    + unfold l. rewrite map_length, seq_length. done.
Qed.
Lemma rebroadcast : ∃ self dp evs kp h o ids e a now, KPurge ∉ evs ∧ KFeed now (key_of (KBatch h)) ∈ evs ∧
  kp_run self (kp_new dp) evs = Ok kp ∧ ba_hash a = h ∧ kp_sent (kp_add kp o ids e a).1 ≠ kp_sent kp.
Proof.
  destruct (forgets [] (kp_new (Prod [] [] ∅)) (Z.to_nat 4096)) as (evs & kp & H1 & H2 & H3 & H4 & H5); [done|done|lia|lia|].
  exists [], (Prod [] [] ∅), evs, kp, 0%N, id_aorder, id, (KE id None), (BA 0 0%N 0%N 0%N ∅ ∅ ∅), 0%Z.
  split; [done|]. split; [done|]. split; [done|]. split; [done|]. by apply unknown_sends.
Qed.
