(** Facts about Feed.v: the start of a consumer's partitions, tokens for timestamps. *)
From Verif Require Import Base Lru Types Avro Wire SpecWire GoText TextFacts Producer Consumer Kafka SpecKafka KafkaFacts Feed SpecFeed FeedFacts.

(** ** Warm-up *)
Lemma warm_start_partition entry rb start get p : fst <$> warm_start entry rb start get p = start_partition entry rb start get p.
Proof.
  unfold warm_start, start_partition. destruct entry as [o|]; repeat case_match; simplify_eq/=; congruence.
Qed.
Lemma consume_le p q s : partition_ok p → consume_partition p q = Some s → (q ≤ s)%Z.
Proof.
  intros Hp H. apply consume_some in H as [? [->|[[-> ->]|[-> ->]]]]; [lia|..|done]; unfold partition_ok in Hp; unfold OffsetNewest, OffsetOldest; lia.
Qed.
Lemma warm_start_le entry rb start get l s so m : log_ok l → warm_start entry rb start get (fl_part l) = Some (s, so) →
  m ∈ from_offset l s → (so ≤ fm_off m)%Z.
Proof.
  intros [Hp _] H [Hm _]%elem_of_list_filter. cut (so ≤ s)%Z; [lia|]. unfold warm_start in H.
  destruct (match entry with Some o => _ | None => _ end) as [offset so0]. destruct (consume_partition _ so0) as [s1|] eqn:E1.
  - injection H as <- <-. by eapply consume_le.
  - destruct (consume_partition _ offset) as [s2|] eqn:E2; [|done]. injection H as <- <-. by eapply consume_le.
Qed.
Definition wait_list (p : wpart) : list fmsg := match wp_wait p with Some m => [m] | None => [] end.
Definition wpart_inv (i : nat) (x : list fmsg * Z) (p : wpart) (out : list (nat * fmsg)) : Prop :=
  put_out i out ++ wait_list p ++ wp_todo p = x.1 ∧ wp_start p = x.2 ∧ (wp_warm p = true ↔ put_out i out ≠ []).
Definition warm_inv (ps : list (list fmsg * Z)) (s : warming) : Prop :=
  length (wm_parts s) = length ps ∧
  (∀ i x p, ps !! i = Some x → wm_parts s !! i = Some p → wpart_inv i x p (wm_out s)) ∧
  (wm_out s ≠ [] → all_warm (wm_parts s)).
Lemma put_out_app i o1 o2 : put_out i (o1 ++ o2) = put_out i o1 ++ put_out i o2.
Proof. unfold put_out. by rewrite filter_app, fmap_app. Qed.
Lemma put_out_one i j m : put_out i [(j, m)] = if decide (j = i) then [m] else [].
Proof. unfold put_out. rewrite filter_cons. cbn [fst]. by destruct (decide (j = i)). Qed.
Lemma warm_inv_init ps : warm_inv ps (warm_init ps).
Proof.
  split; [cbn; by rewrite map_length|]. split; [|done]. intros i x p Hx Hp. cbn [warm_init wm_parts wm_out] in *.
  change (map ?f ps) with (f <$> ps) in Hp. rewrite list_lookup_fmap, Hx in Hp. injection Hp as <-. split; [done|]. split; [done|]. done.
Qed.
Lemma all_warm_insert ps i p : all_warm ps → wp_warm p = true ∨ wp_wait p ≠ None → all_warm (<[i := p]> ps).
Proof. intros H Hp. by apply Forall_insert. Qed.
Lemma warm_inv_step ps s s' : Forall (λ x : list fmsg * Z, Forall (λ m, x.2 ≤ fm_off m)%Z x.1) ps → warm_inv ps s → warm_step s s' → warm_inv ps s'.
Proof.
  intros Hlow (Hlen & Hi & Hw) Hst.
  destruct Hst as [ws out i m todo start Hp Ho|ws out i m todo start Hp Hall|ws out i m todo warm start Hp Hc]; cbn [wm_parts wm_out] in *.
  - split; [cbn [wm_parts]; by rewrite insert_length|]. split.
    + intros j x p Hx Hj. cbn [wm_parts wm_out] in *. destruct (decide (i = j)) as [<-|Hne]; [|rewrite list_lookup_insert_ne in Hj by done; by eapply Hi].
      rewrite list_lookup_insert in Hj by (by eapply lookup_lt_Some). injection Hj as <-. exact (Hi _ _ _ Hx Hp).
    + cbn [wm_parts wm_out]. intros Hne. apply all_warm_insert; [by apply Hw|]. by right.
  - split; [cbn [wm_parts]; by rewrite insert_length|]. split.
    + intros j x p Hx Hj. cbn [wm_parts wm_out] in *. unfold wpart_inv. rewrite put_out_app, put_out_one.
      destruct (decide (i = j)) as [<-|Hne].
      * rewrite list_lookup_insert in Hj by (by eapply lookup_lt_Some). injection Hj as <-. destruct (Hi _ _ _ Hx Hp) as (H1 & H2 & _).
        split; [rewrite <- app_assoc; exact H1|]. split; [done|]. split; [|done]. intros _ [_ E]%app_nil. done.
      * rewrite list_lookup_insert_ne in Hj by done. rewrite app_nil_r. by eapply Hi.
    + cbn [wm_parts wm_out]. intros _. apply all_warm_insert; [done|]. by left.
  - assert (Hx : ∃ x, ps !! i = Some x). { apply lookup_lt_is_Some. rewrite <- Hlen. by eapply lookup_lt_Some. }
    destruct Hx as [x Hx]. destruct (Hi _ _ _ Hx Hp) as (H1 & H2 & H3). cbn [wait_list wp_wait wp_todo wp_start wp_warm app] in *.
    assert (Hwarm : warm = true).
    { destruct Hc as [?|Hlt]; [done|]. rewrite Forall_forall in Hlow. pose proof (Hlow x (elem_of_list_lookup_2 _ _ _ Hx)) as Hl.
      rewrite Forall_forall in Hl. assert (m ∈ x.1). { rewrite <- H1. apply elem_of_app. right. left. } specialize (Hl m H). subst start. lia. }
    subst warm. split; [cbn [wm_parts]; by rewrite insert_length|]. split.
    + intros j y p Hy Hj. cbn [wm_parts wm_out] in *. unfold wpart_inv. rewrite put_out_app, put_out_one. destruct (decide (i = j)) as [<-|Hne].
      * rewrite list_lookup_insert in Hj by (by eapply lookup_lt_Some). injection Hj as <-. rewrite Hx in Hy. injection Hy as <-.
        split; [rewrite <- app_assoc; exact H1|]. split; [done|]. split; [|done]. intros _ [_ E]%app_nil. done.
      * rewrite list_lookup_insert_ne in Hj by done. rewrite app_nil_r. by eapply Hi.
    + cbn [wm_parts wm_out]. intros _. apply all_warm_insert; [|by left]. apply Hw. intros E. apply (proj1 H3 eq_refl). by rewrite E.
Qed.
Lemma warm_inv_reach ps s : Forall (λ x : list fmsg * Z, Forall (λ m, x.2 ≤ fm_off m)%Z x.1) ps → rtc warm_step (warm_init ps) s → warm_inv ps s.
Proof.
  intros Hlow H. cut (∀ s0, rtc warm_step s0 s → warm_inv ps s0 → warm_inv ps s).
  { intros Hc. eapply Hc; [exact H|]. apply warm_inv_init. }
  clear H. intros s0 H. induction H as [|x y z Hxy _ IH]; intros Hi; [done|]. apply IH. by eapply warm_inv_step.
Qed.
Lemma warm_part ps s i x : warm_inv ps s → ps !! i = Some x → ∃ p, wm_parts s !! i = Some p ∧ wpart_inv i x p (wm_out s).
Proof.
  intros (Hlen & Hi & _) Hx. destruct (lookup_lt_is_Some_2 (wm_parts s) i) as [p Hp]; [rewrite Hlen; by eapply lookup_lt_Some|].
  exists p. split; [done|]. by eapply Hi.
Qed.
Lemma warm_barrier ps s : Forall (λ x : list fmsg * Z, Forall (λ m, x.2 ≤ fm_off m)%Z x.1) ps → rtc warm_step (warm_init ps) s → wm_out s ≠ [] →
  ∀ i x p, ps !! i = Some x → wm_parts s !! i = Some p → length (wp_todo p) < length x.1.
Proof.
  intros Hlow H Hne i x p Hx Hp. pose proof (warm_inv_reach _ _ Hlow H) as (_ & Hi & Hw). specialize (Hw Hne). unfold all_warm in Hw.
  rewrite Forall_forall in Hw. destruct (Hi _ _ _ Hx Hp) as (<- & _ & H3). rewrite !app_length.
  destruct (Hw p (elem_of_list_lookup_2 _ _ _ Hp)) as [Hwarm|Hwait].
  - apply H3 in Hwarm. destruct (put_out i (wm_out s)); [done|]. cbn [length]. lia.
  - unfold wait_list. destruct (wp_wait p); [|done]. cbn [length]. lia.
Qed.
Lemma warm_order ps s : Forall (λ x : list fmsg * Z, Forall (λ m, x.2 ≤ fm_off m)%Z x.1) ps → rtc warm_step (warm_init ps) s →
  ∀ i x, ps !! i = Some x → put_out i (wm_out s) `prefix_of` x.1.
Proof.
  intros Hlow H i x Hx. destruct (warm_part _ _ _ _ (warm_inv_reach _ _ Hlow H) Hx) as (p & _ & <- & _). by eexists.
Qed.
Lemma warm_no_wait ps s : rtc warm_step (warm_init ps) s → Forall (λ p, wp_warm p = true → wp_wait p = None) (wm_parts s).
Proof.
  assert (Hinit : Forall (λ p, wp_warm p = true → wp_wait p = None) (wm_parts (warm_init ps))).
  { cbn [warm_init wm_parts]. clear. induction ps; cbn [map]; by constructor. }
  revert Hinit. generalize (warm_init ps) as s0. intros s0 H0 H. induction H as [|x y z Hxy _ IH]; [done|]. apply IH.
  destruct Hxy; cbn [wm_parts] in *; by apply Forall_insert.
Qed.
Lemma warm_stuck ps s : Forall (λ x : list fmsg * Z, Forall (λ m, x.2 ≤ fm_off m)%Z x.1) ps → Forall (λ x : list fmsg * Z, x.1 ≠ []) ps →
  rtc warm_step (warm_init ps) s → (∀ s', ¬ warm_step s s') → ∀ i x, ps !! i = Some x → put_out i (wm_out s) = x.1.
Proof.
  intros Hlow Hne H Hstuck. pose proof (warm_inv_reach _ _ Hlow H) as Hinv. destruct s as [ws out]. cbn [wm_out wm_parts] in *.
  rewrite Forall_forall in Hne. rewrite Forall_forall in Hlow.
  (* no partition has a message to take *)
  assert (Hnone : ∀ i p, ws !! i = Some p → wp_wait p = None → wp_todo p = []).
  { intros i [todo wait warm start] Hp Hwait. cbn in Hwait. subst wait. destruct todo as [|m todo]; [done|]. exfalso.
    destruct warm.
    - eapply Hstuck. eapply WPass; [exact Hp|by left].
    - destruct (decide (start ≤ fm_off m)%Z) as [?|?].
      + eapply Hstuck. by eapply WArrive.
      + eapply Hstuck. eapply WPass; [exact Hp|right; lia]. }
  assert (Hall : all_warm ws).
  { apply Forall_forall. intros p Hp. apply elem_of_list_lookup in Hp as (i & Hp). destruct (wp_wait p) as [m|] eqn:Ew; [by right|]. left.
    destruct Hinv as (Hlen & Hi & _). cbn [wm_parts wm_out] in *. destruct (lookup_lt_is_Some_2 ps i) as [x Hx]; [rewrite <- Hlen; by eapply lookup_lt_Some|].
    destruct (Hi _ _ _ Hx Hp) as (E & _ & H3). apply H3. intros E0. apply (Hne x (elem_of_list_lookup_2 _ _ _ Hx)).
    rewrite <- E, E0. unfold wait_list. by rewrite Ew, (Hnone _ _ Hp Ew). }
  intros i x Hx. destruct (warm_part _ _ _ _ Hinv Hx) as (p & Hp & E & _ & H3). cbn [wm_parts wm_out] in *.
  destruct (wp_wait p) as [m|] eqn:Ew.
  - exfalso. destruct p as [todo wait warm start]. cbn in Ew. subst wait. destruct warm.
    + pose proof (warm_no_wait _ _ H) as Hc. rewrite Forall_forall in Hc. discriminate (Hc _ (elem_of_list_lookup_2 _ _ _ Hp) eq_refl).
    + eapply Hstuck. by eapply WRelease.
  - rewrite <- E. unfold wait_list. rewrite Ew, (Hnone _ _ Hp Ew). by rewrite app_nil_r.
Qed.
Definition wcost (p : wpart) : nat := 2 * length (wp_todo p) + length (wait_list p).
Lemma wcost_insert ps i p p' : ps !! i = Some p → sum_list_with wcost (<[i := p']> ps) + wcost p = sum_list_with wcost ps + wcost p'.
Proof.
  revert i. induction ps as [|x ps IH]; intros [|i] Hi; try done.
  - injection Hi as ->. change (<[0 := p']> (p :: ps)) with (p' :: ps). cbn [sum_list_with]. lia.
  - specialize (IH i Hi). change (<[S i := p']> (x :: ps)) with (x :: <[i := p']> ps). cbn [sum_list_with]. lia.
Qed.
Lemma warm_bounded ps n s : nsteps warm_step n (warm_init ps) s → n ≤ 2 * sum_list_with (λ x, length x.1) ps.
Proof.
  intros H. assert (Hw : sum_list_with wcost (wm_parts (warm_init ps)) = 2 * sum_list_with (λ x, length x.1) ps).
  { cbn [warm_init wm_parts]. clear. induction ps as [|x ps IH]; [done|]. cbn [map sum_list_with]. rewrite IH. unfold wcost.
    cbn [wp_todo wait_list wp_wait length]. lia. }
  rewrite <- Hw. clear Hw. revert H. generalize (warm_init ps) as s0. intros s0 H. induction H as [|n x y z Hxy H IH]; [lia|].
  destruct Hxy as [ws out i m todo start Hp _|ws out i m todo start Hp _|ws out i m todo warm start Hp _]; cbn [wm_parts] in *;
    pose proof (wcost_insert _ _ _ (WP todo (Some m) false start) Hp) as E1;
    pose proof (wcost_insert _ _ _ (WP todo None true start) Hp) as E2; try pose proof (wcost_insert _ _ _ (WP todo None warm start) Hp) as E3;
    unfold wcost at 2 4 in E1; unfold wcost at 2 4 in E2; try unfold wcost at 2 4 in E3; cbn [wp_todo wait_list wp_wait length] in *; lia.
Qed.

(** ** Tokens for timestamps *)
Lemma split_app c a b : split_byte c (a ++ c :: b) = split_byte c a ++ split_byte c b.
Proof.
  induction a as [|x a IH]; cbn [app split_byte].
  - by rewrite bool_decide_eq_true_2.
  - case_bool_decide; [by rewrite IH|]. rewrite IH. pose proof (split_no_sep c) as _. destruct (split_byte c a) as [|y l] eqn:E; [|done].
    exfalso. clear -E. destruct a as [|z a]; cbn in E; [done|]. case_bool_decide; [done|]. by destruct (split_byte c a).
Qed.
Lemma split_join c l : l ≠ [] → split_byte c (join_byte c l) = concat (map (split_byte c) l).
Proof.
  induction l as [|x l IH]; intros Hne; [done|]. destruct l as [|y l]; [cbn; by rewrite app_nil_r|].
  change (join_byte c (x :: y :: l)) with (x ++ c :: join_byte c (y :: l)). rewrite split_app, IH by done. done.
Qed.
Lemma parse_parts_app l1 l2 acc : parse_parts (l1 ++ l2) acc = parse_parts l1 acc ≫= parse_parts l2.
Proof.
  revert acc. induction l1 as [|x l1 IH]; intros acc; [done|]. cbn [app parse_parts]. repeat case_match; try done; apply IH.
Qed.
Definition entries_ok (es : list (bytes * Z)) : Prop := Forall (λ e : bytes * Z, legal_source e.1 ∧ in_int64 e.2) es.
Lemma parse_text es acc : entries_ok es →
  parse_parts (split_byte semicolon (join_byte semicolon (map token_part es))) acc = Some (foldl (λ m e, <[e.1 := e.2]> m) acc es).
Proof.
  intros H. destruct es as [|e es]; [done|]. rewrite split_of_join; [by apply parse_parts_ok|done|].
  apply Forall_forall. intros x Hx. change (map token_part (e :: es)) with (token_part <$> (e :: es)) in Hx. apply elem_of_list_fmap in Hx as (y & -> & Hy).
  unfold entries_ok in H. rewrite Forall_forall in H. destruct (H y Hy). by apply part_split.
Qed.
Lemma parse_brokers ess : Forall entries_ok ess →
  parse_token (brokers_token (map (λ es, join_byte semicolon (map token_part es)) ess)) = Some (foldl (λ m e, <[e.1 := e.2]> m) ∅ (concat ess)).
Proof.
  intros H. unfold parse_token, brokers_token. destruct ess as [|es0 ess0]; [done|]. rewrite split_join by done. set (ess := es0 :: ess0) in *. clearbody ess.
  generalize (∅ : gmap bytes Z) as acc. induction H as [|es ess He Hes IH]; intros acc; [done|]. cbn [map concat].
  rewrite parse_parts_app, parse_text by done. cbn [mbind option_bind]. rewrite IH. by rewrite foldl_app.
Qed.
Lemma insert_all_elem (l : list (bytes * Z)) (acc : gmap bytes Z) k v : foldl (λ m e, <[e.1 := e.2]> m) acc l !! k = Some v → (k, v) ∈ l ∨ acc !! k = Some v.
Proof.
  revert acc. induction l as [|[k0 v0] l IH]; intros acc H; [by right|]. cbn [foldl fst snd] in H. apply IH in H as [H|H]; [left; by right|].
  destruct (decide (k0 = k)) as [->|Hne].
  - rewrite lookup_insert in H. injection H as ->. left. left.
  - rewrite lookup_insert_ne in H by done. by right.
Qed.
Lemma insert_all_some (l : list (bytes * Z)) (acc : gmap bytes Z) k : k ∈ l.*1 ∨ is_Some (acc !! k) → is_Some (foldl (λ m e, <[e.1 := e.2]> m) acc l !! k).
Proof.
  revert acc. induction l as [|[k0 v0] l IH]; intros acc H; cbn [foldl fst snd].
  - destruct H as [?%elem_of_nil|?]; done.
  - apply IH. destruct H as [H|H].
    + cbn in H. apply elem_of_cons in H as [->|H]; [right; rewrite lookup_insert; by eexists|by left].
    + right. destruct (decide (k0 = k)) as [->|Hne]; [rewrite lookup_insert; by eexists|by rewrite lookup_insert_ne].
Qed.
(** The names and offsets one broker contributes *)
Definition broker_entry (off : bytes → Z → option Z) (topics : list (bytes * list Z)) (k : bytes) (o : Z) : Prop :=
  ∃ t parts part, (t, parts) ∈ topics ∧ part ∈ parts ∧ k = t ++ x3a :: int_text part ∧ off t part = Some o.
Lemma timestamp_parts_spec off l es : timestamp_parts off l = Some es → ∀ k o,
  (k, o) ∈ es ↔ ∃ t part, (t, part) ∈ l ∧ k = partition_name t part ∧ off t part = Some o.
Proof.
  revert es. induction l as [|[t part] l IH]; intros es H k o; cbn [timestamp_parts] in H.
  - injection H as <-. split; [by intros ?%elem_of_nil|]. by intros (? & ? & ?%elem_of_nil & _).
  - destruct (off t part) as [o1|] eqn:Eo; [|done]. destruct (timestamp_parts off l) as [es1|] eqn:Ee; [|done]. injection H as <-.
    rewrite elem_of_cons, (IH _ eq_refl). split.
    + intros [[= -> ->]|(t' & p' & ? & ? & ?)]; [exists t, part|exists t', p']; (split; [|done]); [left|by right].
    + intros (t' & p' & [[= -> ->]|?]%elem_of_cons & -> & E); [left; congruence|right; by exists t', p'].
Qed.
Lemma listed (topics : list (bytes * list Z)) t part : (t, part) ∈ concat (map (λ x : bytes * list Z, map (pair x.1) x.2) topics) ↔
  ∃ parts, (t, parts) ∈ topics ∧ part ∈ parts.
Proof.
  induction topics as [|[t0 ps0] topics IH]; cbn [map concat fst snd].
  - split; [by intros ?%elem_of_nil|]. by intros (? & ?%elem_of_nil & _).
  - rewrite elem_of_app, IH. change (map (pair t0) ps0) with (pair t0 <$> ps0). rewrite elem_of_list_fmap. split.
    + intros [(p & [= -> ->] & Hp)|(ps & Hps & Hp)]; [exists ps0|exists ps]; (split; [|done]); [left|by right].
    + intros (ps & [[= -> ->]|Hps]%elem_of_cons & Hp); [left; by exists part|right; by exists ps].
Qed.
Lemma timestamp_token_spec off topics tok : timestamp_token off topics = Some tok →
  ∃ es, tok = join_byte semicolon (map token_part es) ∧ ∀ k o, (k, o) ∈ es ↔ broker_entry off topics k o.
Proof.
  unfold timestamp_token. intros H. destruct (timestamp_parts _ _) as [es|] eqn:E; [|done]. injection H as <-. exists es. split; [done|].
  intros k o. rewrite (timestamp_parts_spec _ _ _ E). unfold broker_entry, partition_name. split.
  - intros (t & part & (parts & ? & ?)%listed & ? & ?). by exists t, parts, part.
  - intros (t & parts & part & ? & ? & ? & ?). exists t, part. split; [|done]. apply listed. by exists parts.
Qed.
Lemma entries_legal off topics es : Forall (λ x : bytes * list Z, legal_topic x.1) topics → (∀ t part o, off t part = Some o → in_int64 o) →
  (∀ k o, (k, o) ∈ es ↔ broker_entry off topics k o) → entries_ok es.
Proof.
  intros Ht Ho He. apply Forall_forall. intros [k o] Hin. apply He in Hin as (t & parts & part & Htp & _ & -> & Eo). cbn [fst snd].
  rewrite Forall_forall in Ht. destruct (Ht _ Htp) as (H1 & H2 & _). cbn [fst] in *. split; [|by eapply Ho].
  destruct (int_text_seps part) as [H3 H4]. split; rewrite not_elem_of_app, not_elem_of_cons; done.
Qed.
Lemma timestamp_tokens (bs : list ((bytes → Z → option Z) * list (bytes * list Z))) toks :
  Forall (λ b, Forall (λ x : bytes * list Z, legal_topic x.1) b.2 ∧ ∀ t part o, b.1 t part = Some o → in_int64 o) bs →
  Forall2 (λ b tok, timestamp_token b.1 b.2 = Some tok) bs toks →
  ∃ m, parse_token (brokers_token toks) = Some m ∧
    (∀ k o, m !! k = Some o → ∃ b, b ∈ bs ∧ broker_entry b.1 b.2 k o) ∧
    (∀ b k o, b ∈ bs → broker_entry b.1 b.2 k o → is_Some (m !! k)).
Proof.
  intros Hok H. assert (Hes : ∃ ess, toks = map (λ es, join_byte semicolon (map token_part es)) ess ∧ Forall entries_ok ess ∧
    ∀ k o, (k, o) ∈ concat ess ↔ ∃ b, b ∈ bs ∧ broker_entry b.1 b.2 k o).
  { induction H as [|b tok bs toks Hb H IH].
    - exists []. split; [done|]. split; [by apply Forall_nil|]. intros k o. split; [by intros ?%elem_of_nil|]. by intros (? & ?%elem_of_nil & _).
    - apply Forall_cons in Hok as [[Ht Ho] Hok]. destruct (IH Hok) as (ess & -> & He & Hspec).
      destruct (timestamp_token_spec _ _ _ Hb) as (es & -> & Hes). exists (es :: ess). split; [done|]. split.
      + constructor; [by eapply entries_legal|done].
      + intros k o. cbn [concat]. rewrite elem_of_app, Hes, Hspec. split.
        * intros [?|(b' & ? & ?)]; [exists b|exists b']; (split; [|done]); [left|by right].
        * intros (b' & [->|?]%elem_of_cons & ?); [by left|right; by exists b']. }
  destruct Hes as (ess & -> & He & Hspec). eexists. split; [by apply parse_brokers|]. split.
  - intros k o [Hin|E]%insert_all_elem; [by apply Hspec|]. by rewrite lookup_empty in E.
  - intros b k o Hb Hk. apply insert_all_some. left. apply elem_of_list_fmap. exists (k, o). split; [done|]. apply Hspec. by exists b.
Qed.
(** Names determine topic and partition *)
Lemma digits_no_colon d : x3a ∉ digits_text d.
Proof. induction d; cbn [digits_text]; rewrite ?not_elem_of_cons; try done. by apply not_elem_of_nil. Qed.
Lemma int_text_no_colon z : x3a ∉ int_text z.
Proof.
  destruct z as [|p|p]; cbn [int_text].
  - rewrite not_elem_of_cons. split; [done|]. apply not_elem_of_nil.
  - apply digits_no_colon.
  - rewrite not_elem_of_cons. split; [done|]. apply digits_no_colon.
Qed.
Lemma names_inj t part t' part' : legal_topic t → legal_topic t' → in_int64 part → in_int64 part' →
  t ++ x3a :: int_text part = t' ++ x3a :: int_text part' → t = t' ∧ part = part'.
Proof.
  intros (_ & _ & Ht) (_ & _ & Ht') Hp Hp' E. pose proof (f_equal (split_byte x3a) E) as Es.
  rewrite !split_join_cons, !split_no_sep in Es by (done || apply int_text_no_colon). injection Es as -> Ei. split; [done|].
  pose proof (f_equal atoi Ei) as Ea. rewrite !atoi_int_text in Ea by done. by injection Ea.
Qed.
Lemma timestamp_entry (bs : list ((bytes → Z → option Z) * list (bytes * list Z))) toks b t parts part o :
  Forall (λ b, Forall (λ x : bytes * list Z, legal_topic x.1 ∧ Forall in_int64 x.2) b.2 ∧ ∀ t part o, b.1 t part = Some o → in_int64 o) bs →
  Forall2 (λ b tok, timestamp_token b.1 b.2 = Some tok) bs toks →
  b ∈ bs → (t, parts) ∈ b.2 → part ∈ parts → b.1 t part = Some o →
  (∀ b' parts', b' ∈ bs → (t, parts') ∈ b'.2 → part ∈ parts' → b'.1 t part = Some o) →
  ∃ m, parse_token (brokers_token toks) = Some m ∧ m !! (t ++ x3a :: int_text part) = Some o.
Proof.
  intros Hok H Hb Ht Hp Ho Hu. destruct (timestamp_tokens bs toks) as (m & Hm & H1 & H2); [|done|].
  { eapply Forall_impl; [exact Hok|]. intros x [Hx ?]. split; [|done]. eapply Forall_impl; [exact Hx|]. by intros ? [? _]. }
  exists m. split; [done|]. destruct (H2 b (t ++ x3a :: int_text part) o Hb) as [o' Eo']; [by exists t, parts, part|].
  refine (eq_trans Eo' _). destruct (H1 _ _ Eo') as (b' & Hb' & t' & parts' & part' & Ht' & Hp' & E & Ho').
  assert (Hlegal : ∀ x y z, x ∈ bs → (y, z) ∈ x.2 → legal_topic y ∧ Forall in_int64 z).
  { intros x y z Hx Hy. rewrite Forall_forall in Hok. destruct (Hok x Hx) as [Hf _]. rewrite Forall_forall in Hf. exact (Hf _ Hy). }
  destruct (Hlegal _ _ _ Hb Ht) as [L1 F1], (Hlegal _ _ _ Hb' Ht') as [L2 F2]. rewrite Forall_forall in F1, F2.
  destruct (names_inj _ _ _ _ L1 L2 (F1 _ Hp) (F2 _ Hp') E) as [<- <-]. pose proof (Hu b' parts' Hb' Ht' Hp') as Hx. exact (eq_trans (eq_sym Ho') Hx).
Qed.
Lemma timestamp_no_skip p p' time ts o rb start get s : partition_ok p → partition_ok p' → later p p' → offset_for p time ts o → (0 ≤ rb)%Z →
  (rb ≤ o)%Z ∨ start ≠ zero_hash → start_partition (Some o) rb start get p' = Some s →
  ∀ q, held p' q → (ts ≤ time q)%Z → (s ≤ q)%Z.
Proof.
  unfold partition_ok, later, held. intros Hp Hp' Hl [(Ho & _ & Hmin)|[-> Hnone]] Hrb Hc Hs q Hq Hts.
  - destruct (start_never_skips o rb start get p' s) as [H _]; [done|done|unfold held in Ho; lia|done|done|]. apply H; [done|].
    destruct (decide (o ≤ q)%Z); [done|]. exfalso. specialize (Hmin q). unfold held in *. lia.
  - destruct Hc as [?|Hne]; [lia|]. unfold start_partition in Hs. rewrite (bool_decide_eq_true_2 (-1 < rb)%Z) in Hs by lia.
    rewrite (bool_decide_eq_false_2 (start = zero_hash)) in Hs by done. cbn in Hs. injection Hs as <-. lia.
Qed.
