(** Redundant Kafka producers: proofs for C73. *)
From Verif Require Import Base Lru LruFacts Types Avro AvroFacts Wire SpecWire GoPath Producer SpecBlock SpecProducer ProducerFacts3 Consumer SpecCollect
  Ordering SpecChain System SpecSystem SpecPublish PublishFacts Kafka SpecKafka KafkaFacts KafkaFacts2 Redundant SpecRedundant.

(** * The calls that reach the inner producer *)
Definition passed (kp : kproducer) (ev : kp_event) : list call :=
  match ev with
  | KAddBlock o _ _ a => if lru_contains (kp_recent kp) (ba_hash a) then [] else [CAdd o a]
  | KSendBatch ord _ id d u => [CSend ord id d u]
  | _ => []
  end.
Fixpoint inner (self : bytes) (kp : kproducer) (evs : list kp_event) : list call :=
  match evs with
  | [] => []
  | ev :: r => passed kp ev ++ match kp_step self kp ev with Ok kp' => inner self kp' r | _ => [] end
  end.
Lemma inner_app self kp e1 kp1 e2 : kp_run self kp e1 = Ok kp1 → inner self kp (e1 ++ e2) = inner self kp e1 ++ inner self kp1 e2.
Proof.
  revert kp. induction e1 as [|ev e1 IH]; intros kp H; [by injection H as ->|].
  unfold kp_run in H. cbn [foldM] in H. cbn [inner app]. destruct (kp_step self kp ev) as [kp2| |] eqn:E; try discriminate H.
  cbn [mbind outcome_bind] in H. by rewrite (IH _ H), app_assoc.
Qed.
Lemma inner_dp_step self kp ev kp' : kp_step self kp ev = Ok kp' → kp_dp kp' = calls (kp_dp kp) (passed kp ev).
Proof.
  intros H. destruct ev as [now key|o ids e a|ord e id d u|]; cbn [kp_step] in H.
  - unfold kp_feed in H. repeat case_match; try discriminate H; by injection H as <-.
  - injection H as <-. unfold kp_add, passed. destruct (lru_contains _ _); [done|]. cbn [calls foldl step].
    destruct (add_block _ _ _) as [dp [er|tm]]; [done|]. apply kp_emit_same.
  - injection H as <-. unfold kp_send. cbn [passed calls foldl step].
    destruct (send_batch _ _ _ _ _) as [dp [tm|]]; [|done]. apply kp_emit_same.
  - by injection H as <-.
Qed.
Lemma inner_dp self kp evs kp' : kp_run self kp evs = Ok kp' → kp_dp kp' = calls (kp_dp kp) (inner self kp evs).
Proof.
  revert kp. induction evs as [|ev evs IH]; intros kp H; [by injection H as ->|].
  unfold kp_run in H. cbn [foldM] in H. cbn [inner]. destruct (kp_step self kp ev) as [kp2| |] eqn:E; try discriminate H.
  cbn [mbind outcome_bind] in H. rewrite (IH _ H), (inner_dp_step _ _ _ _ E). unfold calls. by rewrite foldl_app.
Qed.
Lemma inner_from self kp evs x : x ∈ inner self kp evs →
  match x with
  | CAdd o a => ∃ ids e, KAddBlock o ids e a ∈ evs
  | CSend ord id d u => ∃ e, KSendBatch ord e id d u ∈ evs
  end.
Proof.
  revert kp. induction evs as [|ev evs IH]; intros kp H; [by apply elem_of_nil in H|]. cbn [inner] in H. apply elem_of_app in H as [H|H].
  - destruct ev as [now key|o ids e a|ord e id d u|]; cbn [passed] in H; try (by apply elem_of_nil in H).
    + destruct (lru_contains _ _); [by apply elem_of_nil in H|]. apply elem_of_list_singleton in H as ->. exists ids, e. left.
    + apply elem_of_list_singleton in H as ->. exists e. left.
  - destruct (kp_step self kp ev) as [kp'| |]; [|by apply elem_of_nil in H..]. apply IH in H.
    destruct x; [destruct H as (ids & e & H); exists ids, e|destruct H as (e & H); exists e]; by right.
Qed.
Lemma inner_sends self kp evs kp' ord e id d u : kp_run self kp evs = Ok kp' → KSendBatch ord e id d u ∈ evs → CSend ord id d u ∈ inner self kp evs.
Proof.
  revert kp. induction evs as [|ev evs IH]; intros kp H Hin; [by apply elem_of_nil in Hin|].
  unfold kp_run in H. cbn [foldM] in H. cbn [inner]. destruct (kp_step self kp ev) as [kp2| |] eqn:E; try discriminate H.
  cbn [mbind outcome_bind] in H. apply elem_of_app. apply elem_of_cons in Hin as [<-|Hin]; [left; cbn; left|right]. by apply IH.
Qed.
Lemma inner_split self kp evs kp' o a : kp_run self kp evs = Ok kp' → CAdd o a ∈ inner self kp evs →
  ∃ pre ids e post l1 l2, evs = pre ++ KAddBlock o ids e a :: post ∧ inner self kp evs = l1 ++ CAdd o a :: l2 ∧
    ∀ ord e id d u, KSendBatch ord e id d u ∈ post → CSend ord id d u ∈ l2.
Proof.
  revert kp. induction evs as [|ev evs IH]; intros kp H Hin; [by apply elem_of_nil in Hin|].
  unfold kp_run in H. cbn [foldM] in H. cbn [inner] in Hin |- *. destruct (kp_step self kp ev) as [kp2| |] eqn:E; try discriminate H.
  cbn [mbind outcome_bind] in H. apply elem_of_app in Hin as [Hin|Hin].
  - destruct ev as [now key|o' ids e a'|ord e id d u|]; cbn [passed] in Hin |- *; try (by apply elem_of_nil in Hin).
    + destruct (lru_contains _ _); [by apply elem_of_nil in Hin|]. apply elem_of_list_singleton in Hin as [= -> ->].
      exists [], ids, e, evs, [], (inner self kp2 evs). split; [done|]. split; [done|]. intros. by eapply inner_sends.
    + by apply elem_of_list_singleton in Hin.
  - destruct (IH _ H Hin) as (pre & ids & e & post & l1 & l2 & -> & El & Hs). exists (ev :: pre), ids, e, post, (passed kp ev ++ l1), l2.
    split; [done|]. split; [|done]. rewrite El. by rewrite <- app_assoc.
Qed.

(** * What is sent *)
Lemma published_none p m : ¬ published p [] m.
Proof. intros (pre & x & post & E & _). by destruct pre. Qed.
Lemma published_cons p x l m : published p (x :: l) m ↔ returned p x m ∨ published (step p x) l m.
Proof.
  split.
  - intros ([|y pre] & z & post & E & H); cbn in E; injection E as -> E; [by left|right]. by exists pre, z, post.
  - intros [H|(pre & y & post & -> & H)]; [by exists [], x, l|]. by exists (x :: pre), y, post.
Qed.
Lemma published_app p l l' m : published p (l ++ l') m ↔ published p l m ∨ published (calls p l) l' m.
Proof.
  revert p. induction l as [|x l IH]; intros p; cbn [app].
  - split; [by right|]. by intros [[]%published_none|?].
  - rewrite !published_cons, IH. cbn [calls foldl]. unfold calls. tauto.
Qed.
Lemma published_one p x m : published p [x] m ↔ returned p x m.
Proof. rewrite published_cons. split; [|by left]. by intros [?|[]%published_none]. Qed.
Lemma for_topic_elem l t m : m ∈ for_topic l t ↔ (t, m) ∈ l.
Proof.
  unfold for_topic. rewrite elem_of_list_fmap. split.
  - intros ([t' m'] & -> & [<- H]%elem_of_list_filter). done.
  - intros H. exists (t, m). split; [done|]. by apply elem_of_list_filter.
Qed.
(** What one emission sends was returned by the call, and without an error it is everything. *)
Lemma emit_sends kp dp e tm m : kemit_ok e →
  ((∃ t, (t, m) ∈ kp_sent (kp_emit kp dp e tm).1) → (∃ t, (t, m) ∈ kp_sent kp) ∨ ∃ t, m ∈ on_topic tm t) ∧
  ((∃ t, (t, m) ∈ kp_sent kp) → ∃ t, (t, m) ∈ kp_sent (kp_emit kp dp e tm).1) ∧
  (ke_stop e = None → (∃ t, m ∈ on_topic tm t) → ∃ t, (t, m) ∈ kp_sent (kp_emit kp dp e tm).1).
Proof.
  intros He. destruct (kp_emit_sent kp dp e tm He) as (s & r & Es & Ht & Hr). rewrite Es. split; [|split].
  - intros (t & [H|H]%elem_of_app); [left; eauto|right]. exists t. rewrite <- Ht. apply for_topic_elem, elem_of_app. by left.
  - intros (t & H). exists t. apply elem_of_app. by left.
  - intros Hs (t & H). exists t. apply elem_of_app. right. rewrite <- Ht in H. destruct Hr as [[_ ->]|(_ & _ & Hn)]; [|done].
    rewrite app_nil_r in H. by apply for_topic_elem in H.
Qed.
Lemma step_sends self kp ev kp' m : kp_event_ok ev → kp_step self kp ev = Ok kp' →
  ((∃ t, (t, m) ∈ kp_sent kp') → (∃ t, (t, m) ∈ kp_sent kp) ∨ published (kp_dp kp) (passed kp ev) m) ∧
  ((∃ t, (t, m) ∈ kp_sent kp) → ∃ t, (t, m) ∈ kp_sent kp') ∧
  (match ev with KAddBlock _ _ e _ | KSendBatch _ e _ _ _ => ke_stop e = None | _ => True end →
   published (kp_dp kp) (passed kp ev) m → ∃ t, (t, m) ∈ kp_sent kp').
Proof.
  intros Hok H. destruct ev as [now key|o ids e a|ord e id d u|]; cbn [kp_step] in H.
  - assert (E : kp_sent kp' = kp_sent kp). { unfold kp_feed in H. repeat case_match; try discriminate H; by injection H as <-. }
    rewrite E. split; [by left|]. split; [done|]. intros _ []%published_none.
  - injection H as <-. destruct Hok as (_ & _ & He). unfold kp_add, passed. destruct (lru_contains _ _).
    { split; [by left|]. split; [done|]. intros _ []%published_none. }
    rewrite published_one. unfold returned. destruct (add_block _ _ _) as [dp [er|tm]] eqn:E.
    { split; [by left|]. split; [done|]. intros _ (t & tm & _ & [=]). }
    destruct (emit_sends kp dp e tm m He) as (A1 & A2 & A3). split; [|split; [done|]].
    + intros [G|[t G]]%A1; [by left|right]. by exists t, tm.
    + intros Hs (t & tm' & G & [= <-]). apply A3; [done|]. by exists t.
  - injection H as <-. destruct Hok as (_ & He). unfold kp_send, passed. rewrite published_one. unfold returned.
    destruct (send_batch _ _ _ _ _) as [dp [tm|]] eqn:E.
    2: { split; [by left|]. split; [done|]. intros _ (t & tm & _ & [=]). }
    destruct (emit_sends kp dp e tm m He) as (A1 & A2 & A3). split; [|split; [done|]].
    + intros [G|[t G]]%A1; [by left|right]. by exists t, tm.
    + intros Hs (t & tm' & G & [= <-]). apply A3; [done|]. by exists t.
  - injection H as <-. split; [by left|]. split; [done|]. intros _ []%published_none.
Qed.
Lemma run_sends self kp evs kp' m : Forall kp_event_ok evs → kp_run self kp evs = Ok kp' → kp_sent kp = [] →
  (∃ t, (t, m) ∈ kp_sent kp') → published (kp_dp kp) (inner self kp evs) m.
Proof.
  intros Hok H H0. revert kp' Hok H. induction evs as [|ev evs IH] using rev_ind; intros kp' Hok H Hs.
  { injection H as <-. rewrite H0 in Hs. destruct Hs as [t []%elem_of_nil]. }
  apply kp_run_app in H as (kp1 & H1 & H2). apply Forall_app in Hok as [Hok Hev]. apply (proj1 (Forall_singleton _ _)) in Hev.
  rewrite (inner_app _ _ _ _ _ H1). apply published_app. unfold kp_run in H2. cbn [foldM] in H2. cbn [inner].
  destruct (kp_step self kp1 ev) as [kp2| |] eqn:E; try discriminate H2. injection H2 as ->. rewrite app_nil_r.
  destruct (step_sends _ _ _ _ m Hev E) as (A & _ & _). destruct (A Hs) as [G|G]; [left; by eapply IH|right].
  by rewrite <- (inner_dp _ _ _ _ H1).
Qed.
Lemma run_keeps self kp evs kp' m : Forall kp_event_ok evs → kp_run self kp evs = Ok kp' → (∃ t, (t, m) ∈ kp_sent kp) → ∃ t, (t, m) ∈ kp_sent kp'.
Proof.
  revert kp. induction evs as [|ev evs IH]; intros kp Hok H Hs; [by injection H as <-|]. apply Forall_cons in Hok as [Hev Hok].
  unfold kp_run in H. cbn [foldM] in H. destruct (kp_step self kp ev) as [kp2| |] eqn:E; try discriminate H.
  apply (IH _ Hok H). destruct (step_sends _ _ _ _ m Hev E) as (_ & A & _). by apply A.
Qed.
(** A message returned by a call is sent, unless the emission of that call failed. *)
Lemma run_sent self kp evs kp' pre x post m : Forall kp_event_ok evs → kp_run self kp evs = Ok kp' →
  inner self kp evs = pre ++ x :: post → returned (calls (kp_dp kp) pre) x m →
  (match x with
   | CAdd o a => ∀ ids e, KAddBlock o ids e a ∈ evs → ke_stop e = None
   | CSend ord id d u => ∀ e, KSendBatch ord e id d u ∈ evs → ke_stop e = None
   end) → ∃ t, (t, m) ∈ kp_sent kp'.
Proof.
  revert kp pre. induction evs as [|ev evs IH]; intros kp pre Hok H El Hret Hn; [by destruct pre|]. apply Forall_cons in Hok as [Hev Hok].
  unfold kp_run in H. cbn [foldM] in H. cbn [inner] in El. destruct (kp_step self kp ev) as [kp2| |] eqn:E; try discriminate H.
  cbn [mbind outcome_bind] in H. assert (Ed := inner_dp_step _ _ _ _ E).
  assert (Hcase : (pre = [] ∧ passed kp ev = [x]) ∨ ∃ pre2, pre = passed kp ev ++ pre2 ∧ inner self kp2 evs = pre2 ++ x :: post).
  { assert (Hl : passed kp ev = [] ∨ ∃ y, passed kp ev = [y]).
    { destruct ev; cbn; try (by left); [destruct (lru_contains _ _); [by left|]|]; right; eauto. }
    destruct Hl as [Hl|[y Hl]]; rewrite Hl in *; [right; by exists pre|]. destruct pre as [|z pre]; cbn in El; injection El as -> El; [by left|].
    right. by exists pre. }
  destruct Hcase as [[-> Hp]|(pre2 & -> & El2)].
  - eapply run_keeps; [done|exact H|]. destruct (step_sends _ _ _ _ m Hev E) as (_ & _ & A). apply A; [|rewrite Hp; by apply published_one].
    destruct ev as [now key|o ids e a|ord e id d u|]; cbn [passed] in Hp; try done.
    + destruct (lru_contains _ _); [done|]. injection Hp as <-. eapply Hn. left.
    + injection Hp as <-. eapply Hn. left.
  - eapply (IH kp2 pre2); [done|done|done| |].
    + rewrite Ed. unfold calls in *. by rewrite <- foldl_app.
    + destruct x; intros; eapply Hn; right; eauto.
Qed.

(** * The producers together *)
Definition traced (mt : bytes → option bytes) (p : rproducer) (dp : producer) : Prop :=
  kp_run (rp_self p) (kp_new dp) (rp_evs p) = Ok (rp_kp p) ∧ p_pending dp = ∅ ∧ ∀ k, prefix_of_key dp k = mt k.
Definition calls_of (p : rproducer) (dp : producer) : list call := inner (rp_self p) (kp_new dp) (rp_evs p).
Record rinv (mt : bytes → option bytes) (ps : list rproducer) : Prop := {
  ri_traced : ∀ p, p ∈ ps → ∃ dp, traced mt p dp;
  ri_read : ∀ p now key, p ∈ ps → KFeed now key ∈ rp_evs p → head key = Some BatchType → ∃ m, on_feed ps m ∧ pm_key m = key;
}.
Lemma rinv_start mt ps : Forall (fresh mt) ps → rinv mt ps.
Proof.
  intros H. rewrite Forall_forall in H. split.
  - intros p Hp. destruct (H p Hp) as (Ee & dp & Ek & Hd). exists dp. unfold traced. by rewrite Ee, Ek.
  - intros p now key Hp Hin. destruct (H p Hp) as (Ee & _). rewrite Ee in Hin. by apply elem_of_nil in Hin.
Qed.
Definition legal (p : rproducer) : Prop := Forall kp_event_ok (rp_evs p).
Lemma step_keeps ps i p ev kp m : ps !! i = Some p → kp_event_ok ev → kp_step (rp_self p) (rp_kp p) ev = Ok kp →
  on_feed ps m → on_feed (<[i := RP (rp_self p) (rp_evs p ++ [ev]) kp]> ps) m.
Proof.
  intros Hi Hev E (q & t & [j Hj]%elem_of_list_lookup & Hs). destruct (decide (i = j)) as [<-|Hn].
  - rewrite Hi in Hj. injection Hj as <-. destruct (step_sends _ _ _ _ m Hev E) as (_ & A & _). destruct A as [t' Ht]; [eauto|].
    exists (RP (rp_self p) (rp_evs p ++ [ev]) kp), t'. split; [|done]. apply elem_of_list_lookup. exists i.
    apply list_lookup_insert. by eapply lookup_lt_Some.
  - exists q, t. split; [|done]. apply elem_of_list_lookup. exists j. by rewrite list_lookup_insert_ne.
Qed.
Lemma rinv_step mt ps ps' : rinv mt ps → r_step ps ps' → Forall legal ps' → rinv mt ps'.
Proof.
  intros [I1 I2] Hs. destruct Hs as [ps i p ev kp Hi Hrd E]. intros Hleg.
  assert (Hlt : i < length ps) by (by eapply lookup_lt_Some).
  assert (Hp : p ∈ ps) by (by eapply elem_of_list_lookup_2).
  set (p' := RP _ _ _) in *.
  assert (Hp' : p' ∈ <[i := p']> ps). { apply elem_of_list_lookup. exists i. by apply list_lookup_insert. }
  assert (Hev : kp_event_ok ev).
  { rewrite Forall_forall in Hleg. specialize (Hleg _ Hp'). unfold legal, p' in Hleg. cbn in Hleg. apply Forall_app in Hleg as [_ Hleg]. by apply (proj1 (Forall_singleton _ _)) in Hleg. }
  assert (Hin : ∀ q, q ∈ <[i := p']> ps → q = p' ∨ q ∈ ps).
  { intros q [j Hj]%elem_of_list_lookup. destruct (decide (i = j)) as [<-|Hn].
    - rewrite list_lookup_insert in Hj by done. injection Hj as <-. by left.
    - rewrite list_lookup_insert_ne in Hj by done. right. by eapply elem_of_list_lookup_2. }
  split.
  - intros q [->|Hq]%Hin; [|by apply I1]. destruct (I1 p Hp) as (dp & Ht & Hd). exists dp. unfold traced, p'. cbn. split; [|exact Hd].
    unfold kp_run in *. rewrite foldM_app, Ht. cbn [mbind outcome_bind foldM]. by rewrite E.
  - assert (Hk : ∀ m, on_feed ps m → on_feed (<[i := p']> ps) m) by (intros; by apply step_keeps).
    intros q now key [->|Hq]%Hin Hf Hh.
    + unfold p' in Hf. cbn in Hf. apply elem_of_app in Hf as [Hf|Hf%elem_of_list_singleton].
      * destruct (I2 p now key Hp Hf Hh) as (m & Hm & Ek). exists m. split; [by apply Hk|done].
      * subst ev. destruct Hrd as [(m & Hm & Ek)|Hn]; [|done]. exists m. split; [by apply Hk|done].
    + destruct (I2 q now key Hq Hf Hh) as (m & Hm & Ek). exists m. split; [by apply Hk|done].
Qed.
(** Events are only appended. *)
Lemma step_legal ps ps' : r_step ps ps' → Forall legal ps' → Forall legal ps.
Proof.
  intros [ps1 i p ev kp Hi _ _] H. apply Forall_lookup. intros j q Hj. destruct (decide (i = j)) as [<-|Hn].
  - rewrite Hi in Hj. injection Hj as <-. assert (Hlt : i < length ps1) by (by eapply lookup_lt_Some).
    assert (G := list_lookup_insert ps1 i (RP (rp_self p) (rp_evs p ++ [ev]) kp) Hlt).
    apply (proj1 (Forall_lookup _ _) H) in G. unfold legal in *. cbn in G. by apply Forall_app in G as [? _].
  - apply (proj1 (Forall_lookup _ _) H j). by rewrite list_lookup_insert_ne.
Qed.
Lemma rinv_run mt ps0 ps : Forall (fresh mt) ps0 → r_run ps0 ps → Forall legal ps → rinv mt ps.
Proof.
  intros H0 Hr. assert (I0 := rinv_start _ _ H0). clear H0. induction Hr as [|ps0 ps1 ps2 Hs Hr IH]; [done|]. intros Hl.
  apply IH; [|done]. eapply rinv_step; [done|done|]. clear -Hr Hl. induction Hr; [done|]. by eapply step_legal; eauto.
Qed.

Section redundant.
  Context (mt : bytes → option bytes) (bs : list block) (ps : list rproducer).
  Context (Hwf : ∀ b, b ∈ bs → wf_block mt b) (Hnd : NoDup (map bk_hash bs)).
  Context (Hinv : rinv mt ps) (Hleg : Forall legal ps) (Honly : ∀ p, p ∈ ps → given_only bs p).

  Lemma traced_replica p dp : p ∈ ps → traced mt p dp → replica mt bs (dp, calls_of p dp).
  Proof.
    intros Hp (Ht & Hd1 & Hd2). split; [done|]. split; [done|]. cbn [snd]. unfold calls_of.
    assert (Hl := proj1 (Forall_forall _ _) Hleg p Hp). unfold legal in Hl.
    rewrite Forall_forall in Hl. destruct (Honly p Hp) as [O1 O2]. split.
    - apply Forall_forall. intros x Hx%inner_from. destruct x as [o a|ord id d u].
      + destruct Hx as (ids & e & Hx). exact (proj1 (Hl _ Hx)).
      + destruct Hx as (e & Hx). exact (proj1 (Hl _ Hx)).
    - split.
      + intros o a (ids & e & Hx)%inner_from. by eapply O1.
      + intros ord id d u (e & Hx)%inner_from. by eapply O2.
  Qed.
  Lemma feed_published m : on_feed ps m → ∃ p, p ∈ ps ∧ ∀ dp, traced mt p dp → published dp (calls_of p dp) m.
  Proof.
    intros (p & t & Hp & Hm). exists p. split; [done|]. intros dp (Ht & _).
    assert (Hl := proj1 (Forall_forall _ _) Hleg p Hp). unfold legal in Hl.
    apply (run_sends _ (kp_new dp) _ (rp_kp p) m Hl Ht); [done|eauto].
  Qed.
  Lemma feed_sent m : on_feed ps m → ∃ b kd, b ∈ bs ∧ pm_key m = key_of kd ∧ sent mt b kd (pm_val m).
  Proof.
    intros (p & Hp & Hm)%feed_published. destruct (ri_traced _ _ Hinv p Hp) as [dp Ht].
    eapply published_sent; [done|by eapply traced_replica|by apply Hm].
  Qed.
  Lemma hash_same b b' : b ∈ bs → b' ∈ bs → bk_hash b = bk_hash b' → b = b'.
  Proof.
    intros [i Hi]%elem_of_list_lookup [j Hj]%elem_of_list_lookup E.
    assert (i = j); [|congruence]. eapply (NoDup_lookup (map bk_hash bs)); [done| |]; rewrite list_lookup_fmap; [by rewrite Hi|].
    rewrite Hj. cbn. by rewrite E.
  Qed.
  Lemma about_hash b b' kd v : b ∈ bs → b' ∈ bs → sent mt b' kd v → take 32 (drop 1 (key_of kd)) = hash_bytes (bk_hash b) → b' = b.
  Proof.
    intros Hb Hb' Hs E. destruct (key_about mt b' kd _ (wf_hash _ _ (Hwf b' Hb')) Hs) as (_ & _ & A). rewrite A in E.
    apply hash_same; [done|done|]. apply (f_equal bytes_hash) in E. rewrite !bytes_hash_bytes in E; [done|by apply (wf_hash mt), Hwf..].
  Qed.
  (** A block given to somebody was passed on by somebody. *)
  Lemma somebody_added b : b ∈ bs → (∃ p, p ∈ ps ∧ given b p) → ∃ p, p ∈ ps ∧ ∀ dp, traced mt p dp → ∃ o, CAdd o (bk_args b) ∈ calls_of p dp.
  Proof.
    intros Hb (p & Hp & o & ids & e & Hg). destruct (ri_traced _ _ Hinv p Hp) as (dp0 & Ht0).
    apply elem_of_list_split in Hg as (pre & post & Eg).
    assert (Hrun : ∀ dp, traced mt p dp → ∃ kp1, kp_run (rp_self p) (kp_new dp) pre = Ok kp1).
    { intros dp (Ht & _). rewrite Eg in Ht. apply kp_run_app in Ht as (kp1 & H1 & _). eauto. }
    destruct (decide (Exists (λ k, bytes_hash (take 32 (drop 1 k)) = bk_hash b) (block_keys pre))) as [Hx|Hx].
    - apply Exists_exists in Hx as (k & Hk & Eh). unfold block_keys in Hk. apply elem_of_list_filter in Hk as [Hh Hk].
      apply elem_of_list_fmap in Hk as ([now k'] & -> & Hk). cbn [snd] in *. unfold feed_of in Hk.
      apply elem_of_list_omap in Hk as (ev & Hev & Eev). destruct ev as [now' key| | |]; try done. injection Eev as -> ->.
      destruct (ri_read _ _ Hinv p now k' Hp) as (m & Hm & Ek); [|done|].
      { rewrite Eg. apply elem_of_app. by left. }
      destruct (feed_published m Hm) as (p2 & Hp2 & Hpub). exists p2. split; [done|]. intros dp2 Ht2.
      destruct (published_by mt bs Hwf _ _ (traced_replica _ _ Hp2 Ht2) m (Hpub _ Ht2)) as (_ & _ & _ & b' & kd & o2 & _ & _ & Hb' & Ekd & Hs & Hadd & _).
      exists o2. destruct (key_about mt b' kd _ (wf_hash _ _ (Hwf b' Hb')) Hs) as (_ & _ & A).
      rewrite <- Ekd, Ek in A. rewrite A, bytes_hash_bytes in Eh by (apply (wf_hash mt); by apply Hwf).
      apply hash_same in Eh; [|done|done]. by subst b'.
    - exists p. split; [done|]. intros dp Ht. destruct (Hrun dp Ht) as [kp1 H1]. exists o.
      unfold calls_of. rewrite Eg, (inner_app _ _ _ _ _ H1). apply elem_of_app. right. cbn [inner passed].
      assert (Ec := recent_seen_from _ _ _ _ (bk_hash b) (eq_refl : lru_contains (kp_recent (kp_new dp)) _ = false) H1).
      unfold bk_hash in *. rewrite Ec; [left|]. intros k Hk Eh. apply Hx, Exists_exists. eauto.
  Qed.
  Lemma somebody_submits b : b ∈ bs → (∃ p, p ∈ ps ∧ given b p) → (∀ p, p ∈ ps → finished b p ∧ unfailed b p) →
    ∃ p, p ∈ ps ∧ ∀ dp, traced mt p dp → submits b (calls_of p dp) ∧
      ∀ m, published dp (calls_of p dp) m → take 32 (drop 1 (pm_key m)) = hash_bytes (bk_hash b) → on_feed ps m.
  Proof.
    intros Hb Hg Hall. destruct (somebody_added b Hb Hg) as (p & Hp & Hadd). exists p. split; [done|]. intros dp Ht.
    destruct (Hadd dp Ht) as [o Ho]. destruct (Hall p Hp) as [Hf [Hu1 Hu2]]. assert (Hrep := traced_replica _ _ Hp Ht).
    destruct Ht as (Ht & Ht'). split.
    - destruct (inner_split _ _ _ _ _ _ Ht Ho) as (pre & ids & e & post & l1 & l2 & Eevs & El & Hsend).
      exists l1, o, l2. split; [done|]. intros id Hid. destruct (Hf _ _ _ _ _ Eevs id Hid) as (ord & e' & d & u & Hin).
      exists ord, d, u. by eapply Hsend.
    - intros m Hm Ek. destruct (published_by mt bs Hwf _ _ Hrep m Hm) as (pre & x & post & b' & kd & o2 & El & Hret & Hb' & Ekd & Hs & _ & Hx).
      rewrite Ekd in Ek. apply (about_hash b) in Hs; [|done..]. subst b'.
      assert (Hl := proj1 (Forall_forall _ _) Hleg p Hp). unfold legal in Hl.
      destruct (run_sent _ _ _ _ _ _ _ m Hl Ht El Hret) as [t Hsent].
      + destruct x as [o' a|ord id d u]; [subst a; intros ids e; apply Hu1|]. intros e He. by eapply Hu2.
      + by exists p, t.
  Qed.
  Lemma complete tr b kd : (∀ b b' id, b ∈ bs → b' ∈ bs → announced b id → announced b' id → b' = b) → b ∈ bs → (∃ p, p ∈ ps ∧ given b p) →
    (∀ p, p ∈ ps → finished b p ∧ unfailed b p) → needed mt b tr kd → ∃ m, on_feed ps m ∧ pm_key m = key_of kd.
  Proof.
    intros Hu Hb Hg Hall Hn. destruct (somebody_submits b Hb Hg Hall) as (p & Hp & H). destruct (ri_traced _ _ Hinv p Hp) as [dp Ht].
    destruct (H dp Ht) as [Hs Hf]. destruct (submitted_published mt bs Hwf _ _ (traced_replica _ _ Hp Ht) tr b Hb) with (kd := kd) as (m & Hm & Ek); [|done|done|].
    { intros b' id Hb'. by apply Hu. }
    exists m. split; [|done]. apply Hf; [done|]. rewrite Ek. assert (L := hash_bytes_length (bk_hash b)). unfold bk_hash in *.
    destruct Hn; cbn [key_of]; unfold get_key; cbn [concat drop]; rewrite skipn_O; by apply take_app_alt.
  Qed.
  (** The producers seen as the replicas of C44. *)
  Lemma as_replicas : ∃ rs, (∀ r, r ∈ rs → replica mt bs r) ∧ (∀ m, on_feed ps m → ∃ r, r ∈ rs ∧ published r.1 r.2 m) ∧
    ∀ b ms, b ∈ bs → (∃ p, p ∈ ps ∧ given b p) → (∀ p, p ∈ ps → finished b p ∧ unfailed b p) →
      (∀ m, on_feed ps m → ∃ m', m' ∈ ms ∧ m_key m' = pm_key m) → arrived rs ms b.
  Proof.
    assert (H : ∃ rs : list (producer * list call), Forall2 (λ p r, traced mt p r.1 ∧ r.2 = calls_of p r.1) ps rs).
    { assert (G := ri_traced _ _ Hinv). clear -G. induction ps as [|p l IH]; [by exists []|].
      destruct IH as [rs Hrs]. { intros q Hq. apply G. by right. }
      destruct (G p) as [dp Hdp]; [left|]. exists ((dp, calls_of p dp) :: rs). by constructor. }
    destruct H as [rs Hrs]. exists rs.
    assert (Hfind : ∀ p, p ∈ ps → ∃ r, r ∈ rs ∧ traced mt p r.1 ∧ r.2 = calls_of p r.1).
    { intros p [i Hi]%elem_of_list_lookup. destruct (Forall2_lookup_l _ _ _ _ _ Hrs Hi) as (r & Hr & A). exists r. split; [by eapply elem_of_list_lookup_2|done]. }
    split; [|split].
    - intros r [i Hi]%elem_of_list_lookup. destruct (Forall2_lookup_r _ _ _ _ _ Hrs Hi) as (p & Hp & A1 & A2). destruct r as [dp l]. cbn in *. subst l.
      apply traced_replica; [by eapply elem_of_list_lookup_2|done].
    - intros m (p & Hp & Hm)%feed_published. destruct (Hfind p Hp) as ([dp l] & Hr & A1 & A2). cbn in *. subst l. exists (dp, calls_of p dp). split; [done|]. by apply Hm.
    - intros b ms Hb Hg Hall Hms. destruct (somebody_submits b Hb Hg Hall) as (p & Hp & H). destruct (Hfind p Hp) as ([dp l] & Hr & A1 & A2). cbn in *. subst l.
      exists (dp, calls_of p dp). split; [done|]. destruct (H dp A1) as [B1 B2]. split; [done|]. intros m Hm Ek. by apply Hms, B2.
  Qed.
End redundant.

(** * The theorems *)
Lemma redundant_published mt bs ps0 ps :
  (∀ b, b ∈ bs → wf_block mt b) → NoDup (map bk_hash bs) → (∀ b b' id, b ∈ bs → b' ∈ bs → announced b id → announced b' id → b' = b) →
  Forall (fresh mt) ps0 → r_run ps0 ps → (∀ p, p ∈ ps → Forall kp_event_ok (rp_evs p) ∧ given_only bs p) →
  (∀ m, on_feed ps m → ∃ b kd, b ∈ bs ∧ pm_key m = key_of kd ∧ sent mt b kd (pm_val m)) ∧
  ∀ b, b ∈ bs → (∃ p, p ∈ ps ∧ given b p) → (∀ p, p ∈ ps → finished b p ∧ unfailed b p) →
    ∀ tr kd, needed mt b tr kd → ∃ m, on_feed ps m ∧ pm_key m = key_of kd.
Proof.
  intros Hwf Hnd Hu H0 Hr Hp. assert (Hl : Forall legal ps). { apply Forall_forall. intros p Hin. by apply Hp. }
  assert (Ho : ∀ p, p ∈ ps → given_only bs p) by (intros p Hin; by apply Hp). assert (Hi := rinv_run _ _ _ H0 Hr Hl). split.
  - by eapply feed_sent.
  - intros b Hb Hg Hall tr kd Hn. by eapply complete.
Qed.
Lemma redundant_end_to_end mt base num w old new c cfg y ps0 ps :
  let bs := old ++ new in
  chain_from base num w bs → NoDup (base :: map bk_hash bs) → (∀ b, b ∈ bs → wf_block mt b) →
  (∀ b b' id, b ∈ bs → b' ∈ bs → announced b id → announced b' id → b' = b) →
  cfg_last_hash cfg = end_hash base old → cfg_last_weight cfg = end_weight w old → cfg_last_hash cfg ≠ zero_hash →
  (∀ b, b ∈ bs → (0 ≤ ba_num (bk_args b))%Z ∧
     ∀ h, cfg_whitelist cfg !! ba_num (bk_args b) = Some h → h = bk_hash b) →
  Forall (fresh mt) ps0 → r_run ps0 ps → (∀ p, p ∈ ps → Forall kp_event_ok (rp_evs p) ∧ given_only bs p) →
  sys_run c cfg y → (∀ m, m ∈ messages (y_ins y) → on_feed ps (PMsg (m_key m) (m_val m)) ∧ sized (length (m_val m))) →
  all_removed (o_out (y_omp y)) = [] ∧
  (∃ k, Forall2 (λ b pb, exact mt b (mc_tracked c) pb) (take k new) (all_added (o_out (y_omp y)))) ∧
  ((∀ b, b ∈ new → (∃ p, p ∈ ps ∧ given b p) ∧ ∀ p, p ∈ ps → finished b p ∧ unfailed b p) →
   (∀ m, on_feed ps m → ∃ m', m' ∈ messages (y_ins y) ∧ m_key m' = pm_key m) →
   batches_of (y_taken y) = sent_batches (mp_out (y_mp y)) →
   Forall2 (λ b pb, exact mt b (mc_tracked c) pb) new (all_added (o_out (y_omp y)))).
Proof.
  intros bs Hc Hnd Hwf Hu Hl Hw Hz Hwl H0 Hr Hp Hrun Hms.
  assert (Hleg : Forall legal ps). { apply Forall_forall. intros p Hin. by apply Hp. }
  assert (Ho : ∀ p, p ∈ ps → given_only bs p) by (intros p Hin; by apply Hp). assert (Hi := rinv_run _ _ _ H0 Hr Hleg).
  assert (Hnd' : NoDup (map bk_hash bs)) by (by apply NoDup_cons in Hnd as [_ ?]).
  destruct (as_replicas mt bs ps Hwf Hnd' Hi Hleg Ho) as (rs & R1 & R2 & R3).
  destruct (end_to_end_published mt base num w old new c cfg y rs Hc Hnd Hwf Hu Hl Hw Hz Hwl R1 Hrun) as (A1 & A2 & A3).
  { intros m Hm. destruct (Hms m Hm) as [(r & Hr' & Hpub)%R2 Hsz]. by exists r. }
  split; [done|]. split; [done|]. intros Hall Hdel Ht. apply A3; [|done]. intros b Hb. destruct (Hall b Hb) as [G1 G2].
  apply R3; [|done..]. apply elem_of_app. by right.
Qed.
Lemma redundant_live mt bs ps0 ps p ev :
  (∀ b, b ∈ bs → wf_block mt b) → NoDup (map bk_hash bs) →
  Forall (fresh mt) ps0 → r_run ps0 ps → (∀ p, p ∈ ps → Forall kp_event_ok (rp_evs p) ∧ given_only bs p) →
  p ∈ ps → readable ps ev → ∃ kp, kp_step (rp_self p) (rp_kp p) ev = Ok kp.
Proof.
  intros Hwf Hnd H0 Hr Hp Hin Hrd. assert (Hleg : Forall legal ps). { apply Forall_forall. intros q Hq. by apply Hp. }
  assert (Ho : ∀ p, p ∈ ps → given_only bs p) by (intros q Hq; by apply Hp). assert (Hi := rinv_run _ _ _ H0 Hr Hleg).
  destruct ev as [now key| | |]; try (eexists; reflexivity). cbn [kp_step readable] in *. unfold kp_feed. destruct key as [|t r]; [eauto|].
  case_bool_decide as Ht; [|repeat case_bool_decide; eauto]. subst t. case_bool_decide as Hlen; [|eauto]. exfalso.
  destruct Hrd as [(m & Hm & Ek)|Hn]; [|done].
  destruct (feed_sent mt bs ps Hwf Hi Hleg Ho m Hm) as (b & kd & Hb & Ekd & Hs).
  destruct (key_about mt b kd _ (wf_hash _ _ (Hwf b Hb)) Hs) as (A & _ & _). rewrite <- Ekd, Ek in A. clear -A Hlen. cbn [length] in A, Hlen. unfold bytes in *. lia.
Qed.
