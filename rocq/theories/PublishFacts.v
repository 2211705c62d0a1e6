(** C44: from the calls of the producers to the updates of the consumer. *)
From Verif Require Import Base Lru LruFacts Types Avro AvroFacts Wire SpecWire WireFacts GoPath Producer SpecBlock SpecProducer ProducerFacts ProducerFacts2
  ProducerFacts3 ProducerFacts4 Consumer ConsumerBase ConsumerFacts SpecCollect CollectFacts CollectFacts2 Ordering SpecChain System SpecSystem
  SystemFacts SystemFacts2 SpecPublish.

(** * Keys *)
Lemma key_about mt b kd v : hash_ok (bk_hash b) → sent mt b kd v →
  33 ≤ length (key_of kd) ∧ head (key_of kd) ≠ Some ReorgType ∧ take 32 (drop 1 (key_of kd)) = hash_bytes (bk_hash b).
Proof.
  intros Hh Hs. assert (L := hash_bytes_length (bk_hash b)).
  assert (H : ∀ t r, 33 ≤ length (t :: hash_bytes (bk_hash b) ++ r) ∧
    take 32 (drop 1 (t :: hash_bytes (bk_hash b) ++ r)) = hash_bytes (bk_hash b)).
  { intros t r. cbn [length drop]. rewrite app_length, L. split; [lia|]. rewrite skipn_O. by apply take_app_alt. }
  destruct Hs; cbn [key_of]; unfold get_key; cbn [concat];
    match goal with |- context [?t :: ?l] => match l with hash_bytes _ ++ ?r => destruct (H t r) as [A1 A2]; split; [exact A1|]; split; [done|exact A2] end end.
Qed.

Lemma sent_same mt mt' b kd v : (∀ k, mt k = mt' k) → sent mt b kd v → sent mt' b kd v.
Proof.
  intros E Hs. destruct Hs as [x es Hx Hes|k v p Hk Hm|k v p Hk Hm|id Hid|id i pt es Hid Hi Hes].
  - apply SentHeader; [by eapply header_same|done].
  - eapply SentUpdate; [done|]. by rewrite <- E.
  - eapply SentDelete; [done|]. by rewrite <- E.
  - by apply SentSubHead.
  - by eapply SentSubMsg.
Qed.
Lemma wf_same mt mt' b : (∀ k, mt k = mt' k) → refused mt (bk_args b) → refused mt' (bk_args b).
Proof.
  intros E [H|(k & H)]; [by left|right]. exists k. unfold inline in *.
  destruct H as [(A & B & C)|[(A & x & B & C)|((A & B) & x & C & D)]].
  - left. rewrite <- E. done.
  - right; left. split; [done|]. exists x. rewrite <- E. done.
  - right; right. rewrite <- E. split; [done|]. exists x. rewrite <- E. done.
Qed.
Lemma count_one mt b x k : mt x = Some k → x ∈ dom (ba_updates (bk_args b)) ∨ x ∈ ba_deletes (bk_args b) → count_of mt b k ≠ 0.
Proof.
  intros Hm Hx. unfold count_of. destruct Hx as [Hx|Hx].
  - assert (H : size (filter (λ k0, mt k0 = Some k) (dom (ba_updates (bk_args b)))) ≠ 0); [|lia].
    apply size_non_empty_iff. intros E. apply (not_elem_of_empty (C := gset bytes) x). rewrite <- E. by apply elem_of_filter.
  - assert (H : size (filter (λ k0, mt k0 = Some k) (ba_deletes (bk_args b))) ≠ 0); [|lia].
    apply size_non_empty_iff. intros E. apply (not_elem_of_empty (C := gset bytes) x). rewrite <- E. by apply elem_of_filter.
Qed.
Lemma wf_accepted mt b : wf_block mt b → ¬ refused mt (bk_args b).
Proof.
  intros Hwf [(k & Hk)|(k & H)].
  - eapply (wf_nonzero _ _ Hwf); [by exists k|done].
  - destruct H as [(A & B & C)|[(A & x & B & C)|((A & B) & x & C & D)]].
    + apply elem_of_dom in A as [id A]. by apply (wf_roles1 _ _ Hwf _ _ A) in C.
    + apply elem_of_dom in A as [id A]. destruct (wf_roles1 _ _ Hwf _ _ A) as [_ E]. by eapply count_one.
    + eapply count_one; [exact C|exact D|]. by apply (wf_roles2 _ _ Hwf).
Qed.

(** * One replica *)
Section replica.
  Context (mt : bytes → option bytes) (bs : list block) (Hwf : ∀ b, b ∈ bs → wf_block mt b).
  Context (p : producer) (l : list call) (Hr : replica mt bs (p, l)).

  Lemma calls_snoc q l' x : calls q (l' ++ [x]) = step (calls q l') x.
  Proof. unfold calls. by rewrite foldl_app. Qed.
  Lemma routed pre : Forall call_ok pre → ∀ k, prefix_of_key (calls p pre) k = mt k.
  Proof.
    intros Hok k. destruct (calls_fixed p pre Hok) as [E _]. rewrite (route_ext _ _ E). apply Hr.
  Qed.
  Lemma pending_from pre post : l = pre ++ post → ∀ id t h, p_pending (calls p pre) !! id = Some (t, h) →
    ∃ b o, b ∈ bs ∧ announced b id ∧ h = bk_hash b ∧ CAdd o (bk_args b) ∈ pre.
  Proof.
    revert post. induction pre as [|x pre IH] using rev_ind; intros post El id t h Hp.
    { cbn in Hp. destruct Hr as (E & _). cbn in E. by rewrite E, lookup_empty in Hp. }
    rewrite <- app_assoc in El.
    assert (IH' : ∀ id t h, p_pending (calls p pre) !! id = Some (t, h) →
      ∃ b o, b ∈ bs ∧ announced b id ∧ h = bk_hash b ∧ CAdd o (bk_args b) ∈ pre ++ [x]).
    { intros id' t' h' H. destruct (IH _ El id' t' h' H) as (b & o & A1 & A2 & A3 & A4). exists b, o. repeat (split; [done|]).
      apply elem_of_app. by left. }
    clear IH. rename IH' into IH.
    destruct Hr as (_ & _ & Hok & Hs1 & _). cbn [fst snd] in *. rewrite El in Hok. apply Forall_app in Hok as [_ Hok].
    apply Forall_cons in Hok as [Hx _]. rewrite calls_snoc in Hp. set (q := calls p pre) in *.
    destruct x as [o a|ord id' d u]; cbn [step] in Hp.
    - destruct (Hs1 o a) as (b & Hb & ->). { rewrite El. apply elem_of_app. right. left. }
      cbn in Hx. destruct (decide (id ∈ (map_to_list (ba_batches (bk_args b))).*2)) as [Hin|Hin].
      + assert (Hann : announced b id).
        { apply elem_of_list_fmap in Hin as ([k i] & -> & Hin%elem_of_map_to_list). by exists k. }
        destruct (add_cases q o (bk_args b) Hx) as [(p' & tm & E & Hrf)|(p' & e & E & Hrf)].
        * destruct (add_ok q o (bk_args b) Hx p' tm E) as (_ & _ & _ & _ & _ & G2). destruct (G2 id Hann) as (k & _ & Ek).
          rewrite E in Hp. cbn in Hp. rewrite Ek in Hp. injection Hp as <- <-. exists b, o. repeat (split; [done|]). apply elem_of_app. right. left.
        * exfalso. eapply (wf_accepted mt b); [by apply Hwf|]. eapply wf_same; [|exact Hrf]. apply routed.
          destruct Hr as (_ & _ & Hok' & _). cbn in Hok'. rewrite El in Hok'. by apply Forall_app in Hok' as [? _].
      + assert (Hann : ¬ announces (bk_args b) id).
        { intros [k Hk]. apply Hin, elem_of_list_fmap. exists (k, id). split; [done|]. by apply elem_of_map_to_list. }
        apply (IH id t h). destruct (add_block q o (bk_args b)) as [p' [e|tm]] eqn:E; cbn in Hp.
        * destruct (add_err q o (bk_args b) Hx p' e E) as (_ & _ & _ & G). by rewrite <- G.
        * destruct (add_ok q o (bk_args b) Hx p' tm E) as (_ & _ & _ & _ & G & _). by rewrite <- G.
    - apply (IH id t h). unfold send_batch in Hp. destruct (p_pending q !! id') as [[]|]; [|done]. cbn in Hp.
      by apply lookup_delete_Some in Hp as [_ ?].
  Qed.

  (** Everything published is a message of one of the blocks, returned by a call about it, after the block was added. *)
  Lemma published_by m : published p l m → ∃ pre x post b kd o, l = pre ++ x :: post ∧ returned (calls p pre) x m ∧
    b ∈ bs ∧ pm_key m = key_of kd ∧ sent mt b kd (pm_val m) ∧ CAdd o (bk_args b) ∈ l ∧
    match x with CAdd _ a => a = bk_args b | CSend _ id _ _ => announced b id end.
  Proof.
    intros (pre & x & post & El & Hret). exists pre, x, post. assert (Hret' := Hret). destruct Hret as (t & tm & Hm & Hx).
    assert (Hok : Forall call_ok pre ∧ call_ok x).
    { destruct Hr as (_ & _ & Hok & _). cbn in Hok. rewrite El in Hok. apply Forall_app in Hok as [? Hok]. by apply Forall_cons in Hok as [? _]. }
    destruct Hok as [Hpre Hcx]. destruct Hr as (_ & _ & _ & Hs1 & Hs2). cbn [fst snd] in *.
    destruct x as [o a|ord id d u].
    - assert (Hin : CAdd o a ∈ l). { rewrite El. apply elem_of_app. right. left. }
      destruct (Hs1 o a Hin) as (b & Hb & ->).
      destruct (add_block (calls p pre) o (bk_args b)) as [p' r] eqn:E. cbn in Hx. subst r.
      destruct (add_sent _ _ _ _ _ Hcx E) as [G _]. destruct (G t m Hm) as (kd & Ek & Hs). exists b, kd, o.
      split; [done|]. split; [done|]. split; [done|]. split; [done|].
      split; [|by split]. eapply sent_same; [|exact Hs]. by apply routed.
    - destruct (send_batch (calls p pre) ord id d u) as [p' r] eqn:E. cbn in Hx. subst r.
      destruct (send_ok _ _ _ _ _ _ _ Hcx E) as (t0 & h & ps & Hp & _).
      destruct (pending_from pre _ El id t0 h Hp) as (b & o & Hb & Hann & -> & Hadd).
      assert (Hps : is_parts d u (bk_parts b id)). { eapply Hs2; [|done|done]. rewrite El. apply elem_of_app. right. left. }
      destruct (send_sent mt _ _ _ _ _ _ _ _ _ Hcx Hp Hann Hps E) as [G _]. destruct (G t m Hm) as (kd & Ek & Hs).
      exists b, kd, o. repeat (split; [done|]). split; [|done]. rewrite El. apply elem_of_app. by left.
  Qed.
  Lemma published_sent m : published p l m → ∃ b kd, b ∈ bs ∧ pm_key m = key_of kd ∧ sent mt b kd (pm_val m).
  Proof. intros (_ & _ & _ & b & kd & _ & _ & _ & Hb & Ek & Hs & _)%published_by. by exists b, kd. Qed.

  (** A pending sub-batch of an accepted block waits until it is sent. *)
  Lemma keeps_pending b id pre mid post : b ∈ bs → (∀ b', b' ∈ bs → announced b' id → b' = b) → l = pre ++ mid ++ post →
    (∀ ord d u, CSend ord id d u ∉ mid) → (∃ t, p_pending (calls p pre) !! id = Some (t, bk_hash b)) →
    ∃ t, p_pending (calls p (pre ++ mid)) !! id = Some (t, bk_hash b).
  Proof.
    intros Hb Hu. revert post. induction mid as [|x mid IH] using rev_ind; intros post El Hns Hp.
    { by rewrite app_nil_r. }
    rewrite <- app_assoc in El. cbn in El.
    destruct (IH _ El) as [t Ht]. { intros ord d u Hin. apply (Hns ord d u). apply elem_of_app. by left. } { done. }
    rewrite app_assoc, calls_snoc. set (q := calls p (pre ++ mid)) in *.
    assert (Hok : Forall call_ok (pre ++ mid) ∧ call_ok x).
    { destruct Hr as (_ & _ & Hok & _). cbn in Hok. rewrite El, app_assoc in Hok. apply Forall_app in Hok as [? Hok]. by apply Forall_cons in Hok as [? _]. }
    destruct Hok as [Hpre Hcx]. destruct Hr as (_ & _ & _ & Hs1 & _). cbn [fst snd] in *.
    destruct x as [o a|ord id' d u]; cbn [step].
    - destruct (Hs1 o a) as (b' & Hb' & ->). { rewrite El. apply elem_of_app. right. apply elem_of_app. right. left. }
      destruct (add_block q o (bk_args b')) as [p' [e|tm]] eqn:E; cbn [fst].
      + exfalso. eapply (wf_accepted mt b'); [by apply Hwf|]. eapply wf_same; [apply (routed _ Hpre)|].
        destruct (add_cases q o (bk_args b') Hcx) as [(? & ? & E' & _)|(? & ? & E' & Hrf)]; [congruence|exact Hrf].
      + destruct (add_ok q o (bk_args b') Hcx p' tm E) as (_ & _ & _ & _ & G1 & G2).
        destruct (decide (id ∈ (map_to_list (ba_batches (bk_args b'))).*2)) as [Hin|Hin].
        * assert (Hann : announced b' id).
          { apply elem_of_list_fmap in Hin as ([k i] & -> & Hin%elem_of_map_to_list). by exists k. }
          destruct (G2 id Hann) as (k & _ & ->). rewrite (Hu b' Hb' Hann). eauto.
        * rewrite G1; [eauto|]. intros [k Hk]. apply Hin, elem_of_list_fmap. exists (k, id). split; [done|]. by apply elem_of_map_to_list.
    - assert (Hne : id' ≠ id).
      { intros ->. apply (Hns ord d u). apply elem_of_app. right. by apply elem_of_list_singleton. }
      unfold send_batch. destruct (p_pending q !! id') as [[]|]; cbn; [rewrite lookup_delete_ne by done|]; eauto.
  Qed.

  Lemma first_send id post : (∃ ord d u, CSend ord id d u ∈ post) →
    ∃ mid ord d u rest, post = mid ++ CSend ord id d u :: rest ∧ ∀ ord d u, CSend ord id d u ∉ mid.
  Proof.
    induction post as [|x post IH]; intros (ord & d & u & Hin); [by apply elem_of_nil in Hin|].
    destruct x as [o a|ord' id' d' u'].
    - apply elem_of_cons in Hin as [|Hin]; [done|]. destruct IH as (mid & ord1 & d1 & u1 & rest & -> & Hn); [eauto|].
      exists (CAdd o a :: mid), ord1, d1, u1, rest. split; [done|]. intros ? ? ? [?|H]%elem_of_cons; [done|]. by eapply Hn.
    - destruct (decide (id' = id)) as [->|Hne].
      + exists [], ord', d', u', post. split; [done|]. by intros ? ? ? ?%elem_of_nil.
      + apply elem_of_cons in Hin as [[= -> -> -> ->]|Hin]; [done|].
        destruct IH as (mid & ord1 & d1 & u1 & rest & -> & Hn); [eauto|].
        exists (CSend ord' id' d' u' :: mid), ord1, d1, u1, rest. split; [done|].
        intros ? ? ? [[= -> -> -> ->]|H]%elem_of_cons; [done|]. by eapply Hn.
  Qed.

  (** Everything a consumer needs of a submitted block is published. *)
  Lemma submitted_published tr b : b ∈ bs → (∀ b' id, b' ∈ bs → announced b id → announced b' id → b' = b) → submits b l →
    ∀ kd, needed mt b tr kd → ∃ m, published p l m ∧ pm_key m = key_of kd.
  Proof.
    intros Hb Hu (pre & o & post & El & Hsub) kd Hn.
    assert (Hok : Forall call_ok pre ∧ aorder_ok o ∧ Forall call_ok post).
    { destruct Hr as (_ & _ & Hok & _). cbn in Hok. rewrite El in Hok. apply Forall_app in Hok as [? Hok]. by apply Forall_cons in Hok as [? ?]. }
    destruct Hok as (Hpre & Ho & Hpost). set (q := calls p pre).
    destruct (add_cases q o (bk_args b) Ho) as [(p' & tm & E & _)|(p' & e & _ & Hrf)].
    2: { exfalso. eapply (wf_accepted mt b); [by apply Hwf|]. eapply wf_same; [|exact Hrf]. by apply routed. }
    destruct (add_sent _ _ _ _ _ Ho E) as [_ G].
    assert (Hdir : ∀ v, sent mt b kd v → match kd with KSubHead _ _ | KSubMsg _ _ _ => False | _ => True end →
      ∃ m, published p l m ∧ pm_key m = key_of kd).
    { intros v Hv Hk. assert (Hq : sent (prefix_of_key q) b kd v).
      { eapply sent_same; [|exact Hv]. intros k. symmetry. by apply routed. }
      specialize (G kd v Hq). assert (∃ t m, m ∈ on_topic tm t ∧ pm_key m = key_of kd) as (t & m & Hm & Ek) by (by destruct kd).
      exists m. split; [|done]. exists pre, (CAdd o (bk_args b)), post. split; [done|]. exists t, tm. split; [done|]. fold q. by rewrite E. }
    assert (Hids : ∀ id, announced b id → (∃ m, published p l m ∧ pm_key m = key_of (KSubHead (ba_hash (bk_args b)) id)) ∧
      ∀ i, i < length (bk_parts b id) → ∃ m, published p l m ∧ pm_key m = key_of (KSubMsg (ba_hash (bk_args b)) id (Z.of_nat i))).
    { intros id Hid. destruct (first_send id post (Hsub id Hid)) as (mid & ord & d & u & rest & -> & Hns).
      destruct (keeps_pending b id (pre ++ [CAdd o (bk_args b)]) mid (CSend ord id d u :: rest)) as [t Ht]; [done| | |done| |].
      { intros b' Hb' Ha. by eapply Hu. }
      { by rewrite <- app_assoc. }
      { rewrite calls_snoc. cbn [step]. fold q. rewrite E. cbn [fst].
        destruct (add_ok q o (bk_args b) Ho p' tm E) as (_ & _ & _ & _ & _ & G2). destruct (G2 id Hid) as (k & _ & ->). eauto. }
      assert (Hcx : ∀ l, ord l ≡ₚ l). { apply Forall_app in Hpost as [_ Hp2]. by apply Forall_cons in Hp2 as [? _]. }
      assert (Hps : is_parts d u (bk_parts b id)).
      { destruct Hr as (_ & _ & _ & _ & Hs2). cbn [snd] in Hs2. eapply Hs2; [|done|done]. rewrite El.
        apply elem_of_app. right. right. apply elem_of_app. right. left. }
      set (q' := calls p ((pre ++ [CAdd o (bk_args b)]) ++ mid)) in *.
      destruct (send_batch q' ord id d u) as [p2 [tm2|]] eqn:E2.
      2: { apply send_none in E2 as [_ E2]. congruence. }
      destruct (send_sent mt _ _ _ _ _ _ _ _ _ Hcx Ht Hid Hps E2) as (_ & (m & Hm & Ek) & G2).
      assert (Hpub : ∀ m t', m ∈ on_topic tm2 t' → published p l m).
      { intros m' t' Hm'. exists ((pre ++ [CAdd o (bk_args b)]) ++ mid), (CSend ord id d u), rest.
        split; [rewrite El, <- !app_assoc; done|]. exists t', tm2. split; [done|]. fold q'. by rewrite E2. }
      split; [exists m; split; [by eapply Hpub|done]|].
      intros i Hi. destruct (G2 i Hi) as (m' & Hm' & Ek'). exists m'. split; [by eapply Hpub|done]. }
    destruct Hn as [|k y Hk Hm Ht|k y Hk Hm Ht|id (x & Hx & Ht)|id i (x & Hx & Ht) Hi].
    - destruct (add_sends q o _ _ _ Ho E) as (x & es & Hx & Hes & _).
      apply (Hdir (encode_batch x es)); [|done]. apply SentHeader; [|done].
      assert (Hx' : is_header (prefix_of_key q) b x).
      { clear -Hx. destruct b as [a ps]. by apply (header_block _ _ ps) in Hx. }
      eapply header_same; [|exact Hx']. by apply routed.
    - apply elem_of_dom in Hk as [v Hk]. apply (Hdir v); [|done]. by eapply SentUpdate.
    - apply (Hdir []); [|done]. by eapply SentDelete.
    - apply Hids. by exists x.
    - apply Hids; [by exists x|done].
  Qed.
End replica.

(** * All replicas *)
Lemma copies_only mt bs rs ms : (∀ b, b ∈ bs → wf_block mt b) → (∀ r, r ∈ rs → replica mt bs r) → (∀ m, m ∈ ms → copies rs m) →
  only_from mt bs ms.
Proof.
  intros Hwf Hrs Hms m Hm. destruct (Hms m Hm) as ([p l] & Hr & Hp & Hsz).
  destruct (published_sent mt bs Hwf p l (Hrs _ Hr) _ Hp) as (b & kd & Hb & Ek & Hs). cbn [pm_key pm_val] in *.
  destruct (key_about mt b kd _ (wf_hash _ _ (Hwf b Hb)) Hs) as (A1 & A2 & A3). rewrite <- Ek in A1, A2, A3.
  split; [done|]. split; [done|]. exists b. split; [done|]. split; [by split|]. left. by exists kd.
Qed.
Lemma arrived_needed mt bs rs ms tr b : (∀ b, b ∈ bs → wf_block mt b) → (∀ r, r ∈ rs → replica mt bs r) → b ∈ bs →
  (∀ b' id, b' ∈ bs → announced b id → announced b' id → b' = b) → arrived rs ms b →
  ∀ kd, needed mt b tr kd → delivered ms kd.
Proof.
  intros Hwf Hrs Hb Hu ([p l] & Hr & Hsub & Harr) kd Hn.
  destruct (submitted_published mt bs Hwf p l (Hrs _ Hr) tr b Hb Hu Hsub kd Hn) as (m & Hp & Ek).
  destruct (published_sent mt bs Hwf p l (Hrs _ Hr) m Hp) as (b' & kd' & Hb' & Ek' & Hs').
  destruct (Harr m Hp) as (m' & Hm' & E).
  - rewrite Ek. assert (L := hash_bytes_length (bk_hash b)). unfold bk_hash in *.
    destruct Hn; cbn [key_of]; unfold get_key; cbn [concat drop]; rewrite skipn_O; by apply take_app_alt.
  - exists m'. split; [done|]. congruence.
Qed.

Lemma end_to_end_published mt base num w old new c cfg y rs :
  let bs := old ++ new in
  chain_from base num w bs → NoDup (base :: map bk_hash bs) → (∀ b, b ∈ bs → wf_block mt b) →
  (∀ b b' id, b ∈ bs → b' ∈ bs → announced b id → announced b' id → b' = b) →
  cfg_last_hash cfg = end_hash base old → cfg_last_weight cfg = end_weight w old → cfg_last_hash cfg ≠ zero_hash →
  (∀ b, b ∈ bs → (0 ≤ ba_num (bk_args b))%Z ∧
     ∀ h, cfg_whitelist cfg !! ba_num (bk_args b) = Some h → h = bk_hash b) →
  (∀ r, r ∈ rs → replica mt bs r) →
  sys_run c cfg y → (∀ m, m ∈ messages (y_ins y) → copies rs m) →
  all_removed (o_out (y_omp y)) = [] ∧
  (∃ k, Forall2 (λ b pb, exact mt b (mc_tracked c) pb) (take k new) (all_added (o_out (y_omp y)))) ∧
  ((∀ b, b ∈ new → arrived rs (messages (y_ins y)) b) →
   batches_of (y_taken y) = sent_batches (mp_out (y_mp y)) →
   Forall2 (λ b pb, exact mt b (mc_tracked c) pb) new (all_added (o_out (y_omp y)))).
Proof.
  intros bs Hc Hnd Hwf Hu Hl Hw Hz Hwl Hrs Hrun Hms.
  assert (Hof := copies_only mt bs rs _ Hwf Hrs Hms).
  destruct (end_to_end mt base num w old new c cfg Hc Hnd Hwf Hl Hw Hz Hwl y Hrun Hof) as (A1 & A2 & A3).
  split; [done|]. split; [done|]. intros Harr Hd. apply A3; [|done]. intros b kd Hb Hn.
  assert (Hb' : b ∈ bs) by (apply elem_of_app; by right).
  eapply (arrived_needed mt bs rs); [done|done|done| |by apply Harr|done]. intros b' id Hb2. by apply Hu.
Qed.
