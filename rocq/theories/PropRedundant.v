(** C73: redundant Kafka producers. *)
From Coq Require Import Strings.String.
From Verif Require Import Base Lru LruFacts Types Avro Wire SpecWire GoPath Producer SpecBlock SpecProducer Consumer SpecCollect
  Ordering SpecChain System SpecSystem SpecPublish Kafka SpecKafka Redundant SpecRedundant RedundantFacts
  ExampleBlock ExampleProducer ExampleSystem ExampleRestart.

(** C73.  Any number of Kafka producers fed with blocks of a chain in any order, each dropping blocks it has seen on the feed,
    reading the feed whenever it likes, with any failures of the broker: only messages of these blocks get onto the feed.  If
    some producer was given a block, and every producer that was given it was also given its sub-batches, without failures,
    then everything a consumer needs of the block is on the feed, no matter who skipped what. *)
Theorem C73_published : ∀ mt bs ps0 ps,
  (∀ b, b ∈ bs → wf_block mt b) → NoDup (map bk_hash bs) → (∀ b b' id, b ∈ bs → b' ∈ bs → announced b id → announced b' id → b' = b) →
  Forall (fresh mt) ps0 → r_run ps0 ps → (∀ p, p ∈ ps → Forall kp_event_ok (rp_evs p) ∧ given_only bs p) →
  (∀ m, on_feed ps m → ∃ b kd, b ∈ bs ∧ pm_key m = key_of kd ∧ sent mt b kd (pm_val m)) ∧
  ∀ b, b ∈ bs → (∃ p, p ∈ ps ∧ given b p) → (∀ p, p ∈ ps → finished b p ∧ unfailed b p) →
    ∀ tr kd, needed mt b tr kd → ∃ m, on_feed ps m ∧ pm_key m = key_of kd.
Proof. exact redundant_published. Qed.
Print Assumptions C73_published.

(** C73.  A consumer that is delivered copies of messages from their feed, in any order and any number of times, removes nothing
    and adds the first blocks of [new] with exactly the data submitted; once everything on the feed was delivered and taken, it has added all of
    them, provided each was given to somebody and finished by all who were given it. *)
Theorem C73_end_to_end : ∀ mt base num w old new c cfg y ps0 ps,
  let bs := old ++ new in
  chain_from base num w bs → NoDup (base :: map bk_hash bs) → (∀ b, b ∈ bs → wf_block mt b) →
  (∀ b b' id, b ∈ bs → b' ∈ bs → announced b id → announced b' id → b' = b) →
  cfg_last_hash cfg = end_hash base old → cfg_last_weight cfg = end_weight w old → cfg_last_hash cfg ≠ zero_hash →
  (∀ b, b ∈ bs → (0 ≤ ba_num (bk_args b))%Z ∧
     ∀ h, cfg_whitelist cfg !! ba_num (bk_args b) = Some h → h = bk_hash b) →
  Forall (fresh mt) ps0 → r_run ps0 ps → (∀ p, p ∈ ps → Forall kp_event_ok (rp_evs p) ∧ given_only bs p) →
  sys_run c cfg y → (∀ m, m ∈ messages (y_ins y) → on_feed ps (PMsg (m_key m) (m_val m)) ∧ sized (length (m_val m))) →
  all_removed (o_out (y_omp y)) = [] ∧
  (∃ k, Forall2 (λ b pb, exact mt b (mc_tracked c) pb) (take k new) (all_added (o_out (y_omp y)))) ∧
  ((∀ b, b ∈ new → (∃ p, p ∈ ps ∧ given b p) ∧ ∀ p, p ∈ ps → finished b p ∧ unfailed b p) →
   (∀ m, on_feed ps m → ∃ m', m' ∈ messages (y_ins y) ∧ m_key m' = pm_key m) →
   batches_of (y_taken y) = sent_batches (mp_out (y_mp y)) →
   Forall2 (λ b pb, exact mt b (mc_tracked c) pb) new (all_added (o_out (y_omp y)))).
Proof. exact redundant_end_to_end. Qed.
Print Assumptions C73_end_to_end.

(** C73.  Nothing the producers write makes one of them crash when it reads it. *)
Theorem C73_never_fails : ∀ mt bs ps0 ps p ev,
  (∀ b, b ∈ bs → wf_block mt b) → NoDup (map bk_hash bs) →
  Forall (fresh mt) ps0 → r_run ps0 ps → (∀ p, p ∈ ps → Forall kp_event_ok (rp_evs p) ∧ given_only bs p) →
  p ∈ ps → readable ps ev → ∃ kp, kp_step (rp_self p) (rp_kp p) ev = Ok kp.
Proof. exact redundant_live. Qed.
Print Assumptions C73_never_fails.

(** * Runs of the model *)
Definition all_sent (ps : list rproducer) : list pmsg := mjoin ((λ p, (kp_sent (rp_kp p)).*2) <$> ps).
Lemma all_sent_feed ps m : m ∈ all_sent ps ↔ on_feed ps m.
Proof.
  unfold all_sent, on_feed. rewrite elem_of_list_join. split.
  - intros (l & Hm & Hl). apply elem_of_list_fmap in Hl as (p & -> & Hp). apply elem_of_list_fmap in Hm as ([t m'] & -> & Hm). eauto.
  - intros (p & t & Hp & Hm). exists (kp_sent (rp_kp p)).*2. split; apply elem_of_list_fmap; [by exists (t, m)|by exists p].
Qed.
Definition can_read (ps : list rproducer) (ev : kp_event) : bool :=
  match ev with
  | KFeed _ key => bool_decide (key ∈ pm_key <$> all_sent ps) || bool_decide (head key ≠ Some BatchType)
  | _ => true
  end.
Fixpoint r_exec (ps : list rproducer) (l : list (nat * kp_event)) : option (list rproducer) :=
  match l with
  | [] => Some ps
  | (i, ev) :: r =>
    match ps !! i with
    | Some p => if can_read ps ev then
        match kp_step (rp_self p) (rp_kp p) ev with Ok kp => r_exec (<[i := RP (rp_self p) (rp_evs p ++ [ev]) kp]> ps) r | _ => None end
      else None
    | None => None
    end
  end.
Lemma can_read_readable ps ev : can_read ps ev = true → readable ps ev.
Proof.
  destruct ev; cbn; try done. intros [H|H]%orb_true_iff; apply bool_decide_eq_true_1 in H; [left|by right].
  apply elem_of_list_fmap in H as (m & -> & Hm). exists m. split; [by apply all_sent_feed|done].
Qed.
Lemma r_exec_run ps l ps' : r_exec ps l = Some ps' → r_run ps ps'.
Proof.
  revert ps. induction l as [|[i ev] l IH]; intros ps H; cbn [r_exec] in H; [injection H as <-; apply rtc_refl|].
  destruct (ps !! i) as [p|] eqn:E1; [|done]. destruct (can_read ps ev) eqn:E2; [|done].
  destruct (kp_step _ _ ev) as [kp| |] eqn:E3; try done. eapply rtc_l; [|by apply IH]. apply RStep; [done|by apply can_read_readable|done].
Qed.
Lemma r_exec_with {A} (f : list rproducer → A) (a : A) ps l : f <$> r_exec ps l = Some a → ∃ ps', r_run ps ps' ∧ f ps' = a.
Proof. intros H. destruct (r_exec ps l) as [ps'|] eqn:E; [|discriminate H]. exists ps'. injection H as H. split; [by eapply r_exec_run|exact H]. Qed.

(** The first producer publishes the first block; the second reads its header and skips it, and publishes the second block; then
    the first is given the sub-batch and, not having read the feed, publishes the second block too. *)
Definition rd_emit : kemit := KE reverse None.
Definition rd_add (b : block) : kp_event := KAddBlock rev_aorder reverse rd_emit (bk_args b).
Definition rd_send : kp_event := KSendBatch id rd_emit 9 [str "x/d"%string] sx_up.
Definition rd_start : list rproducer := [RP [x01] [] (kp_new sx_prod); RP [x02] [] (kp_new sx_prod)].
Definition rd_acts : list (nat * kp_event) :=
  [(0, rd_add sx_b1); (1, KFeed 1 (PingType :: [x01])); (1, KFeed 1 (key_of (KBatch 1))); (1, rd_add sx_b1); (1, rd_send); (1, rd_add sx_b2);
   (0, rd_send); (0, rd_add sx_b2); (0, KFeed 2 (key_of (KBatch 3)))].
Definition rd_evs0 : list kp_event := [rd_add sx_b1; rd_send; rd_add sx_b2; KFeed 2 (key_of (KBatch 3))].
Definition rd_evs1 : list kp_event := [KFeed 1 (PingType :: [x01]); KFeed 1 (key_of (KBatch 1)); rd_add sx_b1; rd_send; rd_add sx_b2].
Definition rd_msgs (ps : list rproducer) : list msg :=
  imap (λ i m, Msg (pm_key m) (pm_val m) (str "t"%string) (Z.of_nat i)) (reverse (all_sent ps) ++ all_sent ps).

Lemma rd_fresh : Forall (fresh ex_mt) rd_start.
Proof.
  repeat (apply Forall_cons; split); [| |by apply Forall_nil]; (split; [done|]; exists sx_prod; split; [done|]; split; [done|]; exact sx_prefix).
Qed.
Lemma rd_order ev : ev ∈ rd_evs0 ++ rd_evs1 → kp_event_ok ev.
Proof.
  assert (A : ∀ b, kp_event_ok (rd_add b)).
  { intros b. split; [exact rev_aorder_ok|]. split; [intros l; apply reverse_Permutation|]. intros l. apply reverse_Permutation. }
  assert (B : kp_event_ok rd_send). { split; [by intros l|]. intros l. apply reverse_Permutation. }
  intros H. repeat (apply elem_of_cons in H as [->|H]; [first [apply A|exact B|exact I]|]). by apply elem_of_nil in H.
Qed.
Lemma rd_only p bs : rp_evs p ⊆ rd_evs0 ++ rd_evs1 → bs = [sx_b1] ∧ rp_evs p ⊆ [rd_add sx_b1; rd_send; KFeed 1 (key_of (KBatch 1))] ∨ bs = [sx_b1; sx_b2] →
  given_only bs p.
Proof.
  intros Hs Hbs. assert (A1 : sx_b1 ∈ bs) by (destruct Hbs as [[-> _]| ->]; left). split.
  - intros o ids e a Hin. assert (H := Hs _ Hin).
    assert (G : a = bk_args sx_b1 ∨ (a = bk_args sx_b2 ∧ sx_b2 ∈ bs)).
    { destruct Hbs as [[-> H']| ->].
      - specialize (H' _ Hin). left. repeat (apply elem_of_cons in H' as [H'|H']; [try discriminate H'; by injection H' as _ _ _ ->|]). by apply elem_of_nil in H'.
      - repeat (apply elem_of_cons in H as [H|H]; [try discriminate H; injection H as _ _ _ ->; (by left) || (right; split; [done|right; left])|]). by apply elem_of_nil in H. }
    destruct G as [->|[-> ?]]; eauto.
  - intros ord e i d u Hin%Hs b Hb Hann.
    assert (G : d = [str "x/d"%string] ∧ u = sx_up ∧ i = 9%N).
    { repeat (apply elem_of_cons in Hin as [Hin|Hin]; [try discriminate Hin; by injection Hin as _ _ -> -> ->|]). by apply elem_of_nil in Hin. }
    destruct G as (-> & -> & ->). assert (Hb' : b = sx_b1 ∨ b = sx_b2).
    { destruct Hbs as [[-> _]| ->]; [by apply elem_of_list_singleton in Hb as ->; left|]. apply elem_of_cons in Hb as [->|Hb]; [by left|].
      apply elem_of_list_singleton in Hb as ->. by right. }
    destruct Hb' as [->| ->]; [exact sx_is_parts|by apply sx_ann2 in Hann].
Qed.
Lemma rd_unfailed p b : rp_evs p ⊆ rd_evs0 ++ rd_evs1 → unfailed b p.
Proof.
  intros Hs. split.
  - intros o ids e H%Hs. repeat (apply elem_of_cons in H as [H|H]; [try discriminate H; by injection H as _ _ -> _|]). by apply elem_of_nil in H.
  - intros ord e i d u H%Hs _. repeat (apply elem_of_cons in H as [H|H]; [try discriminate H; by injection H as _ -> _ _ _|]). by apply elem_of_nil in H.
Qed.
Lemma rd_args : bk_args sx_b2 ≠ bk_args sx_b1.
Proof. intros H. apply (f_equal ba_hash) in H. discriminate H. Qed.
(** The sub-batch after every attempt to add the first block. *)
Lemma rd_after b p l1 l2 : rp_evs p = l1 ++ rd_send :: l2 → (∀ o ids e, KAddBlock o ids e (bk_args sx_b1) ∉ l2) → b ∈ [sx_b1; sx_b2] → finished b p.
Proof.
  intros He Hl Hb pre o ids e post E i Hi.
  assert (Hb1 : b = sx_b1). { apply elem_of_cons in Hb as [->|Hb]; [done|]. apply elem_of_list_singleton in Hb as ->. by apply sx_ann2 in Hi. }
  subst b. apply sx_ann1 in Hi as ->. exists id, rd_emit, [str "x/d"%string], sx_up. fold rd_send.
  rewrite He in E. apply app_eq_inv in E as [(k & E1 & E2)|(k & E1 & E2)].
  - destruct k as [|z k]; [discriminate E2|]. injection E2 as _ ->. apply elem_of_app. right. left.
  - destruct k as [|z k]; [discriminate E2|]. injection E2 as _ ->. destruct (Hl o ids e). apply elem_of_app. right. left.
Qed.
Lemma rd_finished p b : rp_evs p = rd_evs0 ∨ rp_evs p = rd_evs1 → b ∈ [sx_b1; sx_b2] → finished b p.
Proof.
  intros [He|He] Hb.
  - apply (rd_after b p [rd_add sx_b1] [rd_add sx_b2; KFeed 2 (key_of (KBatch 3))]); [exact He| |exact Hb].
    intros o ids e [H|[H|H%elem_of_nil]%elem_of_cons]%elem_of_cons; done.
  - apply (rd_after b p [KFeed 1 (PingType :: [x01]); KFeed 1 (key_of (KBatch 1)); rd_add sx_b1] [rd_add sx_b2]); [exact He| |exact Hb].
    intros o ids e H%elem_of_list_singleton. injection H as _ _ _ H. by apply rd_args.
Qed.

Definition rd_facts (ps : list rproducer) : list (list kp_event) * list nat * bool * bool :=
  (rp_evs <$> ps, map (λ p, length (kp_sent (rp_kp p))) ps, forallb (λ x, (length (pm_val x) <=? 1000)%nat) (all_sent ps),
   match seq_run ex_all sx_cfg (rd_msgs ps) with Ok (_, s, _) => bool_decide (map pb_hash (all_added (o_out s)) = [1; 3]%N) | _ => false end).
Lemma rd_ran : ∃ ps, r_run rd_start ps ∧ rd_facts ps = ([rd_evs0; rd_evs1], [9; 2], true, true).
Proof. apply (r_exec_with rd_facts _ rd_start rd_acts). vm_compute. reflexivity. Qed.

Example C73_case : let new := [sx_b1; sx_b2] in
  chain_from 2 6 4 ([] ++ new) ∧ NoDup (2%N :: map bk_hash ([] ++ new)) ∧ (∀ b, b ∈ [] ++ new → wf_block ex_mt b) ∧
  (∀ b b' id, b ∈ [] ++ new → b' ∈ [] ++ new → announced b id → announced b' id → b' = b) ∧
  (∀ b, b ∈ [] ++ new → (0 ≤ ba_num (bk_args b))%Z ∧
     ∀ h, cfg_whitelist sx_cfg !! ba_num (bk_args b) = Some h → h = bk_hash b) ∧
  Forall (fresh ex_mt) rd_start ∧
  ∃ ps y, r_run rd_start ps ∧ (∀ p, p ∈ ps → Forall kp_event_ok (rp_evs p) ∧ given_only ([] ++ new) p) ∧
    (∀ b, b ∈ new → (∃ p, p ∈ ps ∧ given b p) ∧ ∀ p, p ∈ ps → finished b p ∧ unfailed b p) ∧
    map (λ p, length (kp_sent (rp_kp p))) ps = [9; 2] ∧
    sys_run ex_all sx_cfg y ∧ (∀ m, m ∈ messages (y_ins y) → on_feed ps (PMsg (m_key m) (m_val m)) ∧ sized (length (m_val m))) ∧
    (∀ m, on_feed ps m → ∃ m', m' ∈ messages (y_ins y) ∧ m_key m' = pm_key m) ∧
    batches_of (y_taken y) = sent_batches (mp_out (y_mp y)) ∧ map pb_hash (all_added (o_out (y_omp y))) = [1; 3]%N.
Proof.
  cbn zeta. split; [by vm_compute|]. split; [apply (bool_decide_unpack _); by vm_compute|]. split; [exact sx_wf|].
  split. { intros b b' i [->|[->|?%elem_of_nil]%elem_of_cons]%elem_of_cons [->|[->|?%elem_of_nil]%elem_of_cons]%elem_of_cons H1 H2;
    try done; by apply sx_ann2 in H1 || by apply sx_ann2 in H2. }
  split. { intros b [->|[->|?%elem_of_nil]%elem_of_cons]%elem_of_cons; done. }
  split; [exact rd_fresh|].
  destruct rd_ran as (ps & Hrun & E). injection E as H1 H2 H3 H4.
  destruct (seq_runs (λ l, bool_decide (map pb_hash l = [1; 3]%N)) ex_all sx_cfg (rd_msgs ps)) as (y & Y1 & Y2 & Y3 & Y4); [reflexivity|exact H4|].
  exists ps, y. split; [exact Hrun|].
  assert (Hev : ∀ p, p ∈ ps → rp_evs p = rd_evs0 ∨ rp_evs p = rd_evs1).
  { intros p Hp. apply (elem_of_list_fmap_1 rp_evs) in Hp. rewrite H1 in Hp. apply elem_of_cons in Hp as [Hp|Hp]; [by left|right].
    by apply elem_of_list_singleton in Hp. }
  assert (Hsub : ∀ p, p ∈ ps → rp_evs p ⊆ rd_evs0 ++ rd_evs1).
  { intros p [->| ->]%Hev ev Hin; apply elem_of_app; [by left|by right]. }
  split.
  { intros p Hp. split; [|by apply rd_only; [apply Hsub|right]]. apply Forall_forall. intros ev Hin. by apply rd_order, (Hsub p). }
  split.
  { intros b Hb. split; [|intros p Hp; split; [apply rd_finished; [by apply Hev|done]|by apply rd_unfailed, Hsub]].
    assert (H0 : rd_evs0 ∈ rp_evs <$> ps) by (rewrite H1; left). apply elem_of_list_fmap in H0 as (p & E0 & Hp). exists p. split; [done|].
    unfold given. rewrite <- E0. exists rev_aorder, reverse, rd_emit.
    apply elem_of_cons in Hb as [->|Hb]; [left|]. apply elem_of_list_singleton in Hb as ->. right; right; left. }
  split; [exact H2|]. split; [exact Y1|]. rewrite Y2.
  split.
  { intros m [i Hi]%elem_of_list_lookup. unfold rd_msgs in Hi. rewrite list_lookup_imap in Hi.
    destruct ((reverse (all_sent ps) ++ all_sent ps) !! i) as [x|] eqn:Ex; [|done]. injection Hi as <-. cbn [m_key m_val].
    apply elem_of_list_lookup_2 in Ex. rewrite elem_of_app, elem_of_reverse in Ex. assert (Hx : x ∈ all_sent ps) by tauto.
    rewrite forallb_forall in H3. specialize (H3 x (proj1 (elem_of_list_In _ _) Hx)). apply Nat.leb_le in H3.
    destruct x as [k v]. split; [by apply all_sent_feed|]. cbn [pm_val] in *. unfold sized. clear -H3. lia. }
  split.
  { intros m Hm%all_sent_feed. assert (Hin : m ∈ reverse (all_sent ps) ++ all_sent ps) by (apply elem_of_app; by right).
    apply elem_of_list_lookup in Hin as [i Hi]. exists (Msg (pm_key m) (pm_val m) (str "t"%string) (Z.of_nat i)). split; [|done].
    apply elem_of_list_lookup. exists i. unfold rd_msgs. rewrite list_lookup_imap, Hi. done. }
  split; [exact Y3|]. by apply bool_decide_eq_true_1 in Y4.
Qed.

Definition rd_facts2 (ps : list rproducer) : option (list kp_event * list kp_event * bool * bool * bool * option (topic * hash)) :=
  match ps with
  | [p; q] => Some (rp_evs p, rp_evs q, bool_decide (key_of (KSubHead 1 9) ∈ pm_key <$> all_sent [p; q]),
      lru_contains (kp_recent (rp_kp q)) 1%N, lru_contains (kp_skip (rp_kp q)) 9%N, p_pending (kp_dp (rp_kp q)) !! 9%N)
  | _ => None
  end.
Lemma rd_half : ∃ ps, r_run rd_start ps ∧ rd_facts2 ps =
  Some ([rd_add sx_b1], [KFeed 1 (key_of (KBatch 1)); rd_add sx_b1; rd_send], false, true, true, None).
Proof.
  apply (r_exec_with rd_facts2 _ rd_start [(0, rd_add sx_b1); (1, KFeed 1 (key_of (KBatch 1))); (1, rd_add sx_b1); (1, rd_send)]).
  vm_compute. reflexivity.
Qed.
(** If the producer that published the header stops before sending the sub-batches, the block stays incomplete for ever: the others
    have read the header, so they drop the block and its sub-batches, and answer that all is well, also when given them again. *)
Theorem C73_half_sent_refuted : ∃ mt b ps0 ps p kd,
  wf_block mt b ∧ Forall (fresh mt) ps0 ∧ r_run ps0 ps ∧ (∀ p, p ∈ ps → Forall kp_event_ok (rp_evs p) ∧ given_only [b] p ∧ given b p ∧ unfailed b p) ∧
  p ∈ ps ∧ finished b p ∧
  needed mt b (λ _, true) kd ∧ (∀ m, on_feed ps m → pm_key m ≠ key_of kd) ∧
  (∀ o ids e, let r := kp_add (rp_kp p) o ids e (bk_args b) in r.2 = None ∧ kp_sent r.1 = kp_sent (rp_kp p)) ∧
  (∀ id, announced b id → ∀ ord e d u, kp_send (rp_kp p) ord e id d u = (rp_kp p, None)).
Proof.
  destruct rd_half as (ps & Hrun & E). destruct ps as [|p [|q [|]]]; try discriminate E. injection E as H H1 H2 H3 H4 H5.
  exists ex_mt, sx_b1, rd_start, [p; q], q, (KSubHead 1 9).
  assert (Hs : ∀ r, r ∈ [p; q] → rp_evs r ⊆ [rd_add sx_b1; rd_send; KFeed 1 (key_of (KBatch 1))] ∧ rd_add sx_b1 ∈ rp_evs r).
  { intros r [->|[->|?%elem_of_nil]%elem_of_cons]%elem_of_cons; [| |done].
    - rewrite H. split; [|left]. intros ev ->%elem_of_list_singleton. left.
    - rewrite H1. split; [|right; left]. intros ev Hin.
      repeat (apply elem_of_cons in Hin as [->|Hin]; [first [left|right; left|right; right; left]|]). by apply elem_of_nil in Hin. }
  assert (Hs2 : ∀ r, r ∈ [p; q] → rp_evs r ⊆ rd_evs0 ++ rd_evs1).
  { intros r Hr ev Hin%(proj1 (Hs r Hr)). apply elem_of_app.
    repeat (apply elem_of_cons in Hin as [->|Hin]; [first [left; left|left; right; left|right; right; left]|]). by apply elem_of_nil in Hin. }
  split; [exact sx_wf1|]. split; [exact rd_fresh|]. split; [exact Hrun|]. split.
  { intros r Hr. split; [|split; [|split]].
    - apply Forall_forall. intros ev Hin. by apply rd_order, (Hs2 r).
    - apply rd_only; [by apply Hs2|left]. split; [done|]. by apply Hs.
    - exists rev_aorder, reverse, rd_emit. by apply Hs.
    - by apply rd_unfailed, Hs2. }
  split; [right; left|]. split; [apply (rd_after _ _ [KFeed 1 (key_of (KBatch 1)); rd_add sx_b1] []); [exact H1|intros; apply not_elem_of_nil|left]|].
  split. { apply (NSubHead ex_mt sx_b1). exists (str "x/"%string). split; [by vm_compute|done]. }
  split. { intros m Hm%all_sent_feed Ek. apply bool_decide_eq_false_1 in H2. change (key_of (KSubHead 1 9) ∉ pm_key <$> all_sent [p; q]) in H2. apply H2. rewrite <- Ek. by apply elem_of_list_fmap_1. }
  split.
  - intros o ids e. cbn zeta. unfold kp_add. change (ba_hash (bk_args sx_b1)) with 1%N. rewrite H3. done.
  - intros i ->%sx_ann1 ord e d u. assert (E5 : send_batch (kp_dp (rp_kp q)) ord 9%N d u = (kp_dp (rp_kp q), None)).
    { unfold send_batch. destruct (p_pending _ !! _) as [x|] eqn:E6; [discriminate H5|done]. }
    unfold kp_send. rewrite E5. assert (E4 : lru_contains (kp_skip (rp_kp q)) 9%N = true) by exact H4. rewrite E4. by destruct (rp_kp q).
Qed.
Print Assumptions C73_half_sent_refuted.
