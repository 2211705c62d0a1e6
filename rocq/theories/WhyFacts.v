(** Facts about WhyNotReady (C45). *)
From Coq Require Import Strings.String.
From Verif Require Import Base Lru LruFacts Types Avro Wire SpecWire GoPath Producer SpecBlock Consumer SpecCollect.
From Verif Require Import ConsumerBase ConsumerFacts Assembly Assembly2 Assembly3 CollectFacts.
From Verif Require Import Ordering SpecChain OrderingBase.

Section why.
  Context (mt : bytes → option bytes) (b : block) (c : mp_config).
  Context (Hwf : wf_block mt b).
  Notation tr := (mc_tracked c).
  Notation h := (ba_hash (bk_args b)).
  Notation need := (needed mt b tr).

  Lemma left_missing A p : 0 < left mt b A p →
    ∃ k, mt k = Some p ∧ ((k ∈ dom (ba_updates (bk_args b)) ∧ key_of (KUpdate h k) ∉ A) ∨
                          (k ∈ ba_deletes (bk_args b) ∧ key_of (KDelete h k) ∉ A)).
  Proof.
    unfold left. intros Hl.
    destruct (decide (filter (λ k, mt k = Some p ∧ key_of (KUpdate h k) ∉ A) (dom (ba_updates (bk_args b))) = ∅)) as [E1|E1].
    - destruct (decide (filter (λ k, mt k = Some p ∧ key_of (KDelete h k) ∉ A) (ba_deletes (bk_args b)) = ∅)) as [E2|E2].
      + rewrite E1, E2, !size_empty in Hl. lia.
      + apply set_choose_L in E2 as [k [[H1 H2] H3]%elem_of_filter]. eauto 6.
    - apply set_choose_L in E1 as [k [[H1 H2] H3]%elem_of_filter]. eauto 6.
  Qed.

  (** Messages on prefixes, headers: delivered iff applied. *)
  Lemma covered_in (D : list msg) pb A kd : (∀ m, m ∈ D → covered mt b tr A pb m) → need kd → kd ≠ KBatch h →
    (∀ id i, kd ≠ KSubMsg h id i) → (∃ m, m ∈ D ∧ m_key m = key_of kd) → key_of kd ∈ A.
  Proof.
    intros HC Hn Hb Hs (m & Hm & Hk). destruct (HC m Hm kd Hn Hk) as [?|[?|(id & i & ? & _)]]; [done|congruence|].
    by edestruct Hs.
  Qed.

  Lemma why_waiting D pb w : collecting mt b tr D pb → ready pb = false → why_not_ready pb w →
    let got kd := ∃ m, m ∈ D ∧ m_key m = key_of kd in
    match w with
    | WNotFound => False
    | WPendingBatches => ∃ id, need (KSubHead h id) ∧ ¬ got (KSubHead h id)
    | WPendingPrefix p => (∀ id, need (KSubHead h id) → got (KSubHead h id)) ∧
        ∃ k kd, mt k = Some p ∧ (kd = KUpdate h k ∨ kd = KDelete h k) ∧ need kd ∧ ¬ got kd
    | WReady => (∀ kd, need kd → ¬ got kd → ∃ id i, kd = KSubMsg h id i) ∧ ∃ kd, need kd ∧ ¬ got kd
    end ∧ got (KBatch h).
  Proof.
    intros HD Hr Hw got. pose proof HD as (A & HF & HA & HP & HC & HS & HB).
    assert (Hgot : ∀ kd, need kd → kd ≠ KBatch h → (∀ id i, kd ≠ KSubMsg h id i) → got kd ↔ key_of kd ∈ A).
    { intros kd H1 H2 H3. split; [by apply (covered_in D pb A kd HC H1 H2 H3)|]. intros Hin. destruct (HS _ Hin) as (m & ? & ? & _). by exists m. }
    split; [|destruct HB as (m & ? & ? & _); by exists m].
    revert Hw. unfold why_not_ready. case_bool_decide as Hpb.
    - assert (Hheads : ∀ id, need (KSubHead h id) → got (KSubHead h id)).
      { intros id Hn. apply (Hgot _ Hn); [done..|]. destruct (decide (key_of (KSubHead h id) ∈ A)) as [|Hni]; [done|exfalso].
        assert (Hin : id ∈ pb_pbatches pb) by (apply (pf_pbatches _ _ _ _ _ HF); inversion Hn; by subst).
        rewrite Hpb in Hin. by apply not_elem_of_empty in Hin. }
      destruct w as [| |p|]; [done|done| |].
      + intros (v & Hv & Hpos). split; [done|].
        apply (pf_prefixes _ _ _ _ _ HF) in Hv as (Ht & _ & ->).
        destruct (left_missing A p ltac:(lia)) as (k & Hk & [[H1 H2]|[H1 H2]]).
        * assert (Hn : need (KUpdate h k)) by (by econstructor). exists k, (KUpdate h k). split; [done|]. split; [by left|].
          split; [done|]. by rewrite (Hgot _ Hn).
        * assert (Hn : need (KDelete h k)) by (by econstructor). exists k, (KDelete h k). split; [done|]. split; [by right|].
          split; [done|]. by rewrite (Hgot _ Hn).
      + intros Hpre. cbn beta in Hpre.
        assert (Hpref : ∀ p, tr p = true → count_of mt b p ≠ 0 → left mt b A p = 0).
        { intros p Ht Hc. assert (E : pb_prefixes pb !! p = Some (Z.of_nat (left mt b A p))) by (by apply (pf_prefixes _ _ _ _ _ HF)).
          apply Hpre in E. lia. }
        assert (Hup : ∀ k p, k ∈ dom (ba_updates (bk_args b)) → mt k = Some p → tr p = true → key_of (KUpdate h k) ∈ A).
        { intros k p H1 H2 H3. destruct (decide (key_of (KUpdate h k) ∈ A)) as [|Hni]; [done|exfalso].
          assert (Hz := Hpref p H3 (count_pos_update mt b k p H1 H2)). unfold left in Hz.
          assert (Hs : size (filter (λ k, mt k = Some p ∧ key_of (KUpdate h k) ∉ A) (dom (ba_updates (bk_args b)))) ≠ 0); [|lia].
          apply size_non_empty_iff. intros E. apply (not_elem_of_empty (C:=gset bytes) k). rewrite <- E. by apply elem_of_filter. }
        assert (Hdel : ∀ k p, k ∈ ba_deletes (bk_args b) → mt k = Some p → tr p = true → key_of (KDelete h k) ∈ A).
        { intros k p H1 H2 H3. destruct (decide (key_of (KDelete h k) ∈ A)) as [|Hni]; [done|exfalso].
          assert (Hz := Hpref p H3 (count_pos_delete mt b k p H1 H2)). unfold left in Hz.
          assert (Hs : size (filter (λ k, mt k = Some p ∧ key_of (KDelete h k) ∉ A) (ba_deletes (bk_args b))) ≠ 0); [|lia].
          apply size_non_empty_iff. intros E. apply (not_elem_of_empty (C:=gset bytes) k). rewrite <- E. by apply elem_of_filter. }
        assert (Hgot' : ∀ kd, need kd → (∀ id i, kd ≠ KSubMsg h id i) → got kd).
        { intros kd Hn Hns. destruct Hn as [|k p H1 H2 H3|k p H1 H2 H3|id Ht|id i Ht Hi].
          - destruct HB as (m & ? & ? & _). by exists m.
          - assert (Hn : need (KUpdate h k)) by (by econstructor). apply (Hgot _ Hn); [done..|]. by eapply Hup.
          - assert (Hn : need (KDelete h k)) by (by econstructor). apply (Hgot _ Hn); [done..|]. by eapply Hdel.
          - apply Hheads. by constructor.
          - by edestruct Hns. }
        split.
        * intros kd Hn Hng. destruct kd; try by (exfalso; apply Hng, Hgot'). inversion Hn; subst. by eauto.
        * (* some bit is missing *)
          assert (Hbits : ¬ map_Forall (λ _ l, false ∉ l) (pb_batches pb)).
          { intros Hall. unfold ready in Hr. rewrite (bool_decide_eq_true_2 _ Hpb), (bool_decide_eq_true_2 _ Hpre), (bool_decide_eq_true_2 _ Hall) in Hr. done. }
          apply map_not_Forall in Hbits as (id & bits & Hb & Hf); [|apply _]. cbn beta in Hf.
          apply (pf_batches _ _ _ _ _ HF) in Hb as (Ht & Hh & Hl & Hb).
          destruct (decide (false ∈ bits)) as [Hin|]; [|done]. apply elem_of_list_lookup in Hin as [i Hi].
          assert (Hn : need (KSubMsg h id (Z.of_nat i))).
          { apply NSubMsg; [done|]. rewrite <- Hl. by eapply lookup_lt_Some. }
          exists (KSubMsg h id (Z.of_nat i)). split; [done|]. intros (m & Hm & Hk).
          destruct (HC m Hm _ Hn Hk) as [?|[?|(id' & i' & [= <- <-] & Hh' & _)]]; [done| |done].
          rewrite Hk in H. apply (Hb i false Hi) in H. discriminate.
    - intros ->. apply set_choose_L in Hpb as [id Hid]. apply (pf_pbatches _ _ _ _ _ HF) in Hid as [Ht Hni].
      assert (Hn : need (KSubHead h id)) by (by constructor). exists id. split; [done|]. by rewrite (Hgot _ Hn).
  Qed.

  Lemma why_truth ins st w :
    consumer_run c ins st → Forall input_ok ins → faithful mt b (messages ins) →
    (∀ n, requested ins n → (n ≤ ba_num (bk_args b))%Z) → (¬ ∃ pb, emitted_batch st h pb) →
    mp_why st h w →
    let got kd := delivered (messages ins) kd in
    match w with
    | WNotFound => ¬ got (KBatch h)
    | WPendingBatches => got (KBatch h) ∧ ∃ id, need (KSubHead h id) ∧ ¬ got (KSubHead h id)
    | WPendingPrefix p => got (KBatch h) ∧ (∀ id, need (KSubHead h id) → got (KSubHead h id)) ∧
        ∃ k kd, mt k = Some p ∧ (kd = KUpdate h k ∨ kd = KDelete h k) ∧ need kd ∧ ¬ got kd
    | WReady => got (KBatch h) ∧ (∀ kd, need kd → ¬ got kd → ∃ id i, kd = KSubMsg h id i) ∧ ∃ kd, need kd ∧ ¬ got kd
    end.
  Proof.
    intros Hr Hok Hf HS Hne Hw got. pose proof (run_inv mt b c Hwf True ins st Hr Hok Hf (λ _, HS)) as Hinv.
    destruct Hinv as [Hcore [(D & HD & HS' & Hph)|[(_ & _ & Hd) _]]].
    2:{ exfalso. apply Hne. destruct (Hd I) as (pb & ? & ?). by exists pb. }
    destruct (HS' I) as [(pb & ? & ?)|Hsk]; [exfalso; apply Hne; by exists pb|].
    assert (Hgot : ∀ kd, need kd → got kd ↔ ∃ m, m ∈ D ∧ m_key m = key_of kd).
    { intros kd Hn. split.
      - intros (m & Hm & E). assert (Hm' : m ∈ omap (of_block b) ins).
        { destruct (need_ok mt b tr Hwf kd Hn) as [? ?]. eapply msgs_of_block; try done. by destruct Hn. }
        destruct (Hsk m Hm') as (m' & ? & ?). exists m'. split; [done|congruence].
      - intros (m & Hm & E). exists m. split; [|done]. by apply (of_block_msgs b), HD. }
    destruct Hph as [(P1 & P2 & P3 & P4 & P5)|[(pb & Hp & Hc & Hrd) _]].
    - unfold mp_why in Hw. rewrite P1 in Hw. subst w. rewrite (Hgot _ (NHeader mt b tr)). intros (m & Hm & E).
      destruct (P4 m Hm) as (q & Hq & [m' Hm']). destruct Hcore as [Hb _].
      destruct (bi_queue _ _ Hb h q _ m' Hq Hm') as [E' Hl]. apply (later_not_header b m' Hl). congruence.
    - unfold mp_why in Hw. rewrite Hp in Hw. pose proof (why_waiting D pb w Hc Hrd Hw) as [H1 H2]. cbn beta in H2.
      apply (Hgot _ (NHeader mt b tr)) in H2. destruct w as [| |p|]; [done| | |].
      + split; [done|]. destruct H1 as (id & Hn & Hng). exists id. split; [done|]. by rewrite (Hgot _ Hn).
      + split; [done|]. destruct H1 as (Hh & k & kd & Hk & Hkd & Hn & Hng). split; [intros id Hn'; rewrite (Hgot _ Hn'); by apply Hh|].
        exists k, kd. split; [done|]. split; [done|]. split; [done|]. by rewrite (Hgot _ Hn).
      + split; [done|]. destruct H1 as (Hh & kd & Hn & Hng). split.
        * intros kd' Hn'. rewrite (Hgot _ Hn'). by apply Hh.
        * exists kd. split; [done|]. by rewrite (Hgot _ Hn).
  Qed.
End why.

(** There is always an answer, for instance this one. *)
Definition first_answer (st : mp) (h : hash) : why :=
  match mp_pend st !! h with
  | None => WNotFound
  | Some pb =>
    if bool_decide (pb_pbatches pb = ∅) then
      match filter (λ x, (0 < x.2)%Z) (map_to_list (pb_prefixes pb)) with
      | x :: _ => WPendingPrefix x.1
      | [] => WReady
      end
    else WPendingBatches
  end.
Lemma first_answer_ok st h : mp_why st h (first_answer st h).
Proof.
  unfold mp_why, first_answer. destruct (mp_pend st !! h) as [pb|]; [|done]. unfold why_not_ready.
  case_bool_decide; [|done]. destruct (filter _ _) as [|[p v] l] eqn:E.
  - intros p v Hp. cbn beta. intros Hv. apply (not_elem_of_nil (p, v)). rewrite <- E. apply elem_of_list_filter.
    split; [done|]. by apply elem_of_map_to_list.
  - assert (Hin : (p, v) ∈ (p, v) :: l) by apply elem_of_list_here. rewrite <- E in Hin.
    apply elem_of_list_filter in Hin as [Hv Hp]. apply elem_of_map_to_list in Hp. cbn in *. by exists v.
Qed.
Lemma why_answers st h : ∃ w, mp_why st h w.
Proof. exists (first_answer st h). apply first_answer_ok. Qed.

(** After its emission a block is not found until enough other blocks were emitted. *)
Lemma why_emitted c ins0 st i st1 o1 pb ins st2 o2 w :
  consumer_run c ins0 st → mp_step c st i = Ok st1 → mp_out st1 = mp_out st ++ o1 → EBatch pb ∈ o1 →
  (∀ m, m ∈ messages ins → ¬ reorg_type m) → mp_run c ins st1 = Ok st2 → mp_out st2 = mp_out st1 ++ o2 →
  (Z.of_nat (length (omap (λ e, match e with EBatch x => Some x | _ => None end) o2)) < 2 * mc_thr c)%Z →
  mp_why st2 (pb_hash pb) w → w = WNotFound.
Proof.
  intros (last & st0 & Hn & Hr0) Hi Ho1 Hin Hnr Hr Ho2 Hlt.
  assert (Hb : base_inv c st) by (eapply run_base; [by eapply new_base|done]).
  destruct (step_emits_done c st i st1 o1 pb Hb Hi Ho1 Hin) as [r Hk].
  assert (Hb1 : base_inv c st1) by (by eapply step_base).
  assert (Hpl : Forall plain_input ins).
  { apply Forall_forall. intros [m e|n] Hx; [|done]. cbn. unfold is_reorg. apply bool_decide_eq_false. intros E.
    apply (Hnr m); [|done]. apply elem_of_messages. by exists e. }
  destruct (run_window _ _ _ _ Hb1 Hpl Hr) as (o & Oo & K & C & F).
  assert (o = o2) as -> by (rewrite Oo in Ho2; by simplify_list_eq).
  assert (Hd : pb_hash pb ∈ lru_keys (mp_done st2)).
  { rewrite K, Hk. destruct (bi_cap _ _ Hb1) as [Hcap Hc0]. rewrite firstn_app. apply elem_of_app. right.
    assert (Hl : length (emitted o2) < lru_cap (mp_done st1)).
    { rewrite Hcap. unfold emitted. rewrite rev_length.
      match goal with |- length ?x < _ => match type of Hlt with (Z.of_nat (length ?y) < _)%Z => assert (E : length x = length y); [|lia] end end.
      clear. induction o2 as [|[] o2 IH]; cbn; [done|done|by rewrite <- IH|done]. }
    destruct (lru_cap (mp_done st1) - length (emitted o2)) as [|n] eqn:En; [lia|]. cbn. apply elem_of_list_here. }
  assert (Hb2 : base_inv c st2) by (by eapply run_base).
  unfold mp_why. destruct (mp_pend st2 !! pb_hash pb) as [pb'|] eqn:E; [|done].
  destruct (bi_pend _ _ Hb2 _ _ E) as (_ & _ & Hx). done.
Qed.

(** * The ordering layer *)
Section known.
  (** [K] holds of the stored blocks, [F] of the finished ones. *)
  Context (K F : hash → Prop) (HKF : ∀ h, K h → F h).
  Record known (s : omp) : Prop := Known {
    kn_fin : ∀ h, h ∈ lru_keys (o_fin s) → F h;
    kn_pending : ∀ h pb, o_pending s !! h = Some pb → pb_hash pb = h ∧ K h;
    kn_queued : ∀ p cs h, o_queued s !! p = Some cs → h ∈ cs → K h
  }.
  Lemma known_sub s s' : known s → sub s s' → (∀ h, h ∈ lru_keys (o_fin s') → F h) → known s'.
  Proof.
    intros [Hf Hp Hq] [] Hf'. split; [done| |].
    - intros h pb H. apply Hp. by eapply lookup_weaken.
    - intros p cs h H. eapply Hq. by eapply lookup_weaken.
  Qed.
  Lemma known_fin_add o s h s' : known s → K h → fin_add o s h = Ok s' → known s'.
  Proof.
    intros Hk Hh Ha. apply fin_add_sub in Ha as [Hs Hf]. eapply known_sub; [done|done|]. intros x. rewrite Hf.
    intros [->|Hx]%lru_add_elem; [by apply HKF|]. by apply (kn_fin s).
  Qed.
  Lemma known_children f o s h s' : order_ok o → known s → K h → finish_children f o s h = Ok s' → known s'.
  Proof.
    intros Ho. revert s h s'; induction f as [|f IH]; intros s h s' Hk Hh; cbn [finish_children]; [discriminate|].
    destruct (fin_add o s h) as [s1| |] eqn:E1; cbn [mbind outcome_bind]; try discriminate.
    pose proof (known_fin_add _ _ _ _ Hk Hh E1) as Hk1.
    destruct (o_queued s !! h) as [cs|] eqn:Eq; [|intros [= <-]; done].
    apply (foldM_inv known); [|done]. intros x y x' Hy Hx. apply IH; [done|]. apply (kn_queued s Hk h cs); [done|].
    apply order_elem in Hy; [|done]. by apply elem_of_elements in Hy.
  Qed.
  Lemma known_siblings o s pb s' : order_ok o → known s → finish_siblings o s pb = Ok s' → known s'.
  Proof.
    intros Ho Hk. unfold finish_siblings. destruct (o_queued s !! pb_parent pb) as [cs|] eqn:Eq; [|intros [= <-]; done].
    apply (foldM_inv known); [|done]. intros x y x' Hy Hx. case_bool_decide; [|intros [= <-]; done].
    apply known_children; [done|done|]. apply (kn_queued s Hk _ cs _ Eq). apply order_elem in Hy; [|done]. by apply elem_of_elements in Hy.
  Qed.
  Lemma known_ext s s' : o_fin s' = o_fin s → o_pending s' = o_pending s → o_queued s' = o_queued s → known s → known s'.
  Proof. intros E1 E2 E3 []. split; rewrite ?E1, ?E2, ?E3; done. Qed.
  Lemma known_loop f o s new s' new' : order_ok o → known s → emit_loop f o s new = Ok (s', new') → known s'.
  Proof.
    intros Ho. revert s new; induction f as [|f IH]; intros s new Hk; cbn [emit_loop]; [discriminate|].
    destruct (get_child f o s (o_last s)) as [[h|]| |]; cbn [mbind outcome_bind]; try discriminate; [|intros [= <- _]; done].
    destruct (o_pending s !! h) as [pb|] eqn:Ep; [|discriminate].
    destruct (finish_siblings o s pb) as [s1| |] eqn:E1; cbn [mbind outcome_bind]; try discriminate.
    destruct (fin_add o _ (pb_hash pb)) as [s2| |] eqn:E2; cbn [mbind outcome_bind]; try discriminate.
    assert (Hh : K (pb_hash pb)) by (destruct (kn_pending s Hk _ _ Ep) as [E Hx]; by rewrite E).
    apply IH. eapply known_fin_add; [|exact Hh|exact E2].
    eapply known_ext; [..|eapply known_siblings; [done|exact Hk|exact E1]]; done.
  Qed.
  Lemma known_emit o s new old s' : order_ok o → known s → (∀ pb, last new = Some pb → K (pb_hash pb)) →
    prepare_emit o s new old = Ok s' → known s'.
  Proof.
    intros Ho Hk Hn. unfold prepare_emit.
    match goal with |- (s ← ?X; _) = _ → _ => assert (H1 : ∀ x, X = Ok x → known x); [|destruct X as [s1| |] eqn:E1; cbn [mbind outcome_bind]; try discriminate] end.
    { intros x. destruct (last new) as [nb|]; [|intros [= <-]; done].
      destruct (finish_siblings o _ nb) as [s1| |] eqn:E1; cbn [mbind outcome_bind]; try discriminate.
      apply known_fin_add; [|by apply Hn]. eapply known_siblings; [done| |exact E1]. by apply (known_ext s). }
    destruct (emit_loop _ _ _ _) as [[s2 l]| |] eqn:E2; cbn [mbind outcome_bind]; try discriminate. intros [= <-].
    eapply known_ext; [..|eapply known_loop; [done|by apply H1|exact E2]]; done.
  Qed.
  Lemma known_queue s pb : known s → K (pb_hash pb) → known (queue s pb).
  Proof.
    intros [Hf Hp Hq] Hb. split; cbn; [done|done|]. intros p cs h.
    destruct (decide (p = pb_parent pb)) as [->|Hne].
    - rewrite lookup_insert. intros [= <-] [->%elem_of_singleton|Hc]%elem_of_union; [done|].
      destruct (o_queued s !! pb_parent pb) as [cs|] eqn:E; cbn in Hc; [|set_solver]. by eapply Hq.
    - rewrite lookup_insert_ne by done. apply Hq.
  Qed.
  Lemma reorg_walk_last p f : ∀ nh oh newb rev removed added,
    reorg_walk f p nh oh newb rev = Ok (RgOk removed added) → newb ≠ [] → last added = last newb.
  Proof.
    induction f as [|f IH]; intros nh oh newb rev removed added; cbn [reorg_walk]; [discriminate|].
    case_bool_decide.
    - destruct (p !! pb_parent nh) as [nh'|]; [|discriminate]. intros H1 Hne. apply IH in H1 as ->; [|done].
      destruct newb; [done|]. done.
    - case_bool_decide; [intros [= <- <-]; done|]. destruct (p !! pb_parent oh); [|discriminate]. by apply IH.
  Qed.
  Lemma known_handle f o s pb r s' : order_ok o → known s → K (pb_hash pb) → handle f o s pb r = Ok s' → known s'.
  Proof.
    intros Ho. revert s pb r s'; induction f as [|f IH]; intros s pb r s' Hk Hb; cbn [handle]; [discriminate|].
    destruct (excluded (o_wl s) pb); [intros [= <-]; by apply (known_ext s)|].
    case_bool_decide; [intros [= <-]; by apply (known_ext s)|].
    set (s1 := set_pending s _). assert (Hk1 : known s1).
    { destruct Hk as [Hf Hp Hq]. split; cbn; [done| |done]. intros h b. destruct (decide (h = pb_hash pb)) as [->|Hne].
      - rewrite lookup_insert. by intros [= <-].
      - rewrite lookup_insert_ne by done. apply Hp. }
    clearbody s1.
    destruct (finished s1 (pb_hash pb) && negb r); [by intros [= <-]|].
    assert (Hone : ∀ pb0, last [pb] = Some pb0 → K (pb_hash pb0)) by (by intros ? [= <-]).
    case_bool_decide; [by apply known_emit|].
    destruct (_ && _ && _); [by apply known_emit|].
    destruct (finished s1 (pb_parent pb)).
    - assert (Hlight : ∀ s',
      (s ← fin_add o s1 (pb_hash pb);
        c ← get_child 0 o s (pb_hash pb);
        match c with
        | Some child =>
          s ← match o_pending s !! child with
              | Some cpb => handle f o s cpb true
              | None => Ok s
              end;
          Ok (queue s pb)
        | None => Ok (queue s pb)
        end) = Ok s' → known s').
      { intros s2. destruct (fin_add _ _ _) as [s3| |] eqn:E3; cbn [mbind outcome_bind]; try discriminate.
        pose proof (known_fin_add _ _ _ _ Hk1 Hb E3) as Hk3.
        destruct (get_child _ _ _ _) as [[child|]| |]; cbn [mbind outcome_bind]; try discriminate; [|intros [= <-]; by apply known_queue].
        destruct (o_pending s3 !! child) as [cpb|] eqn:Ec.
        - destruct (handle _ _ _ _ _) as [s4| |] eqn:E4; cbn [mbind outcome_bind]; try discriminate.
          intros [= <-]. apply known_queue; [|done]. eapply IH; [exact Hk3| |exact E4]. destruct (kn_pending s3 Hk3 _ _ Ec) as [E Hx]. by rewrite E.
        - intros [= <-]. by apply known_queue. }
      destruct (o_pending s1 !! o_last s1) as [lb|] eqn:El; [|exact (Hlight s')].
      destruct (_ <? _)%N eqn:Hw; [|exact (Hlight s')].
      destruct (prepare_reorg _ _ _) as [[rm ad| |]| |] eqn:Er; cbn [mbind outcome_bind]; try discriminate.
      + apply known_emit; [done|done|]. unfold prepare_reorg in Er. apply reorg_walk_last in Er as ->; [|done]. done.
      + intros [= <-]. by apply known_queue.
      + by intros [= <-].
    - destruct (_ <? _)%N; [|intros [= <-]; by apply known_queue].
      match goal with |- (if ?b then _ else _) = _ → _ => destruct b end.
      { intros [= <-]. destruct Hk1 as [Hf Hp Hq]. split; cbn; [done| |done]. intros h b [_ Hl]%lookup_delete_Some. by apply Hp. }
      destruct (fin_add _ _ _) as [s3| |] eqn:E3; cbn [mbind outcome_bind]; try discriminate.
      intros [= <-]. apply known_queue; [|done]. by eapply known_fin_add.
  Qed.
  Lemma known_run l s s' : orders_ok l → Forall (λ b, K (pb_hash b)) (batches_of l) → known s → omp_run s l = Ok s' → known s'.
  Proof.
    unfold omp_run. revert s; induction l as [|[o i] l IH]; intros s Ho Hl Hk; cbn [foldM]; [by intros [= <-]|].
    apply Forall_cons in Ho as [Ho1 Ho]. cbn in Ho1.
    destruct (omp_step s (o, i)) as [s1| |] eqn:E1; cbn [mbind outcome_bind]; try discriminate.
    unfold omp_step in E1. cbn [fst snd] in E1. destruct i as [pb|n h]; cbn in Hl.
    - apply Forall_cons in Hl as [Hb Hl]. apply IH; [done|done|]. unfold handle_batch in E1. eapply known_handle; [exact Ho1|exact Hk|exact Hb|exact E1].
    - apply IH; [done|done|]. injection E1 as <-. by apply (known_ext s).
  Qed.
End known.

Lemma run_known cfg s0 l s : new_omp cfg = Ok s0 → orders_ok l → omp_run s0 l = Ok s →
  known (λ h, h ∈ map pb_hash (batches_of l)) (λ h, h = cfg_last_hash cfg ∨ h ∈ map pb_hash (batches_of l)) s.
Proof.
  intros Hn Ho Hr. eapply known_run; [by right|exact Ho| | |exact Hr].
  - apply Forall_forall. intros b Hb. apply elem_of_list_fmap. by exists b.
  - unfold new_omp in Hn. case_bool_decide; [discriminate|]. injection Hn as <-. split; cbn.
    + intros x [->|Hx]%lru_add_elem; [by left|]. by apply elem_of_nil in Hx.
    + intros x pb. by rewrite lookup_empty.
    + intros p cs x. by rewrite lookup_empty.
Qed.
Lemma done_received cfg s0 l s h :
  new_omp cfg = Ok s0 → orders_ok l → omp_run s0 l = Ok s → omp_why s h = Some (str "done, not evicted"%string) →
  h = cfg_last_hash cfg ∨ h ∈ map pb_hash (batches_of l).
Proof.
  intros Hn Ho Hr. pose proof (run_known cfg s0 l s Hn Ho Hr) as Hk. unfold omp_why. destruct (finished s h) eqn:Ef.
  - intros _. apply (kn_fin _ _ s Hk). unfold finished, lru_contains in Ef. by apply bool_decide_eq_true in Ef.
  - destruct (o_pending s !! h); by intros [= E].
Qed.
Lemma pending_received cfg s0 l s h :
  new_omp cfg = Ok s0 → orders_ok l → omp_run s0 l = Ok s → omp_why s h = Some (str "pending parent"%string) →
  h ∈ map pb_hash (batches_of l).
Proof.
  intros Hn Ho Hr. pose proof (run_known cfg s0 l s Hn Ho Hr) as Hk. unfold omp_why. destruct (finished s h); [by intros [= E]|].
  destruct (o_pending s !! h) as [pb|] eqn:E; [|done]. intros _. by apply (kn_pending _ _ s Hk) in E as [_ ?].
Qed.
