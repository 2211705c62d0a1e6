(** C62: the data that a message processor keeps. *)
From Verif Require Import Base Lru LruFacts Types Avro AvroFacts Wire SpecWire WireFacts GoPath Producer SpecBlock Consumer ConsumerBase ConsumerFacts
  SpecCollect Assembly Assembly2 Assembly3 CollectFacts CollectFacts2 StrayFacts SpecToken TokenFacts SpecMemory.

(** * Nothing is queued for a block that is open, delivered or given up *)
Definition tidy_at (h : hash) (st : mp) : Prop :=
  mp_queue st !! h = None ∨ (mp_pend st !! h = None ∧ h ∉ mp_old st ∧ h ∉ lru_keys (mp_done st)).
Definition tidy (st : mp) : Prop := ∀ h, tidy_at h st.

Lemma tidy_at_drain h st : tidy_at h st → tidy_at h (drain st).
Proof.
  destruct (drain_spec st) as (E1 & E2 & E3 & E4 & E5 & E6 & E7 & E8 & E9). unfold tidy_at. rewrite E1, E2, E9.
  intros [?|(Hp & Ho & Hd)]; [by left|right]. split; [|split; [|done]].
  - destruct (mp_pend (drain st) !! h) as [pb|] eqn:E; [|done]. apply E8 in E as [E _]. congruence.
  - intros [?|(pb & ? & _)]; [done|congruence].
Qed.
Lemma tidy_at_ext h st st' : mp_queue st' = mp_queue st → mp_pend st' = mp_pend st → mp_old st' = mp_old st → mp_done st' = mp_done st →
  tidy_at h st → tidy_at h st'.
Proof. unfold tidy_at. by intros -> -> -> ->. Qed.
Lemma tidy_at_res h st m : tidy_at h st → tidy_at h (mp_update_res st m).
Proof. destruct (upd_res_spec st m) as (E1 & E2 & E3 & E4 & _). by apply tidy_at_ext. Qed.

(** Steps for one block leave the others tidy. *)
Lemma prim_tidy c e r h h' st st' : base_inv c st → prim c e r h st st' → h' ≠ h → tidy_at h' st → tidy_at h' st'.
Proof.
  intros Hb Hp Hne. destruct Hp as [st|st m|st Hr|st n Hr Hd Ho|st pb p n H1 H2 H3 H4|st m H1 H2 H3 H4|st pb pb' H1 H2 H3|st pb H1 H2|st|st k n Hn].
  - apply tidy_at_drain.
  - apply tidy_at_res.
  - unfold tidy_at. cbn. intros [?|(? & _ & _)]; [by left|right]. split; [done|]. split; [set_solver|]. by intros ?%elem_of_nil.
  - done.
  - unfold tidy_at. cbn. by rewrite lookup_insert_ne.
  - unfold tidy_at. rewrite queue_msg_spec. by rewrite bool_decide_eq_false_2.
  - unfold tidy_at. cbn. by rewrite lookup_insert_ne.
  - unfold tidy_at. cbn [emit mp_queue mp_pend mp_old mp_done]. rewrite lookup_delete_ne by done.
    intros [?|(? & ? & ?)]; [by left|right]. split; [done|]. split; [done|]. by intros ?%lru_add_other.
  - unfold tidy_at. cbn. by rewrite lookup_delete_ne.
  - destruct (evict_older_spec st n) as (E1 & E2 & E3 & E4 & _). by apply tidy_at_ext.
Qed.
Lemma prims_tidy c e r h h' st st' : base_inv c st → rtc (prim c e r h) st st' → h' ≠ h → tidy_at h' st → tidy_at h' st'.
Proof.
  intros Hb Hp Hne. revert Hb. induction Hp as [|x y z Hxy _ IH]; intros Hb Ht; [done|].
  apply IH; [by eapply prim_base|by eapply prim_tidy].
Qed.

Lemma finish_queue st h : mp_queue (finish st h) = mp_queue st.
Proof. unfold finish. destruct (mp_pend st !! h) as [pb|]; [|done]. by destruct (ready pb). Qed.

Lemma process_tidy c e st m st' : base_inv c st → tidy st → process c e st m = Ok (st', false) → tidy st'.
Proof.
  intros Hb Ht E h'. destruct (decide (h' = msg_hash m)) as [->|Hne].
  2: { eapply prims_tidy; [exact Hb|eapply process_prims; [apply Hb|exact E]|exact Hne|apply Ht]. }
  assert (Ht1 : tidy_at (msg_hash m) (mp_update_res (drain st) m)) by (apply tidy_at_res, tidy_at_drain, Ht).
  unfold process, process_with at 1 in E. set (s := mp_update_res (drain st) m) in *. clearbody s. set (h := msg_hash m) in *.
  case_bool_decide; [done|]. destruct (m_key m) as [|t kr] eqn:Ek; [done|].
  case_bool_decide.
  { assert (Hr : tidy_at h (reset c s)).
    { unfold tidy_at in *. cbn. destruct Ht1 as [?|(? & _ & _)]; [by left|right]. split; [done|]. split; [set_solver|]. by intros ?%elem_of_nil. }
    destruct (decode_int (m_val m)); simplify_eq/=. exact Hr. }
  destruct (lru_contains (mp_done s) h) eqn:Hd; [by simplify_eq|]. apply contains_false in Hd.
  case_bool_decide; [by simplify_eq|].
  case_bool_decide.
  - destruct (decode_batch (m_val m)) as [b|]; [|done]. destruct (mp_pend s !! h) eqn:Hph; [by simplify_eq|]. cbn in E.
    destruct (mp_queue s !! h) as [q|] eqn:Hq.
    + match type of E with (mbind _ ?r = _) => destruct r as [[s1 er]| |]; cbn in E; try done end.
      destruct er; [done|]. simplify_eq. left. rewrite finish_queue. cbn. apply lookup_delete.
    + simplify_eq. left. by rewrite finish_queue.
  - assert (Hqm : mp_pend s !! h = None → tidy_at h (queue_msg s h m)) by (intros ?; by right).
    assert (Hqn : is_Some (mp_pend s !! h) → mp_queue s !! h = None).
    { intros [pb Hp]. destruct Ht1 as [?|(? & _)]; [done|congruence]. }
    case_bool_decide.
    + destruct (mp_pend s !! h) as [pb0|] eqn:Hph; [|simplify_eq/=; by apply Hqm].
      case_bool_decide; [by simplify_eq|]. destruct (decode_int (m_val m)); [|done]. case_bool_decide; [done|].
      match type of E with (mbind _ ?r = _) => destruct r as [pb3| |]; cbn in E; try done end.
      injection E as <-. left. rewrite finish_queue. cbn. by apply Hqn.
    + destruct (mp_pend s !! h) as [pb0|] eqn:Hph; [|simplify_eq/=; by apply Hqm].
      destruct (apply_msg pb0 m) as [r| |]; cbn in E; try done. injection E as <-. left. rewrite finish_queue. cbn. by apply Hqn.
Qed.
Lemma error_free_tidy c ins st st' : base_inv c st → tidy st → error_free c ins st st' → tidy st' ∧ base_inv c st'.
Proof.
  intros Hb Ht Hr. induction Hr as [st|m e ins st st1 st2 E _ IH|n ins st st2 _ IH]; [done| |].
  - apply IH; [|by eapply process_tidy]. apply (step_base c st (IMsg m e) st1); [done|]. cbn. by rewrite E.
  - apply IH; [by apply (step_base c st (IEvict n))|]. intros h.
    destruct (evict_older_spec st n) as (E1 & E2 & E3 & E4 & _). eapply tidy_at_ext; [..|apply Ht]; done.
Qed.
Lemma new_tidy c last st : mp_new c last = Ok st → tidy st.
Proof. unfold mp_new. case_bool_decide; [|done]. intros [= <-] h. left. apply lookup_empty. Qed.

Lemma released c last st0 ins st : mp_new c last = Ok st0 → error_free c ins st0 st →
  (∀ h, settled_block st h → ¬ holds st h) ∧ (∀ h, is_Some (mp_pend st !! h) → mp_queue st !! h = None) ∧
  length (lru_keys (mp_done st)) ≤ Z.to_nat (2 * mc_thr c).
Proof.
  intros Hn Hr. destruct (error_free_tidy c ins st0 st) as [Ht Hb]; [by eapply new_base|by eapply new_tidy|done|].
  split; [|split].
  - intros h Hs [[pb Hp]|[q Hq]].
    + destruct (bi_pend _ _ Hb _ _ Hp) as (_ & ? & ?). by destruct Hs.
    + destruct (Ht h) as [?|(_ & ? & ?)]; [congruence|by destruct Hs].
  - intros h [pb Hp]. destruct (Ht h) as [?|(? & _)]; [done|congruence].
  - destruct (bi_cap _ _ Hb) as [<- _]. apply (bi_wf _ _ Hb).
Qed.

(** * Everything kept was received *)
Lemma kept c ins st : consumer_run c ins st →
  (∀ h pb, mp_pend st !! h = Some pb → pb_hash pb = h ∧ (∃ m, m ∈ messages ins ∧ header_of h m) ∧
     ∀ k m, pb_pmsgs pb !! k = Some m → m ∈ messages ins ∧ about h m) ∧
  (∀ h q, mp_queue st !! h = Some q → ∀ k m, q !! k = Some m →
     m_key m = k ∧ m ∈ messages ins ∧ about h m ∧ ¬ header_of h m ∧ ¬ reorg_type m).
Proof.
  intros Hr. destruct (run_ok _ _ _ Hr) as [Hk _]. assert (Hb := consumer_base _ _ _ Hr). split.
  - intros h pb Hp. destruct (ki_pend _ _ Hk _ _ Hp) as (Eh & [[_ Hg] (ms1 & m & ms2 & Em & E1 & E2 & E3 & _)] & _).
    split; [done|]. subst h. split.
    + exists m. split; [rewrite Em; apply elem_of_app; right; apply elem_of_list_here|]. split; [by apply hash_about|done].
    + intros k m' Hm'. destruct (Hg k m' Hm') as (? & ? & ?). split; [done|]. by apply hash_about.
  - intros h q Hq k m Hm. destruct (ki_queue _ _ Hk _ _ _ _ Hq Hm) as (Hin & H1 & H2 & H3 & H4).
    destruct (bi_queue _ _ Hb _ _ _ _ Hq Hm) as [<- _]. split; [done|]. split; [done|]. split; [by apply hash_about|].
    split; [by intros [_ ?]|done].
Qed.

(** * What is queued is not dropped without a header *)
Lemma later_queue rec c e st m h st' err : later h m → process_with rec c e st m = Ok (st', err) →
  mp_queue st' = mp_queue st ∨ mp_queue st' = mp_queue (queue_msg st h m).
Proof.
  intros (Hh & Hlen & Ht0 & Ht5). unfold process_with. rewrite Hh.
  destruct (upd_res_spec (drain st) m) as (_ & E2 & _). destruct (drain_spec st) as (E1 & _).
  assert (Eq : mp_queue (mp_update_res (drain st) m) = mp_queue st) by congruence. clear E1 E2.
  set (s := mp_update_res (drain st) m) in *. clearbody s. rewrite bool_decide_eq_false_2 by lia. unfold type_of in *.
  destruct (m_key m) as [|t kr] eqn:Ek; [discriminate|]. rewrite bool_decide_eq_false_2 by (cbn in *; congruence).
  assert (Hqm : mp_queue (queue_msg s h m) = mp_queue (queue_msg st h m)) by (unfold queue_msg; cbn; by rewrite Eq).
  intros E. rewrite <- Hqm. destruct (lru_contains (mp_done s) h); [simplify_eq; by left|].
  case_bool_decide; [simplify_eq; by left|]. rewrite bool_decide_eq_false_2 in E by (cbn in *; congruence).
  case_bool_decide.
  - destruct (mp_pend s !! h) as [pb|]; [|simplify_eq; by right].
    case_bool_decide; [simplify_eq; by left|]. destruct (decode_int (m_val m)); [|simplify_eq; by left]. case_bool_decide; [done|].
    match type of E with (mbind _ ?r = _) => destruct r as [pb3| |]; cbn in E; try done end.
    injection E as <- <-. left. rewrite finish_queue. exact Eq.
  - destruct (mp_pend s !! h) as [pb|]; [|simplify_eq; by right].
    destruct (apply_msg pb m) as [r| |]; cbn in E; try done. injection E as <- <-. left. rewrite finish_queue. exact Eq.
Qed.
Definition grown (h : hash) (st st' : mp) : Prop :=
  ∀ q, mp_queue st !! h = Some q → ∃ q', mp_queue st' !! h = Some q' ∧ dom q ⊆ dom q'.
Lemma process_grown c e st m st' err h : base_inv c st → process c e st m = Ok (st', err) → ¬ header_of h m → grown h st st'.
Proof.
  intros Hb E Hn q Hq. destruct (decide (h = msg_hash m)) as [->|Hne].
  2: { destruct (process_frame _ _ _ _ _ _ Hb E) as (_ & Hf & _). exists q. rewrite Hf by done. done. }
  destruct (decide (33 ≤ length (m_key m))) as [Hlen|Hlen].
  2: { unfold process, process_with at 1 in E. rewrite bool_decide_eq_true_2 in E by lia. discriminate. }
  assert (Ht0 : head (m_key m) ≠ Some BatchType) by (intros ?; apply Hn; split; [by apply hash_about|done]).
  destruct (decide (head (m_key m) = Some ReorgType)) as [Ht|Ht].
  - exists q. split; [|done]. unfold process, process_with at 1 in E.
    destruct (upd_res_spec (drain st) m) as (_ & E2 & _). destruct (drain_spec st) as (E1 & _).
    assert (Eq : mp_queue (mp_update_res (drain st) m) = mp_queue st) by congruence.
    set (s := mp_update_res (drain st) m) in *. clearbody s. rewrite bool_decide_eq_false_2 in E by lia.
    destruct (m_key m) as [|t kr]; [discriminate|]. cbn in Ht. rewrite bool_decide_eq_true_2 in E by congruence.
    destruct (decode_int (m_val m)); simplify_eq/=; by rewrite Eq.
  - assert (Hl : later (msg_hash m) m) by done. destruct (later_queue _ _ _ _ _ _ _ _ Hl E) as [->| ->]; [by exists q|].
    eexists. rewrite queue_msg_spec, bool_decide_eq_true_2 by done. split; [done|]. rewrite Hq. cbn. rewrite dom_insert_L. set_solver.
Qed.
Lemma never_released c ins0 st ins st' h q : consumer_run c ins0 st → mp_queue st !! h = Some q →
  (∀ m, m ∈ messages ins → ¬ header_of h m) → mp_run c ins st = Ok st' →
  ∃ q', mp_queue st' !! h = Some q' ∧ dom q ⊆ dom q'.
Proof.
  intros Hb%consumer_base. revert st q Hb. induction ins as [|i ins IH]; intros st q Hb Hq Hm Hr.
  - injection Hr as <-. by exists q.
  - unfold mp_run in Hr. cbn [foldM] in Hr. destruct (mp_step c st i) as [st1| |] eqn:E; try discriminate. cbn [mbind outcome_bind] in Hr.
    assert (Hb1 := step_base _ _ _ _ Hb E).
    assert (Hg : ∃ q1, mp_queue st1 !! h = Some q1 ∧ dom q ⊆ dom q1).
    { destruct i as [m e|n]; cbn [mp_step] in E.
      - destruct (process c e st m) as [[st2 er]| |] eqn:E2; try discriminate. cbn in E. injection E as <-.
        eapply process_grown; [exact Hb|exact E2| |exact Hq]. apply Hm. cbn. apply elem_of_list_here.
      - injection E as <-. destruct (evict_older_spec st n) as (_ & -> & _). by exists q. }
    destruct Hg as (q1 & Hq1 & Hs). destruct (IH st1 q1 Hb1 Hq1) as (q' & Hq' & Hs'); [|done|].
    + intros m Hin. apply Hm. destruct i; cbn; [by apply elem_of_list_further|done].
    + exists q'. split; [done|]. set_solver.
Qed.

(** * Messages of well-formed blocks cause no errors *)
Lemma error_free_run c ins st st' : error_free c ins st st' → mp_run c ins st = Ok st'.
Proof.
  induction 1 as [st|m e ins st st1 st2 E _ IH|n ins st st2 _ IH]; [done| |].
  - unfold mp_run. cbn [foldM mp_step]. rewrite E. cbn. exact IH.
  - exact IH.
Qed.
Lemma reorg_no_error c e st m : is_reorg m = true → 33 ≤ length (m_key m) → is_Some (decode_int (m_val m)) →
  ∃ st', process c e st m = Ok (st', false).
Proof.
  intros Hr Hl [n Hn]. unfold is_reorg in Hr. apply bool_decide_eq_true in Hr. unfold process, process_with at 1.
  rewrite bool_decide_eq_false_2 by lia. destruct (m_key m) as [|t kr]; [done|]. injection Hr as ->.
  rewrite bool_decide_eq_true_2 by done. rewrite Hn. eauto.
Qed.
Lemma wf_error_free mt (fam : block → Prop) c ins st0 last :
  (∀ b, fam b → wf_block mt b) →
  (∀ b b', fam b → fam b' → ba_hash (bk_args b) = ba_hash (bk_args b') → b = b') →
  mp_new c last = Ok st0 → Forall input_ok ins →
  (∀ m, m ∈ messages ins → 33 ≤ length (m_key m) ∧
     (reorg_type m ∧ is_Some (decode_int (m_val m)) ∨
      ¬ reorg_type m ∧ ∃ b, fam b ∧ about (ba_hash (bk_args b)) m ∧ (copy_of mt b m ∨ foreign_type m))) →
  ∃ st, error_free c ins st0 st.
Proof.
  intros Hwf Hu Hn Hok Hms.
  assert (G : ∀ ins st, Forall input_ok ins →
    (∀ m, m ∈ messages ins → 33 ≤ length (m_key m) ∧
       (reorg_type m ∧ is_Some (decode_int (m_val m)) ∨
        ¬ reorg_type m ∧ ∃ b, fam b ∧ about (ba_hash (bk_args b)) m ∧ (copy_of mt b m ∨ foreign_type m))) →
    (∀ b, fam b → ∃ hist, inv mt b c False hist st) → ∃ st', error_free c ins st st').
  2: { apply (G ins st0 Hok Hms). intros b Hb. exists []. eapply inv_new; [by apply Hwf|exact Hn]. }
  clear ins st0 last Hn Hok Hms. induction ins as [|i ins IH]; intros st Hok Hms Hinv; [eexists; constructor|].
  apply Forall_cons in Hok as [Hok1 Hok].
  assert (Hgood : ∀ b, fam b → input_good mt b False i).
  { intros b Hb. destruct i as [m e|n]; [|by intros []]. split; [done|]. split; [by intros ? ? ? []|].
    intros Hh Hnr. destruct (Hms m) as [Hl [[Hre _]|(_ & b' & Hb' & Hab & Hc)]].
    - apply elem_of_messages. exists e. apply elem_of_list_here.
    - exfalso. unfold is_reorg in Hnr. by apply bool_decide_eq_false in Hnr.
    - assert (b' = b) as ->.
      { apply Hu; [done|done|]. rewrite <- Hh. symmetry. apply about_hash; [|done]. apply (wf_hash _ _ (Hwf b' Hb')). }
      destruct Hc as [?|?]; [by left|right]. split; [done|]. split; done. }
  assert (Hmore : ∀ s, mp_step c st i = Ok s → ∃ st', error_free c ins s st').
  { intros s Hs. apply (IH s Hok).
    - intros m [e He]%elem_of_messages. apply Hms, elem_of_messages. exists e. by apply elem_of_list_further.
    - intros b Hb. destruct (Hinv b Hb) as [hist Hi]. eexists. eapply inv_step; [by apply Hwf|exact Hi|by apply Hgood|exact Hs]. }
  destruct i as [m e|n].
  2: { destruct (Hmore _ eq_refl) as [st' H]. exists st'. by constructor. }
  assert (Hstep : ∃ s, process c e st m = Ok (s, false)).
  { destruct (Hms m) as [Hl [[Hre Hdec]|(Hre & b' & Hb' & Hab & Hc)]].
    - apply elem_of_messages. exists e. apply elem_of_list_here.
    - apply reorg_no_error; [|done|done]. unfold is_reorg. by apply bool_decide_eq_true.
    - destruct (Hgood b' Hb') as (He & Hqe & Hg). destruct (Hinv b' Hb') as [hist Hi].
      destruct (inv_good mt b' c (Hwf b' Hb') False e hist st m Hi) as (st' & -> & _); [|done|done|by eexists].
      apply Hg; [|by apply not_reorg]. apply about_hash; [|done]. apply (wf_hash _ _ (Hwf b' Hb')). }
  destruct Hstep as [s Hs]. destruct (Hmore s) as [st' H]; [cbn; by rewrite Hs|]. exists st'. by econstructor.
Qed.
Lemma wf_released mt (fam : block → Prop) c ins st :
  (∀ b, fam b → wf_block mt b) →
  (∀ b b', fam b → fam b' → ba_hash (bk_args b) = ba_hash (bk_args b') → b = b') →
  consumer_run c ins st → Forall input_ok ins →
  (∀ m, m ∈ messages ins → 33 ≤ length (m_key m) ∧
     (reorg_type m ∧ is_Some (decode_int (m_val m)) ∨
      ¬ reorg_type m ∧ ∃ b, fam b ∧ about (ba_hash (bk_args b)) m ∧ (copy_of mt b m ∨ foreign_type m))) →
  (∀ h, settled_block st h → ¬ holds st h) ∧ (∀ h, is_Some (mp_pend st !! h) → mp_queue st !! h = None) ∧
  length (lru_keys (mp_done st)) ≤ Z.to_nat (2 * mc_thr c).
Proof.
  intros Hwf Hu (last & st0 & Hn & Hr) Hok Hms.
  destruct (wf_error_free mt fam c ins st0 last Hwf Hu Hn Hok Hms) as [st' Hef].
  assert (st' = st) as -> by (apply error_free_run in Hef; congruence). by eapply released.
Qed.
