(** C72: runs of a message processor that also gets whole blocks. *)
From Verif Require Import Base Lru LruFacts Types Avro AvroFacts Wire SpecWire WireFacts GoPath PathFacts Producer SpecBlock
  Consumer ConsumerBase ConsumerFacts Assembly Assembly2 Assembly3 SpecCollect CollectFacts CollectFacts2 AgainFacts
  System SystemFacts MixedSystem SpecMixed MixedFacts.

Lemma calls_snoc_inv c xs st0 x st' : calls_run c (xs ++ [x]) st0 = Ok st' → ∃ st, calls_run c xs st0 = Ok st ∧ call_step c st x = Ok st'.
Proof.
  unfold calls_run. rewrite foldM_app. destruct (foldM (call_step c) xs st0) as [st| |]; cbn; try discriminate.
  destruct (call_step c st x) as [s| |] eqn:E; cbn; try discriminate. intros [= <-]. eauto.
Qed.
Lemma mixed_ind (c : mp_config) (P : list mp_call → mp → Prop) :
  (∀ last st, mp_new c last = Ok st → P [] st) →
  (∀ xs st x st', mixed_run c xs st → P xs st → call_step c st x = Ok st' → P (xs ++ [x]) st') →
  ∀ xs st, mixed_run c xs st → P xs st.
Proof.
  intros H0 HS xs st (last & st0 & Hn & Hr). revert st Hr. induction xs as [|x xs IH] using rev_ind; intros st Hr.
  - injection Hr as <-. by eapply H0.
  - apply calls_snoc_inv in Hr as (s & Hr & Hs). apply (HS xs s); [by exists last, st0|by apply IH|done].
Qed.
Lemma inputs_app xs ys : inputs_of (xs ++ ys) = inputs_of xs ++ inputs_of ys.
Proof. apply omap_app. Qed.
Lemma wholes_app xs ys : wholes (xs ++ ys) = wholes xs ++ wholes ys.
Proof. apply omap_app. Qed.
Lemma call_base c st x st' : base_inv c st → call_step c st x = Ok st' → base_inv c st'.
Proof. intros Hb. destruct x as [i|pb]; cbn; [by apply step_base|]. intros [= <-]. by apply complete_base. Qed.
Lemma mixed_base c xs st : mixed_run c xs st → base_inv c st.
Proof. revert xs st. apply mixed_ind; [by intros; eapply new_base|]. intros xs st x st' _. by apply call_base. Qed.
Lemma call_out c st x st' : base_inv c st → call_step c st x = Ok st' → mp_out st `prefix_of` mp_out st'.
Proof.
  intros Hb. destruct x as [i|pb]; cbn; [by apply step_out|]. intros [= <-].
  destruct (complete_fields st pb) as (o & pb' & _ & -> & _). cbn. by apply prefix_app_r.
Qed.

Lemma messages_snoc_in ins i m : m ∈ messages ins → m ∈ messages (ins ++ [i]).
Proof. intros H. apply elem_messages_snoc. by left. Qed.

(** Where the emitted batches come from. *)
Lemma mixed_about c xs st : mixed_run c xs st → ∀ pb, EBatch pb ∈ mp_out st →
  (∃ m, m ∈ messages (inputs_of xs) ∧ msg_hash m = pb_hash pb) ∨ ∃ pb0, pb0 ∈ wholes xs ∧ as_given pb pb0.
Proof.
  revert xs st. apply (mixed_ind c (λ xs st, ∀ pb, EBatch pb ∈ mp_out st →
    (∃ m, m ∈ messages (inputs_of xs) ∧ msg_hash m = pb_hash pb) ∨ ∃ pb0, pb0 ∈ wholes xs ∧ as_given pb pb0)).
  - intros last st. unfold mp_new. case_bool_decide; [|discriminate]. intros [= <-] pb. cbn. by intros ?%elem_of_nil.
  - intros xs st x st' Hr IH Hs pb Hpb. assert (Hb := mixed_base _ _ _ Hr).
    rewrite inputs_app, wholes_app.
    assert (Hold : EBatch pb ∈ mp_out st → (∃ m, m ∈ messages (inputs_of xs ++ inputs_of [x]) ∧ msg_hash m = pb_hash pb) ∨
      ∃ pb0, pb0 ∈ wholes xs ++ wholes [x] ∧ as_given pb pb0).
    { intros H. destruct (IH pb H) as [(m & Hm & E)|(pb0 & H0 & E)]; [left|right].
      - exists m. split; [|done]. destruct x as [i|]; cbn; [by apply messages_snoc_in|by rewrite app_nil_r].
      - exists pb0. split; [apply elem_of_app; by left|done]. }
    destruct x as [[m e|n]|pb0]; cbn [call_step mp_step] in Hs.
    + destruct (process c e st m) as [[s er]| |] eqn:E; cbn in Hs; try discriminate. injection Hs as <-.
      destruct (process_out _ _ _ _ _ _ Hb E) as (o & Ho & Hh). rewrite Ho in Hpb. apply elem_of_app in Hpb as [H|H]; [by apply Hold|].
      left. exists m. split; [|symmetry; by apply Hh]. apply elem_messages_snoc. right. eauto.
    + injection Hs as <-. destruct (evict_older_spec st n) as (_ & _ & _ & _ & E5 & _). rewrite E5 in Hpb. by apply Hold.
    + injection Hs as <-. destruct (complete_fields st pb0) as (o & pb' & Hg & E & Hx & _). rewrite E in Hpb. cbn in Hpb.
      apply elem_of_app in Hpb as [H|H]; [by apply Hold|]. apply Hx in H as ->. right. exists pb0. split; [|done].
      apply elem_of_app. right. apply elem_of_list_here.
Qed.
Lemma mixed_sent c xs st : mixed_run c xs st → ∀ pb0, pb0 ∈ wholes xs → ∃ pb, EBatch pb ∈ mp_out st ∧ as_given pb pb0.
Proof.
  revert xs st. apply (mixed_ind c (λ xs st, ∀ pb0, pb0 ∈ wholes xs → ∃ pb, EBatch pb ∈ mp_out st ∧ as_given pb pb0)).
  - by intros last st _ pb0 ?%elem_of_nil.
  - intros xs st x st' Hr IH Hs pb0. rewrite wholes_app. intros [H|H]%elem_of_app.
    + destruct (IH pb0 H) as (pb & Hpb & Hg). exists pb. split; [|done]. eapply elem_of_prefix; [exact Hpb|].
      eapply call_out; [by eapply mixed_base|exact Hs].
    + destruct x as [i|pb1]; [by apply elem_of_nil in H|]. apply elem_of_list_singleton in H as ->. injection Hs as <-.
      destruct (complete_fields st pb1) as (o & pb' & Hg & -> & Hx & _). exists pb'. split; [|done]. cbn. apply elem_of_app. right. by apply Hx.
Qed.
Lemma mixed_quiet c xs st : mixed_run c xs st → (∀ m, m ∈ messages (inputs_of xs) → ¬ reorg_type m) → sent_reorgs (mp_out st) = [].
Proof.
  revert xs st. apply (mixed_ind c (λ xs st, (∀ m, m ∈ messages (inputs_of xs) → ¬ reorg_type m) → sent_reorgs (mp_out st) = [])).
  - intros last st. unfold mp_new. case_bool_decide; [|discriminate]. by intros [= <-].
  - intros xs st x st' Hr IH Hs Hnr. assert (Hb := mixed_base _ _ _ Hr). rewrite inputs_app in Hnr.
    assert (Hold : sent_reorgs (mp_out st) = []).
    { apply IH. intros m Hm. apply Hnr. destruct x as [i|]; cbn; [by apply messages_snoc_in|by rewrite app_nil_r]. }
    destruct x as [[m e|n]|pb0]; cbn [call_step mp_step] in Hs.
    + destruct (process c e st m) as [[s er]| |] eqn:E; cbn in Hs; try discriminate. injection Hs as <-.
      apply process_prims in E; [|apply Hb]. rewrite (not_reorg m) in E by (apply Hnr, elem_messages_snoc; right; eauto).
      cbn. rewrite <- Hold. clear -E. induction E as [|x y z Hxy _ IH]; [done|]. rewrite IH. by eapply prim_quiet.
    + injection Hs as <-. destruct (evict_older_spec st n) as (_ & _ & _ & _ & E5 & _). by rewrite E5.
    + injection Hs as <-. destruct (complete_fields st pb0) as (o & pb' & Hg & -> & Hx & Hn). cbn.
      rewrite sent_reorgs_app, Hold. cbn. clear -Hn. unfold sent_reorgs. induction o as [|ev o IH]; [done|].
      assert (Ho : ∀ n h, EReorg n h ∉ o) by (intros n h Hin; apply (Hn n h); by apply elem_of_list_further).
      destruct ev as [| |n h]; cbn; [by apply IH|by apply IH|]. exfalso. apply (Hn n h), elem_of_list_here.
Qed.

Section block.
  Context (mt : bytes → option bytes) (b : block) (c : mp_config).
  Context (Hwf : wf_block mt b).
  Notation h := (ba_hash (bk_args b)).

  Lemma faithful_snoc ins i : faithful mt b (messages (ins ++ [i])) → faithful mt b (messages ins).
  Proof. intros H m Hm. apply H. by apply messages_snoc_in. Qed.
  Lemma faithful_good ins m e : faithful mt b (messages (ins ++ [IMsg m e])) → 33 ≤ length (m_key m) → msg_hash m = h →
    is_reorg m = false → good mt b m.
  Proof.
    intros Hf Hlen Hh Hr. assert (Hnr : ¬ reorg_type m) by (by apply bool_decide_eq_false in Hr).
    assert (Ha : about h m) by (by apply hash_about).
    destruct (Hf m) as [?|?]; [apply elem_messages_snoc; right; eauto|done|done|by left|]. right. split; [done|]. by split.
  Qed.
  Lemma coll_call xs st x st' hist : base_inv c st → coll mt b c hist st → call_step c st x = Ok st' →
    Forall input_ok (inputs_of (xs ++ [x])) → faithful mt b (messages (inputs_of (xs ++ [x]))) →
    ∃ hist' o, coll mt b c hist' st' ∧ mp_out st' = mp_out st ++ o ∧
      ∀ pb, EBatch pb ∈ o → pb_hash pb = h → exact mt b (mc_tracked c) pb ∨ ∃ pb0, x = CWhole pb0 ∧ as_given pb pb0.
  Proof.
    intros Hb Hcl Hs. rewrite inputs_app. destruct x as [i|pb0].
    - cbn [inputs_of omap list_omap]. intros [_ Hi]%Forall_app Hf. apply (proj1 (Forall_singleton _ _)) in Hi.
      destruct i as [m e|n]; cbn [call_step mp_step] in Hs.
      + destruct (process c e st m) as [[s er]| |] eqn:E; cbn in Hs; try discriminate. injection Hs as <-.
        destruct (process_out _ _ _ _ _ _ Hb E) as (o & Ho & Hh). destruct (is_reorg m) eqn:Er.
        * assert (En : ∀ pb, EBatch pb ∉ o).
          { intros pb Hpb. assert (Eo := E). apply (process_reorg c) in Eo; [|done].
            destruct (settle_spec st m) as (_ & _ & E3 & _).
            destruct Eo as [->|[n ->]]; cbn in Ho; rewrite E3 in Ho.
            - rewrite <- (app_nil_r (mp_out st)) in Ho at 1. apply app_inv_head in Ho as <-. by apply elem_of_nil in Hpb.
            - apply app_inv_head in Ho as <-. by apply elem_of_list_singleton in Hpb. }
          exists hist, o. split; [|split; [done|intros pb Hpb; by destruct (En pb)]].
          destruct (process_reorg c e st m s er Er E) as [->|[n ->]]; [|apply coll_announce]; apply coll_reset; try done; by apply coll_settle.
        * destruct (decide (msg_hash m = h)) as [Em|Hne].
          -- destruct (coll_good mt b c Hwf e hist st m Hcl) as (s' & o' & E' & Hcl' & Ho' & Hx).
             { eapply faithful_good; [exact Hf|by eapply process_len|done|done]. }
             { apply Hi. }
             rewrite E in E'. injection E' as -> ->. exists (hist ++ [m]), o'. split; [done|]. split; [done|].
             intros pb Hpb Eh. left. by apply Hx.
          -- exists hist, o. split; [|split; [done|]].
             ++ apply process_prims in E; [|apply Hb]. rewrite Er in E. by eapply coll_prims.
             ++ intros pb Hpb Eh. exfalso. apply Hne. rewrite <- Eh. symmetry. by apply Hh.
      + injection Hs as <-. exists hist, []. split; [|split; [|by intros ? ?%elem_of_nil]].
        * eapply (coll_prim mt b c (ME id (λ _, id) (λ _, [n])) (h + 1)%N); [lia|apply (PPush _ _ _ _ _ []), elem_of_list_here|done].
        * destruct (evict_older_spec st n) as (_ & _ & _ & _ & -> & _). by rewrite app_nil_r.
    - injection Hs as <-. intros _ _. destruct (complete_fields st pb0) as (o & pb' & Hg & E & Hx & _).
      exists hist, o. split; [by apply coll_whole|]. split; [by rewrite E|]. intros pb ->%Hx _. right. by exists pb0.
  Qed.
  Lemma inputs_mono P xs x : Forall P (inputs_of (xs ++ [x])) → Forall P (inputs_of xs).
  Proof. rewrite inputs_app. by intros [H _]%Forall_app. Qed.
  Lemma faithful_mono xs x : faithful mt b (messages (inputs_of (xs ++ [x]))) → faithful mt b (messages (inputs_of xs)).
  Proof. rewrite inputs_app. destruct x as [i|]; cbn; [apply faithful_snoc|by rewrite app_nil_r]. Qed.

  Lemma mixed_coll xs st : mixed_run c xs st → Forall input_ok (inputs_of xs) → faithful mt b (messages (inputs_of xs)) →
    (∃ hist, coll mt b c hist st) ∧
    ∀ pb, EBatch pb ∈ mp_out st → pb_hash pb = h → exact mt b (mc_tracked c) pb ∨ ∃ pb0, pb0 ∈ wholes xs ∧ as_given pb pb0.
  Proof.
    revert xs st. apply (mixed_ind c (λ xs st, Forall input_ok (inputs_of xs) → faithful mt b (messages (inputs_of xs)) →
      (∃ hist, coll mt b c hist st) ∧
      ∀ pb, EBatch pb ∈ mp_out st → pb_hash pb = h → exact mt b (mc_tracked c) pb ∨ ∃ pb0, pb0 ∈ wholes xs ∧ as_given pb pb0)).
    - intros last st Hn _ _. split; [exists []; by eapply inv_coll, inv_new|].
      revert Hn. unfold mp_new. case_bool_decide; [|discriminate]. intros [= <-] pb. cbn. by intros ?%elem_of_nil.
    - intros xs st x st' Hr IH Hs Hok Hf. assert (Hb := mixed_base _ _ _ Hr).
      destruct (IH (inputs_mono _ _ _ Hok) (faithful_mono _ _ Hf)) as ((hist & Hcl) & Hex).
      destruct (coll_call xs st x st' hist Hb Hcl Hs Hok Hf) as (hist' & o & Hcl' & Ho & Hx).
      split; [by exists hist'|]. rewrite Ho, wholes_app. intros pb [Hpb|Hpb]%elem_of_app Eh.
      + destruct (Hex pb Hpb Eh) as [?|(pb0 & ? & ?)]; [by left|right]. exists pb0. split; [apply elem_of_app; by left|done].
      + destruct (Hx pb Hpb Eh) as [?|(pb0 & -> & ?)]; [by left|right]. exists pb0. split; [|done].
        apply elem_of_app. right. apply elem_of_list_here.
  Qed.

  Lemma mixed_inv xs st : mixed_run c xs st → Forall input_ok (inputs_of xs) → faithful mt b (messages (inputs_of xs)) →
    (∀ n, requested (inputs_of xs) n → (n ≤ ba_num (bk_args b))%Z) → (∀ pb, pb ∈ wholes xs → pb_hash pb ≠ h) →
    inv mt b c True (omap (of_block b) (inputs_of xs)) st.
  Proof.
    revert xs st. apply (mixed_ind c (λ xs st, Forall input_ok (inputs_of xs) → faithful mt b (messages (inputs_of xs)) →
      (∀ n, requested (inputs_of xs) n → (n ≤ ba_num (bk_args b))%Z) → (∀ pb, pb ∈ wholes xs → pb_hash pb ≠ h) →
      inv mt b c True (omap (of_block b) (inputs_of xs)) st)).
    - intros last st Hn _ _ _ _. by eapply inv_new.
    - intros xs st x st' Hr IH Hs Hok Hf Hreq Hw.
      assert (Hi : inv mt b c True (omap (of_block b) (inputs_of xs)) st).
      { apply IH; [by eapply inputs_mono|by eapply faithful_mono| |].
        - intros n Hn. apply Hreq. rewrite inputs_app.
          destruct Hn as [H|(m & e & k & H & Hk)]; [left; apply elem_of_app; by left|right]. exists m, e, k. split; [apply elem_of_app; by left|done].
        - intros pb Hpb. apply Hw. rewrite wholes_app. apply elem_of_app. by left. }
      rewrite inputs_app, omap_app. destruct x as [i|pb].
      + rewrite inputs_app in Hok, Hf, Hreq. cbn [inputs_of omap list_omap] in *. apply Forall_app in Hok as [_ Hok]. apply (proj1 (Forall_singleton _ _)) in Hok.
        assert (E : omap (of_block b) [i] = option_list (of_block b i)) by (cbn; by destruct (of_block b i)).
        cbn [omap list_omap] in E. rewrite E. eapply (inv_step mt b c Hwf); [exact Hi| |exact Hs].
        destruct i as [m e|n]; cbn.
        * split; [done|]. split.
          -- intros _ k n Hk. apply Hreq. right. exists m, e, k. split; [|done]. apply elem_of_app. right. apply elem_of_list_here.
          -- intros Hh Hnr. cbn in Hs. destruct (process c e st m) as [r| |] eqn:Ep; try discriminate.
             eapply faithful_good; [exact Hf|by eapply process_len|done|done].
        * intros _. apply Hreq. left. apply elem_of_app. right. apply elem_of_list_here.
      + cbn. rewrite app_nil_r. injection Hs as <-. apply inv_whole; [|done]. apply Hw. rewrite wholes_app. apply elem_of_app. right. apply elem_of_list_here.
  Qed.
  Lemma mixed_completes xs st : mixed_run c xs st → Forall input_ok (inputs_of xs) → faithful mt b (messages (inputs_of xs)) →
    (∀ n, requested (inputs_of xs) n → (n ≤ ba_num (bk_args b))%Z) →
    (∀ kd, needed mt b (mc_tracked c) kd → delivered (messages (inputs_of xs)) kd) → ∃ pb, emitted_batch st h pb.
  Proof.
    intros Hr Hok Hf HS Hall.
    destruct (decide (h ∈ map pb_hash (wholes xs))) as [Hin|Hn].
    - apply elem_of_list_fmap in Hin as (pb0 & Eh & H0). destruct (mixed_sent c xs st Hr pb0 H0) as (pb & Hpb & (_ & _ & _ & E & _)).
      exists pb. split; [done|]. congruence.
    - assert (Hinv : inv mt b c True (omap (of_block b) (inputs_of xs)) st).
      { apply mixed_inv; try done. intros pb Hpb Eh. apply Hn. rewrite <- Eh. by apply elem_of_list_fmap_1. }
      destruct (inv_complete mt b c True _ _ I Hinv) as (pb & ? & ?); [|by exists pb].
      intros kd Hk. destruct (Hall kd Hk) as (m & Hm & E). exists m. split; [|done].
      destruct (need_ok mt b (mc_tracked c) Hwf kd Hk) as [? ?]. eapply msgs_of_block; try done. by destruct Hk.
  Qed.
  Lemma mixed_total xs st m e : mixed_run c xs st → Forall input_ok (inputs_of xs) → faithful mt b (messages (inputs_of xs)) →
    menv_ok e → copy_of mt b m ∨ foreign_type m → about h m → ∃ r, process c e st m = Ok r.
  Proof.
    intros Hr Hok Hf He Hm Ha. destruct (mixed_coll xs st Hr Hok Hf) as ((hist & Hcl) & _).
    assert (Hg : good mt b m).
    { destruct Hm as [?|?]; [by left|right]. split; [apply about_hash; [apply (wf_hash _ _ Hwf)|done]|]. split; [apply Ha|done]. }
    destruct (coll_good mt b c Hwf e hist st m Hcl Hg He) as (s & o & -> & _). eauto.
  Qed.
End block.

(** * A block that was emitted is not assembled again while it is remembered *)
Definition sent_since (n : nat) (st : mp) (x : hash) : Prop := ∃ pb, EBatch pb ∈ drop n (mp_out st) ∧ pb_hash pb = x.
Definition recent (n : nat) (h : hash) (st : mp) : Prop :=
  (∃ pre post, lru_keys (mp_done st) = pre ++ h :: post ∧ ∀ x, x ∈ pre → sent_since n st x) ∨
  (∃ hs, NoDup hs ∧ length hs = lru_cap (mp_done st) ∧ h ∉ hs ∧ ∀ x, x ∈ hs → sent_since n st x).
Lemma since_mono n st st' x : mp_out st `prefix_of` mp_out st' → sent_since n st x → sent_since n st' x.
Proof.
  intros [o E] (pb & Hpb & Eh). exists pb. split; [|done]. rewrite E.
  apply elem_of_list_lookup in Hpb as [i Hi]. rewrite lookup_drop in Hi. apply (elem_of_list_lookup_2 _ i). rewrite lookup_drop. by apply lookup_app_l_Some.
Qed.
Lemma removelast_snoc {A} (l : list A) x : removelast (l ++ [x]) = l.
Proof. apply removelast_last. Qed.
Lemma recent_add n h st st' x : lru_wf (mp_done st) → 0 < lru_cap (mp_done st) → recent n h st →
  mp_done st' = fst (lru_add (mp_done st) x) → mp_out st `prefix_of` mp_out st' → sent_since n st' x → recent n h st'.
Proof.
  intros [Hnd Hlen] Hc Hr Hd Ho Hx.
  destruct Hr as [(pre & post & Ek & Hpre)|(hs & H1 & H2 & H3 & H4)].
  2: { right. exists hs. split; [done|]. split; [rewrite Hd, lru_add_cap; done|]. split; [done|]. intros y Hy. eapply since_mono; [exact Ho|by apply H4]. }
  assert (Hpre' : ∀ y, y ∈ pre → sent_since n st' y) by (intros y Hy; eapply since_mono; [exact Ho|by apply Hpre]).
  unfold recent. rewrite Hd, lru_add_cap. unfold lru_add. rewrite Ek in *. case_bool_decide as Hin; cbn [fst lru_keys].
  - left. destruct (decide (x = h)) as [->|Hne].
    + eexists [], _. split; [reflexivity|]. by intros ? ?%elem_of_nil.
    + eexists (x :: filter (λ y, y ≠ x) pre), (filter (λ y, y ≠ x) post). split.
      * cbn [app]. rewrite filter_app, filter_cons_True by done. done.
      * intros y [->|Hy]%elem_of_cons; [done|]. apply elem_of_list_filter in Hy as [_ Hy]. by apply Hpre'.
  - case_bool_decide as Hlt; cbn [fst lru_keys].
    + destruct post as [|z post _] using rev_ind.
      * right. exists (x :: pre). apply NoDup_app in Hnd as (Hn1 & Hn2 & _). split; [|split; [|split]].
        -- constructor; [|done]. intros Hi. apply Hin. apply elem_of_app. by left.
        -- cbn [length] in Hlt |- *. rewrite app_length in Hlen, Hlt. cbn [length] in *. lia.
        -- intros [->|Hi]%elem_of_cons; [apply Hin, elem_of_app; right; apply elem_of_list_here|]. apply (Hn2 h Hi), elem_of_list_here.
        -- intros y [->|Hy]%elem_of_cons; [done|by apply Hpre'].
      * left. exists (x :: pre), post. split.
        -- change (x :: pre ++ h :: post ++ [z]) with ((x :: pre) ++ (h :: post) ++ [z]). rewrite app_assoc. apply removelast_snoc.
        -- intros y [->|Hy]%elem_of_cons; [done|by apply Hpre'].
    + left. exists (x :: pre), post. split; [done|]. intros y [->|Hy]%elem_of_cons; [done|by apply Hpre'].
Qed.
Lemma recent_same n h st st' : recent n h st → mp_done st' = mp_done st → mp_out st `prefix_of` mp_out st' → recent n h st'.
Proof.
  intros Hr Hd Ho. unfold recent in *. rewrite Hd. destruct Hr as [(pre & post & Ek & H)|(hs & H1 & H2 & H3 & H)]; [left|right].
  - exists pre, post. split; [done|]. intros x Hx. eapply since_mono; [done|by apply H].
  - exists hs. split_and!; try done. intros x Hx. eapply since_mono; [done|by apply H].
Qed.
Lemma recent_prim c e n h h' st st' : n ≤ length (mp_out st) → base_inv c st → prim c e false h' st st' → recent n h st → recent n h st'.
Proof.
  intros Hn Hb Hp Hr. assert (Ho : mp_out st `prefix_of` mp_out st').
  { destruct (prim_frame _ _ _ _ _ _ Hb Hp) as ((o & -> & _) & _). by apply prefix_app_r. }
  destruct Hp as [st|st m|st Hr'|st k Hr' Hd Ho'|st pb p k H1 H2 H3 H4|st m H1 H2 H3 H4|st pb pb' H1 H2 H3|st pb H1 H2|st|st k j Hj];
    try done; try (by apply (recent_same n h _ _ Hr)).
  - apply (recent_same n h _ _ Hr); [|done]. by destruct (drain_spec st) as (_ & -> & _).
  - apply (recent_same n h _ _ Hr); [|done]. by destruct (upd_res_spec st m) as (_ & _ & _ & -> & _).
  - eapply recent_add; [apply Hb|apply Hb|exact Hr|reflexivity|done|]. exists pb. cbn. split.
    + rewrite drop_app_le by done. apply elem_of_app. right. by apply elem_of_list_singleton.
    + by destruct (bi_pend _ _ Hb _ _ H1).
  - apply (recent_same n h _ _ Hr); [|done]. by destruct (evict_older_spec st j) as (_ & _ & _ & -> & _).
Qed.
Lemma recent_call c n h st x st' : n ≤ length (mp_out st) → base_inv c st → Forall plain_input (inputs_of [x]) → call_step c st x = Ok st' →
  recent n h st → recent n h st'.
Proof.
  intros Hn Hb Hi Hs Hr. destruct x as [[m e|k]|pb]; cbn [call_step mp_step inputs_of omap list_omap] in *.
  - apply (proj1 (Forall_singleton _ _)) in Hi. cbn in Hi. destruct (process c e st m) as [[s er]| |] eqn:E; cbn in Hs; try discriminate. injection Hs as <-.
    apply process_prims in E; [|apply Hb]. rewrite Hi in E. cbn. clear Hi. induction E as [|x y z Hxy _ IH]; [done|].
    apply IH; [|by eapply prim_base|by eapply recent_prim].
    destruct (prim_frame _ _ _ _ _ _ Hb Hxy) as ((o & -> & _) & _). rewrite app_length. lia.
  - injection Hs as <-. destruct (evict_older_spec st k) as (_ & _ & _ & E4 & E5 & _). apply (recent_same n h _ _ Hr); [done|by rewrite E5].
  - injection Hs as <-. destruct (complete_fields st pb) as (o & pb' & (_ & _ & _ & Eh & _) & E & Hx & _). rewrite E.
    eapply recent_add; [apply Hb|apply Hb|exact Hr|reflexivity|cbn; by apply prefix_app_r|]. exists pb'. cbn. split; [|done].
    rewrite drop_app_le by done. apply elem_of_app. right. by apply Hx.
Qed.
Lemma recent_calls c n h xs : ∀ st st', n ≤ length (mp_out st) → base_inv c st → Forall plain_input (inputs_of xs) → calls_run c xs st = Ok st' →
  recent n h st → base_inv c st' ∧ recent n h st'.
Proof.
  induction xs as [|x xs IH]; intros st st' Hn Hb Hi; [by intros [= <-]|].
  change (x :: xs) with ([x] ++ xs) in Hi. rewrite inputs_app in Hi. apply Forall_app in Hi as [Hi1 Hi].
  unfold calls_run. cbn [foldM]. destruct (call_step c st x) as [s| |] eqn:E; cbn [mbind outcome_bind]; try discriminate. intros Hs Hr.
  apply (IH s); [|by eapply call_base|done|done|by eapply recent_call].
  destruct (call_out _ _ _ _ Hb E) as [o ->]. rewrite app_length. lia.
Qed.

(** Emitted by whatever call: another emission of an assembled block needs 2*threshold others in between. *)
Lemma not_assembled_again c xs0 st x pb1 o1 st1 xs st2 i st3 pb2 o2 :
  mixed_run c xs0 st → call_step c st x = Ok st1 → mp_out st1 = mp_out st ++ o1 → EBatch pb1 ∈ o1 →
  (∀ m, m ∈ messages (inputs_of xs ++ [i]) → ¬ reorg_type m) → calls_run c xs st1 = Ok st2 →
  mp_step c st2 i = Ok st3 → mp_out st3 = mp_out st2 ++ o2 → EBatch pb2 ∈ o2 → pb_hash pb2 = pb_hash pb1 →
  ∃ hs, NoDup hs ∧ length hs = Z.to_nat (2 * mc_thr c) ∧ pb_hash pb1 ∉ hs ∧
        ∀ h, h ∈ hs → ∃ pb, EBatch pb ∈ drop (length (mp_out st1)) (mp_out st2) ∧ pb_hash pb = h.
Proof.
  intros Hr0 Hx Ho1 H1 Hnr Hr Hs Ho2 H2 Eh. assert (Hb := mixed_base _ _ _ Hr0).
  assert (Hb1 := call_base _ _ _ _ Hb Hx). set (n := length (mp_out st1)).
  assert (Hrec : recent n (pb_hash pb1) st1).
  { left. assert (∃ r, lru_keys (mp_done st1) = pb_hash pb1 :: r) as [r Er].
    { destruct x as [j|pb0]; [exact (step_emits_done c st j st1 o1 pb1 Hb Hx Ho1 H1)|]. injection Hx as <-.
      destruct (complete_fields st pb0) as (o & pb' & (_ & _ & _ & E4 & _) & E & Hxx & _). rewrite E in Ho1 |- *. cbn in Ho1 |- *.
      apply app_inv_head in Ho1 as <-. apply Hxx in H1 as ->. rewrite E4. destruct (bi_cap _ _ Hb) as [_ Hc0].
      unfold lru_add. case_bool_decide; cbn [fst lru_keys]; [eauto|]. case_bool_decide as Hl; cbn [fst lru_keys]; [|eauto].
      destruct (lru_keys (mp_done st)) as [|k ks]; [cbn in Hl; lia|]. eexists. reflexivity. }
    exists [], r. split; [done|]. by intros ? ?%elem_of_nil. }
  assert (Hpl : Forall plain_input (inputs_of xs ++ [i])) by (by apply no_reorgs_plain).
  apply Forall_app in Hpl as [Hpl Hpi]. apply (proj1 (Forall_singleton _ _)) in Hpi.
  destruct (recent_calls c n (pb_hash pb1) xs st1 st2 ltac:(done) Hb1 Hpl Hr Hrec) as [Hb2 Hrec2].
  destruct (step_window _ _ _ _ Hb2 Hpi Hs) as (o & Ho & _ & _ & Hfr). assert (o = o2) as -> by (rewrite Ho in Ho2; by simplify_list_eq).
  assert (Hnot : pb_hash pb1 ∉ lru_keys (mp_done st2)).
  { rewrite <- Eh. apply elem_of_list_split in H2 as (pre & post & ->). specialize (Hfr pre pb2 post eq_refl).
    intros Hin. apply Hfr. destruct (bi_cap _ _ Hb2) as [_ Hc0]. destruct (bi_wf _ _ Hb2) as [_ Hl].
    destruct (emitted pre) as [|h0 r] eqn:Ee; [by rewrite take_ge|].
    assert (h0 ∈ emitted pre) as (p & Hp & Eq)%elem_of_emitted by (rewrite Ee; apply elem_of_list_here).
    assert (h0 = pb_hash pb2) as ->.
    { destruct i as [m e|k]; cbn in Hs.
      - destruct (process c e st2 m) as [[s er]| |] eqn:E; cbn in Hs; try discriminate. injection Hs as ->.
        destruct (process_out _ _ _ _ _ _ Hb2 E) as (o & Oo & Fo). rewrite Ho2 in Oo. apply app_inv_head in Oo as <-.
        rewrite <- Eq. rewrite (Fo p) by (apply elem_of_app; by left). symmetry. apply Fo. apply elem_of_app. right. apply elem_of_list_here.
      - exfalso. injection Hs as <-. destruct (evict_older_spec st2 k) as (_ & _ & _ & _ & E5 & _). rewrite E5 in Ho2.
        apply (f_equal length) in Ho2. rewrite app_length, app_length in Ho2. cbn in Ho2. lia. }
    destruct (lru_cap (mp_done st2)) as [|k]; [lia|]. apply elem_of_list_here. }
  destruct Hrec2 as [(pre & post & Ek & _)|(hs & A1 & A2 & A3 & A4)].
  - exfalso. apply Hnot. rewrite Ek. apply elem_of_app. right. apply elem_of_list_here.
  - exists hs. split; [done|]. split; [rewrite A2; apply (bi_cap _ _ Hb2)|]. split; [done|]. exact A4.
Qed.
