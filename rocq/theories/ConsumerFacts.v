(** Properties of the message processor that hold for arbitrary messages (C04, C06, C32). *)
From Verif Require Import Base Lru LruFacts Types Avro Wire GoPath Consumer ConsumerBase.

Record base_inv (c : mp_config) (st : mp) : Prop := BI {
  bi_queue : queue_ok st;
  bi_pend : ∀ h pb, mp_pend st !! h = Some pb → pb_hash pb = h ∧ h ∉ mp_old st ∧ h ∉ lru_keys (mp_done st);
  bi_cap : lru_cap (mp_done st) = Z.to_nat (2 * mc_thr c) ∧ 0 < lru_cap (mp_done st);
  bi_wf : lru_wf (mp_done st)
}.

Lemma lru_add_other (l : lru hash) h h' : h' ∈ lru_keys (lru_add l h).1 → h' ≠ h → h' ∈ lru_keys l.
Proof. intros [->|?]%lru_add_elem ?; done. Qed.

Lemma prim_base c e r h st st' : prim c e r h st st' → base_inv c st → base_inv c st'.
Proof.
  intros Hp [Hq Hpd [Hc Hc0] Hw]. pose proof (prim_queue_ok _ _ _ _ _ _ Hp Hq) as Hq'.
  destruct Hp as [st|st m|st Hr|st n Hr Hd Ho|st pb p n H1 H2 H3 H4|st m H1 H2 H3 H4|st pb pb' H1 H2 H3|st pb H1 H2|st|st k n Hn].
  - destruct (drain_spec st) as (E1 & E2 & E3 & E4 & E5 & E6 & E7 & E8 & E9).
    split; [done| |by rewrite E2|by rewrite E2].
    intros h' pb [Hp Hne]%E8. destruct (Hpd _ _ Hp) as (? & ? & ?). rewrite E2, E9. split; [done|]. split; [|done].
    intros [?|(pb' & ? & ?)]; [done|]. by simplify_eq.
  - destruct (upd_res_spec st m) as (E1 & E2 & E3 & E4 & E5 & E6 & E7 & E8).
    split; [done| |by rewrite E4|by rewrite E4]. rewrite E1, E3, E4. exact Hpd.
  - split; [done| | |].
    + cbn. intros h' pb Hp. destruct (Hpd _ _ Hp) as (? & _ & _). split; [done|]. split; [set_solver|]. by intros ?%elem_of_nil.
    + cbn. split; [done|]. rewrite <- Hc. done.
    + split; cbn; [constructor|lia].
  - split; [done|exact Hpd|done|done].
  - split; [done| |done|done]. cbn. intros h' pb'. destruct (decide (h = h')) as [->|].
    + rewrite lookup_insert. intros [= <-]. done.
    + rewrite lookup_insert_ne by done. apply Hpd.
  - split; [done|exact Hpd|done|done].
  - split; [done| |done|done]. cbn. intros h' pb''. destruct (decide (h = h')) as [->|].
    + rewrite lookup_insert. intros [= <-]. destruct (Hpd _ _ H1) as (? & ? & ?). split; [congruence|done].
    + rewrite lookup_insert_ne by done. apply Hpd.
  - split; [done| | |].
    + cbn. intros h' pb' [Hne Hp]%lookup_delete_Some. destruct (Hpd _ _ Hp) as (? & ? & ?). split; [done|]. split; [done|].
      intros Hin. by apply lru_add_other in Hin.
    + cbn. rewrite lru_add_cap. done.
    + cbn. apply lru_add_wf; done.
  - split; [done|exact Hpd|done|done].
  - destruct (evict_older_spec st n) as (E1 & E2 & E3 & E4 & E5 & E6 & E7 & E8).
    split; [done| |by rewrite E4|by rewrite E4]. rewrite E1, E3, E4. exact Hpd.
Qed.
Lemma prims_base c e r h st st' : rtc (prim c e r h) st st' → base_inv c st → base_inv c st'.
Proof. induction 1 as [|x y z Hxy _ IH]; intros Hq; [done|]. apply IH. by eapply prim_base. Qed.

Lemma new_base c last st : mp_new c last = Ok st → base_inv c st.
Proof.
  unfold mp_new. case_bool_decide; [|discriminate]. intros [= <-]. split.
  - intros h q k m. cbn. by rewrite lookup_empty.
  - intros h pb. cbn. by rewrite lookup_empty.
  - cbn. lia.
  - split; cbn; [constructor|lia].
Qed.
Lemma step_base c st i st' : base_inv c st → mp_step c st i = Ok st' → base_inv c st'.
Proof.
  intros Hb. destruct i as [m e|n]; cbn.
  - destruct (process c e st m) as [[s er]| |] eqn:E; cbn; try discriminate. intros [= <-].
    eapply prims_base; [|exact Hb]. eapply process_prims; [apply Hb|exact E].
  - intros [= <-]. eapply (prim_base c (ME id (λ _, id) (λ _, [n])) false zero_hash); [|exact Hb].
    apply (PPush _ _ _ _ _ []). cbn. apply elem_of_list_here.
Qed.
Lemma run_base c ins st st' : base_inv c st → mp_run c ins st = Ok st' → base_inv c st'.
Proof.
  intros Hb Hr. eapply (foldM_inv (base_inv c)) in Hr; [exact Hr| |exact Hb].
  intros s i s' _ Hs Hi. by eapply step_base.
Qed.

(** * C06: frame *)
Definition event_hash (ev : mp_event) : hash :=
  match ev with EWaiter h _ _ _ => h | EBatch pb => pb_hash pb | EReorg _ h => h end.

Definition frame (ns : Z → Prop) (h : hash) (st st' : mp) : Prop :=
  (∃ o, mp_out st' = mp_out st ++ o ∧ Forall (λ ev, event_hash ev = h) o) ∧
  (∀ h', h' ≠ h → mp_queue st' !! h' = mp_queue st !! h') ∧
  (∀ h', h' ≠ h → mp_pend st' !! h' = mp_pend st !! h' ∨
     (mp_pend st' !! h' = None ∧ ∃ pb n, mp_pend st !! h' = Some pb ∧ (pb_num pb < n)%Z ∧ (n ∈ mp_evict st ∨ ns n))) ∧
  (∀ n, n ∈ mp_evict st' → n ∈ mp_evict st ∨ ns n).

Lemma frame_refl ns h st : frame ns h st st.
Proof. split; [exists []; by rewrite app_nil_r|]. split; [done|]. split; [by left|]. by left. Qed.
Lemma frame_trans ns h a b c : frame ns h a b → frame ns h b c → frame ns h a c.
Proof.
  intros ((o1 & O1 & F1) & Q1 & P1 & E1) ((o2 & O2 & F2) & Q2 & P2 & E2). split.
  { exists (o1 ++ o2). rewrite O2, O1, app_assoc. split; [done|]. by apply Forall_app. }
  split; [intros h' Hne; by rewrite Q2, Q1|]. split.
  - intros h' Hne. destruct (P2 h' Hne) as [->|(-> & pb & n & Hpb & Hlt & Hn)]; [by apply P1|].
    right. split; [done|]. destruct (P1 h' Hne) as [Hs|(Hs & _)]; [|congruence].
    exists pb, n. split; [congruence|]. split; [done|]. destruct Hn as [[?|?]%E1|?]; auto.
  - intros n Hn. destruct (E2 n Hn) as [[?|?]%E1|?]; auto.
Qed.
Lemma frame_eq ns h st st' :
  mp_pend st' = mp_pend st → mp_queue st' = mp_queue st → mp_out st' = mp_out st → mp_evict st' = mp_evict st → frame ns h st st'.
Proof.
  intros H1 H2 H3 H4. unfold frame. rewrite H1, H2, H3, H4.
  split; [exists []; by rewrite app_nil_r|]. split; [done|]. split; [by left|]. by left.
Qed.

Lemma prim_frame c e r h st st' : base_inv c st → prim c e r h st st' → frame (λ n, ∃ k, n ∈ me_evict e k) h st st'.
Proof.
  intros Hb Hp.
  destruct Hp as [st|st m|st Hr|st n Hr Hd Ho|st pb p n H1 H2 H3 H4|st m H1 H2 H3 H4|st pb pb' H1 H2 H3|st pb H1 H2|st|st k n Hn].
  - destruct (drain_spec st) as (E1 & E2 & E3 & E4 & E5 & E6 & E7 & E8 & E9). unfold frame. rewrite E1, E3, E7.
    split; [exists []; by rewrite app_nil_r|]. split; [done|]. split; [|by intros n ?%elem_of_nil].
    intros h' _. destruct (mp_pend (drain st) !! h') as [pb|] eqn:Ep.
    + left. apply E8 in Ep as [Ep _]. done.
    + destruct (mp_pend st !! h') as [pb|] eqn:Eq; [|by left]. right. split; [done|].
      destruct (decide (evicted (mp_evict st) pb)) as [(n & Hn & Hlt)|Hne]; [exists pb, n; by auto|].
      assert (mp_pend (drain st) !! h' = Some pb) by (by apply E8). congruence.
  - destruct (upd_res_spec st m) as (E1 & E2 & E3 & E4 & E5 & E6 & E7 & E8). by apply frame_eq.
  - by apply frame_eq.
  - split; [eexists; split; [reflexivity|repeat constructor]|]. split; [done|]. split; [by left|by left].
  - split; [eexists; split; [reflexivity|repeat constructor]|]. split; [done|]. split; [|by left].
    intros h' Hne. left. cbn. by rewrite lookup_insert_ne.
  - split; [exists []; by rewrite app_nil_r|]. split; [|split; [by left|by left]].
    intros h' Hne. rewrite queue_msg_spec. by rewrite bool_decide_eq_false_2.
  - split; [exists []; by rewrite app_nil_r|]. split; [done|]. split; [|by left].
    intros h' Hne. left. cbn. by rewrite lookup_insert_ne.
  - split; [eexists; split; [reflexivity|]; constructor; [|done]; by apply (bi_pend _ _ Hb)|]. split; [done|]. split; [|by left].
    intros h' Hne. left. cbn. by rewrite lookup_delete_ne.
  - split; [exists []; by rewrite app_nil_r|]. split; [|split; [by left|by left]].
    intros h' Hne. cbn. by rewrite lookup_delete_ne.
  - destruct (evict_older_spec st n) as (E1 & E2 & E3 & E4 & E5 & E6 & E7 & E8). unfold frame. rewrite E1, E2, E5.
    split; [exists []; by rewrite app_nil_r|]. split; [done|]. split; [by left|].
    intros n' Hin. unfold evict_older_than in Hin. case_bool_decide; [|by left]. cbn in Hin.
    apply elem_of_app in Hin as [?|Hin]; [by left|]. apply elem_of_list_singleton in Hin as ->. right. by exists k.
Qed.
Lemma prims_frame c e r h st st' : base_inv c st → rtc (prim c e r h) st st' → frame (λ n, ∃ k, n ∈ me_evict e k) h st st'.
Proof.
  intros Hb. induction 1 as [|x y z Hxy _ IH]; [apply frame_refl|].
  eapply frame_trans; [by eapply prim_frame|]. apply IH. by eapply prim_base.
Qed.
Lemma process_frame c e st m st' err :
  base_inv c st → process c e st m = Ok (st', err) → frame (λ n, ∃ k, n ∈ me_evict e k) (msg_hash m) st st'.
Proof. intros Hb Hp. eapply prims_frame; [done|]. eapply process_prims; [apply Hb|done]. Qed.

(** * C04: at most one emission per window *)
(** Hashes of the emitted batches, latest first. *)
Definition emitted (o : list mp_event) : list hash :=
  rev (omap (λ ev, match ev with EBatch pb => Some (pb_hash pb) | _ => None end) o).
Lemma emitted_app o1 o2 : emitted (o1 ++ o2) = emitted o2 ++ emitted o1.
Proof. unfold emitted. rewrite omap_app, rev_app_distr. done. Qed.
Lemma elem_of_emitted h o : h ∈ emitted o ↔ ∃ pb, EBatch pb ∈ o ∧ pb_hash pb = h.
Proof.
  unfold emitted. rewrite elem_of_list_In, <- in_rev, <- elem_of_list_In, elem_of_list_omap. split.
  - intros (ev & Hin & Hev). destruct ev; try discriminate. exists pb. by simplify_eq.
  - intros (pb & Hin & <-). by exists (EBatch pb).
Qed.

Lemma lru_add_fresh (l : lru hash) h : h ∉ lru_keys l → length (lru_keys l) ≤ lru_cap l → 0 < lru_cap l →
  lru_keys (lru_add l h).1 = take (lru_cap l) (h :: lru_keys l).
Proof.
  intros Hn Hl Hc. unfold lru_add. rewrite bool_decide_eq_false_2 by done. case_bool_decide as Hlt; cbn [fst lru_keys].
  - cbn [length] in Hlt. assert (Hlen : length (h :: lru_keys l) = S (lru_cap l)) by (cbn; lia).
    rewrite removelast_firstn_len. rewrite Hlen. done.
  - rewrite take_ge; [done|]. lia.
Qed.

(** Emissions without a reorg message in between: the completed cache holds the most recent ones,
    and no hash in it is emitted. *)
Definition fresh_out (cap : nat) (ks : list hash) (o : list mp_event) : Prop :=
  ∀ pre pb post, o = pre ++ EBatch pb :: post → pb_hash pb ∉ take cap (emitted pre ++ ks).
Definition no_reorg (ev : mp_event) : Prop := match ev with EReorg _ _ => False | _ => True end.
Definition window (c : mp_config) (st st' : mp) : Prop :=
  ∃ o, mp_out st' = mp_out st ++ o ∧
    lru_keys (mp_done st') = take (lru_cap (mp_done st)) (emitted o ++ lru_keys (mp_done st)) ∧
    lru_cap (mp_done st') = lru_cap (mp_done st) ∧
    fresh_out (lru_cap (mp_done st)) (lru_keys (mp_done st)) o.

Lemma fresh_nil cap ks : fresh_out cap ks [].
Proof. intros pre pb post E. by destruct pre. Qed.
Lemma take_app_take {A} n (a b : list A) : take n (a ++ take n b) = take n (a ++ b).
Proof. rewrite (firstn_app n a (take n b)), (firstn_app n a b). f_equal. rewrite take_take. f_equal. lia. Qed.
Lemma fresh_app cap ks o1 o2 : fresh_out cap ks o1 → fresh_out cap (take cap (emitted o1 ++ ks)) o2 → fresh_out cap ks (o1 ++ o2).
Proof.
  intros H1 H2 pre pb post E. destruct (app_eq_inv _ _ _ _ E) as [(k & E1 & E2)|(k & E1 & E2)].
  - destruct k as [|x k].
    + rewrite app_nil_r in E1. subst o1. cbn in E2. symmetry in E2. 
      pose proof (H2 [] pb post) as H. cbn in H. rewrite E2 in H. specialize (H eq_refl).
      cbn in H. rewrite take_take, Nat.min_id in H. done.
    + injection E2 as <- _. exact (H1 pre pb k E1).
  - subst. specialize (H2 k pb post eq_refl). rewrite emitted_app. intros Hin. apply H2. clear -Hin.
    rewrite <- app_assoc in Hin.
    by rewrite take_app_take.
Qed.

Lemma fresh_prefix cap ks o1 o2 : fresh_out cap ks (o1 ++ o2) → fresh_out cap ks o1.
Proof. intros H pre pb post ->. apply (H pre pb (post ++ o2)). by rewrite <- app_assoc. Qed.
Lemma fresh_nodup cap ks o : fresh_out cap ks o → NoDup (take cap ks) → NoDup (take cap (emitted o ++ ks)).
Proof.
  intros Hf Hks. induction o as [|ev o IH] using rev_ind; [done|].
  specialize (IH (fresh_prefix _ _ _ _ Hf)). rewrite emitted_app.
  destruct ev as [|pb|]; [exact IH| |exact IH].
  specialize (Hf o pb [] eq_refl). cbn [emitted omap list_omap rev app].
  destruct cap as [|n]; [constructor|]. cbn. constructor.
  - intros Hin. apply Hf. apply elem_of_take in Hin as (i & Hi & Hlt). apply elem_of_take. exists i. split; [done|lia].
  - replace (take n (emitted o ++ ks)) with (take n (take (S n) (emitted o ++ ks))) by (rewrite take_take; f_equal; lia).
    rewrite <- (take_drop n (take (S n) (emitted o ++ ks))) in IH. by apply NoDup_app in IH as [IH _].
Qed.
Lemma window_refl c st : lru_wf (mp_done st) → window c st st.
Proof.
  intros [_ Hl]. exists []. rewrite app_nil_r. split; [done|]. cbn. split; [by rewrite take_ge|]. split; [done|]. apply fresh_nil.
Qed.
Lemma window_trans c a b d : window c a b → window c b d → window c a d.
Proof.
  intros (o1 & O1 & K1 & C1 & F1) (o2 & O2 & K2 & C2 & F2). exists (o1 ++ o2).
  split; [by rewrite O2, O1, app_assoc|]. split; [|split; [congruence|]].
  - rewrite K2, K1, C1, emitted_app, <- app_assoc. apply take_app_take.
  - apply fresh_app; [done|]. rewrite <- K1, <- C1. done.
Qed.
Lemma window_eq c st st' : lru_wf (mp_done st) → mp_done st' = mp_done st → mp_out st' = mp_out st → window c st st'.
Proof. intros Hw H1 H2. destruct (window_refl c st Hw) as (o & O & K). exists o. by rewrite H1, H2. Qed.

Lemma prim_window c e h st st' : base_inv c st → prim c e false h st st' → window c st st'.
Proof.
  intros Hb Hp. pose proof (bi_wf _ _ Hb) as Hw.
  destruct Hp as [st|st m|st Hr|st n Hr Hd Ho|st pb p n H1 H2 H3 H4|st m H1 H2 H3 H4|st pb pb' H1 H2 H3|st pb H1 H2|st|st k n Hn];
    try done; try (by apply window_eq).
  - destruct (drain_spec st) as (E1 & E2 & E3 & _). by apply window_eq.
  - destruct (upd_res_spec st m) as (E1 & E2 & E3 & E4 & E5 & _). by apply window_eq.
  - eexists. split; [reflexivity|]. cbn. destruct Hw as [_ Hl]. split; [by rewrite take_ge|]. split; [done|].
    intros pre pb' post E. destruct pre as [|? [|]]; done.
  - destruct (bi_pend _ _ Hb _ _ H1) as (Hh & Ho & Hd). destruct (bi_cap _ _ Hb) as [_ Hc0]. destruct Hw as [_ Hl].
    exists [EBatch pb]. split; [done|]. cbn [emitted omap list_omap rev app]. rewrite Hh. split; [|split].
    + cbn [mp_done emit]. rewrite lru_add_fresh by done. done.
    + cbn [mp_done emit]. apply lru_add_cap.
    + intros pre pb' post E. destruct pre as [|? [|]]; [|done|done]. simplify_eq/=. by rewrite take_ge.
  - destruct (evict_older_spec st n) as (E1 & E2 & E3 & E4 & E5 & _). by apply window_eq.
Qed.
Lemma prims_window c e h st st' : base_inv c st → rtc (prim c e false h) st st' → window c st st'.
Proof.
  intros Hb. induction 1 as [x|x y z Hxy _ IH]; [apply window_refl, Hb|].
  eapply window_trans; [by eapply prim_window|]. apply IH. by eapply prim_base.
Qed.
Definition plain_input (i : mp_input) : Prop := match i with IMsg m _ => is_reorg m = false | IEvict _ => True end.
Lemma step_window c st i st' : base_inv c st → plain_input i → mp_step c st i = Ok st' → window c st st'.
Proof.
  intros Hb Hi. destruct i as [m e|n]; cbn in *.
  - destruct (process c e st m) as [[s er]| |] eqn:E; cbn; try discriminate. intros [= <-].
    apply process_prims in E; [|apply Hb]. rewrite Hi in E. by eapply prims_window.
  - intros [= <-]. destruct (evict_older_spec st n) as (E1 & E2 & E3 & E4 & E5 & _). apply window_eq; [apply Hb|done|done].
Qed.
Lemma run_window c ins st st' : base_inv c st → Forall plain_input ins → mp_run c ins st = Ok st' → window c st st'.
Proof.
  intros Hb. revert st Hb; induction ins as [|i ins IH]; intros st Hb Hi.
  - intros [= <-]. apply window_refl, Hb.
  - apply Forall_cons in Hi as [Hi1 Hi]. unfold mp_run. cbn [foldM].
    destruct (mp_step c st i) as [s| |] eqn:E; cbn; try discriminate. intros Hr.
    eapply window_trans; [by eapply step_window|]. apply IH; [by eapply step_base|done|done].
Qed.

(** A message that emits a block leaves it in the cache of completed blocks. *)
Lemma step_emits_done c st i st1 o1 pb1 :
  base_inv c st → mp_step c st i = Ok st1 → mp_out st1 = mp_out st ++ o1 → EBatch pb1 ∈ o1 →
  ∃ r, lru_keys (mp_done st1) = pb_hash pb1 :: r.
Proof.
  intros Hb Hi Ho1 Hin1. set (h := pb_hash pb1) in *.
  destruct i as [m e|n]; cbn in Hi.
  2: { simplify_eq. rewrite (proj1 (proj2 (proj2 (proj2 (proj2 (evict_older_spec st n)))))) in Ho1.
       apply (f_equal length) in Ho1. rewrite app_length in Ho1. destruct o1; [by apply elem_of_nil in Hin1|cbn in Ho1; lia]. }
  destruct (process c e st m) as [[s er]| |] eqn:E; cbn in Hi; try discriminate. injection Hi as ->.
  pose proof (process_frame _ _ _ _ _ _ Hb E) as ((o & Oo & Fo) & _).
  assert (o = o1) as -> by (rewrite Oo in Ho1; by simplify_list_eq).
  assert (Hm : h = msg_hash m) by (rewrite Forall_forall in Fo; exact (Fo _ Hin1)).
  assert (Hnr : is_reorg m = false).
  { destruct (is_reorg m) eqn:Er; [|done]. exfalso. unfold is_reorg in Er. apply bool_decide_eq_true in Er.
    unfold process, process_with in E. case_bool_decide; [done|]. destruct (m_key m) as [|t kr]; [done|].
    cbn in Er. injection Er as ->. rewrite bool_decide_eq_true_2 in E by done.
    assert (Hout : mp_out (mp_update_res (drain st) m) = mp_out st).
    { destruct (upd_res_spec (drain st) m) as (_ & _ & _ & _ & -> & _). apply drain_spec. }
    destruct (decode_int (m_val m)); simplify_eq/=; rewrite Hout in Ho1.
    - apply app_inv_head in Ho1. subst. apply elem_of_list_singleton in Hin1. done.
    - rewrite <- (app_nil_r (mp_out st)) in Ho1 at 1. apply app_inv_head in Ho1. subst. by apply elem_of_nil in Hin1. }
  pose proof (process_prims _ _ _ _ _ _ (bi_queue _ _ Hb) E) as Hprims. rewrite Hnr in Hprims.
  destruct (prims_window _ _ _ _ _ Hb Hprims) as (o & Oo' & K & C & F).
  assert (o = o1) as -> by (rewrite Oo' in Ho1; by simplify_list_eq).
  rewrite K. assert (He : h ∈ emitted o1) by (apply elem_of_emitted; by exists pb1).
  destruct (emitted o1) as [|h0 r] eqn:Ee; [by apply elem_of_nil in He|].
  assert (h0 = h).
  { rewrite Hm. assert (h0 ∈ emitted o1) as (pb & Hpb & <-)%elem_of_emitted by (rewrite Ee; apply elem_of_list_here).
    rewrite Forall_forall in Fo. exact (Fo _ Hpb). }
  subst h0. destruct (bi_cap _ _ Hb) as [_ Hc0]. destruct (lru_cap (mp_done st)) as [|n]; [lia|]. cbn. by eexists.
Qed.
Lemma once_per_window c st i st1 ins st2 o1 pb1 o2 mid pb2 post :
  base_inv c st →
  mp_step c st i = Ok st1 → mp_out st1 = mp_out st ++ o1 → EBatch pb1 ∈ o1 →
  Forall plain_input ins → mp_run c ins st1 = Ok st2 → mp_out st2 = mp_out st1 ++ o2 →
  o2 = mid ++ EBatch pb2 :: post → pb_hash pb2 = pb_hash pb1 →
  ∃ hs, NoDup hs ∧ length hs = Z.to_nat (2 * mc_thr c) ∧ pb_hash pb1 ∉ hs ∧
        ∀ h, h ∈ hs → ∃ pb, EBatch pb ∈ mid ∧ pb_hash pb = h.
Proof.
  intros Hb Hi Ho1 Hin1 Hins Hr Ho2 Emid Hh. set (h := pb_hash pb1) in *.
  assert (Hb1 : base_inv c st1) by (by eapply step_base).
  destruct (step_emits_done c st i st1 o1 pb1 Hb Hi Ho1 Hin1) as [r Hk]. fold h in Hk.
  destruct (run_window _ _ _ _ Hb1 Hins Hr) as (o & Oo & K & C & F).
  assert (o = o2) as -> by (rewrite Oo in Ho2; by simplify_list_eq).
  specialize (F mid pb2 post Emid). rewrite Hh, Hk in F. destruct (bi_cap _ _ Hb1) as [Hcap Hc0].
  set (cap := lru_cap (mp_done st1)) in *.
  assert (Hlen : cap ≤ length (emitted mid)).
  { destruct (decide (cap ≤ length (emitted mid))) as [|Hlt]; [done|]. exfalso. apply F.
    rewrite firstn_app. apply elem_of_app. right. destruct (cap - length (emitted mid)) as [|n] eqn:Ec; [lia|].
    cbn. apply elem_of_list_here. }
  exists (take cap (emitted mid)).
  rewrite take_app_le in F by done.
  split; [|split; [rewrite take_length_le by done; by rewrite <- Hcap|split; [done|]]].
  - (* distinctness *)
    assert (Hf : NoDup (take cap (emitted mid ++ lru_keys (mp_done st1)))).
    { destruct (run_window _ _ _ _ Hb1 Hins Hr) as (o & Oo' & _ & _ & F').
      assert (o = o2) as -> by (rewrite Oo' in Ho2; by simplify_list_eq). subst o2.
      apply fresh_nodup; [by eapply fresh_prefix|]. destruct (bi_wf _ _ Hb1) as [Hn Hl]. by rewrite take_ge. }
    by rewrite take_app_le in Hf.
  - intros h' Hh'. apply elem_of_emitted. apply elem_of_take in Hh' as (i' & Hi' & _). by apply elem_of_list_lookup_2 in Hi'.
Qed.

(** * C32: discarded blocks *)
Lemma drain_idem st : drain (drain st) = drain st.
Proof.
  destruct (drain_spec st) as (_ & _ & _ & _ & _ & _ & E & _). unfold drain at 1. rewrite E. cbn [foldl].
  destruct (drain st) as [? ? ? ? ? ? ? ? ?]. cbn in *. by subst.
Qed.
Lemma process_drain c e st m : process c e st m = process c e (drain st) m.
Proof. unfold process. unfold process_with at 1 3. by rewrite drain_idem. Qed.
Lemma drain_base c st : base_inv c st → base_inv c (drain st).
Proof. apply (prim_base c (ME id (λ _, id) (λ _, [])) false zero_hash). apply PDrain. Qed.

Definition discarded (h : hash) (st : mp) : Prop := h ∈ mp_old st ∧ mp_pend st !! h = None.
Lemma prim_discarded c e h h0 st st' : base_inv c st → prim c e false h st st' → discarded h0 st →
  discarded h0 st' ∧ ∃ o, mp_out st' = mp_out st ++ o ∧ Forall (λ ev, event_hash ev ≠ h0) o.
Proof.
  intros Hb Hp [Ho Hn].
  assert (Hnil : ∀ s : mp, mp_out s = mp_out st → ∃ o, mp_out s = mp_out st ++ o ∧ Forall (λ ev, event_hash ev ≠ h0) o).
  { intros s ->. exists []. by rewrite app_nil_r. }
  destruct Hp as [st|st m|st Hr|st n Hr Hd Ho'|st pb p n H1 H2 H3 H4|st m H1 H2 H3 H4|st pb pb' H1 H2 H3|st pb H1 H2|st|st k n Hk];
    try done; try (split; [done|by apply Hnil]).
  - destruct (drain_spec st) as (E1 & E2 & E3 & E4 & E5 & E6 & E7 & E8 & E9). split; [|by apply Hnil].
    split; [rewrite E9; by left|]. destruct (mp_pend (drain st) !! h0) eqn:E; [|done]. apply E8 in E as [? _]. congruence.
  - destruct (upd_res_spec st m) as (E1 & E2 & E3 & E4 & E5 & _). split; [|by apply Hnil]. split; congruence.
  - split.
    + split; [done|]. cbn. rewrite lookup_insert_ne by (intros ->; done). done.
    + eexists. split; [reflexivity|]. constructor; [|done]. cbn. by intros ->.
  - split; [|by apply Hnil]. split; [done|]. cbn. rewrite lookup_insert_ne by (intros ->; congruence). done.
  - assert (h ≠ h0) by (intros ->; congruence). split.
    + split; [done|]. cbn. by rewrite lookup_delete_ne.
    + eexists. split; [reflexivity|]. constructor; [|done]. cbn. by rewrite (proj1 (bi_pend _ _ Hb _ _ H1)).
  - destruct (evict_older_spec st n) as (E1 & E2 & E3 & E4 & E5 & _). split; [|by apply Hnil]. split; congruence.
Qed.
Lemma prims_discarded c e h h0 st st' : base_inv c st → rtc (prim c e false h) st st' → discarded h0 st →
  discarded h0 st' ∧ ∃ o, mp_out st' = mp_out st ++ o ∧ Forall (λ ev, event_hash ev ≠ h0) o.
Proof.
  intros Hb. induction 1 as [x|x y z Hxy _ IH]; intros Hd; [split; [done|]; exists []; by rewrite app_nil_r|].
  destruct (prim_discarded _ _ _ _ _ _ Hb Hxy Hd) as [Hd' (o1 & O1 & F1)].
  destruct (IH ltac:(by eapply prim_base) Hd') as [Hd'' (o2 & O2 & F2)]. split; [done|].
  exists (o1 ++ o2). rewrite O2, O1, app_assoc. split; [done|]. by apply Forall_app.
Qed.
Lemma run_discarded c ins h0 st st' : base_inv c st → Forall plain_input ins → mp_run c ins st = Ok st' → discarded h0 st →
  discarded h0 st' ∧ ∃ o, mp_out st' = mp_out st ++ o ∧ Forall (λ ev, event_hash ev ≠ h0) o.
Proof.
  intros Hb. revert st Hb; induction ins as [|i ins IH]; intros st Hb Hi.
  - intros [= <-] Hd. split; [done|]. exists []. by rewrite app_nil_r.
  - apply Forall_cons in Hi as [Hi1 Hi]. unfold mp_run. cbn [foldM].
    destruct (mp_step c st i) as [s| |] eqn:E; cbn; try discriminate. intros Hr Hd.
    assert (Hs : discarded h0 s ∧ ∃ o, mp_out s = mp_out st ++ o ∧ Forall (λ ev, event_hash ev ≠ h0) o).
    { destruct i as [m e|n]; cbn in *.
      - destruct (process c e st m) as [[s' er]| |] eqn:E'; cbn in E; try discriminate. injection E as ->.
        apply process_prims in E'; [|apply Hb]. rewrite Hi1 in E'. by eapply prims_discarded.
      - simplify_eq. destruct (evict_older_spec st n) as (E1 & E2 & E3 & E4 & E5 & _). destruct Hd. split; [split; congruence|].
        exists []. by rewrite app_nil_r. }
    destruct Hs as [Hd' (o1 & O1 & F1)]. destruct (IH s ltac:(by eapply step_base) Hi Hr Hd') as [Hd'' (o2 & O2 & F2)].
    split; [done|]. exists (o1 ++ o2). rewrite O2, O1, app_assoc. split; [done|]. by apply Forall_app.
Qed.
Lemma evict_applied c e st m st' err h pb n :
  base_inv c st → n ∈ mp_evict st → mp_pend st !! h = Some pb → (pb_num pb < n)%Z →
  is_reorg m = false → process c e st m = Ok (st', err) →
  discarded h st' ∧ ∃ o, mp_out st' = mp_out st ++ o ∧ Forall (λ ev, event_hash ev ≠ h) o.
Proof.
  intros Hb Hn Hp Hlt Hr E. rewrite process_drain in E. apply process_prims in E; [|apply (bi_queue c), drain_base, Hb].
  rewrite Hr in E. destruct (drain_spec st) as (E1 & E2 & E3 & E4 & E5 & E6 & E7 & E8 & E9). rewrite <- E3.
  eapply prims_discarded; [by apply drain_base|exact E|]. split.
  - apply E9. right. exists pb. split; [done|]. by exists n.
  - destruct (mp_pend (drain st) !! h) as [pb'|] eqn:Ep; [|done]. apply E8 in Ep as [Ep Hne].
    exfalso. apply Hne. simplify_eq. by exists n.
Qed.
