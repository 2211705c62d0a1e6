(** Proofs for C49. *)
From Verif Require Import Base Lru LruFacts Types Avro AvroFacts Wire SpecWire WireFacts GoPath PathFacts Producer SpecBlock
  Consumer ConsumerBase ConsumerFacts Assembly SpecCollect.

Lemma same_data_refl pb : same_data pb pb.
Proof. unfold same_data. by repeat split. Qed.
Lemma same_res pb m : same_data pb (pb_update_res pb m).
Proof. unfold pb_update_res. destruct (pb_res pb !! m_src m); [case_bool_decide|]; by repeat split. Qed.
Lemma same_keep pb m : same_data pb (keep_msg (pb_update_res pb m) m).
Proof. unfold pb_update_res, keep_msg. destruct (pb_res pb !! m_src m); [case_bool_decide|]; by repeat split. Qed.
Lemma upd_res_fields pb m : pb_prefixes (pb_update_res pb m) = pb_prefixes pb ∧ pb_frp (pb_update_res pb m) = pb_frp pb ∧
  pb_values (pb_update_res pb m) = pb_values pb ∧ pb_deletes (pb_update_res pb m) = pb_deletes pb ∧
  pb_batches (pb_update_res pb m) = pb_batches pb.
Proof. unfold pb_update_res. destruct (pb_res pb !! m_src m); [case_bool_decide|]; by repeat split. Qed.
Lemma unexpected_none pb p : unexpected_path pb p → dec_prefix (pb_prefixes pb) (pb_frp pb) p = Ok None.
Proof.
  intros [Hr H]. destruct (dec_prefix (pb_prefixes pb) (pb_frp pb) p) as [r| |] eqn:E.
  - apply dec_prefix_result in E. destruct r as [q|]; [|done]. exfalso.
    destruct E as (k & v & pre & post & E & _ & Hk & Hv & _). destruct (H k v) as [?|[-> _]]; [|done|lia|lia].
    rewrite E. apply elem_of_app. right. apply elem_of_list_here.
  - exfalso. destruct (pb_frp pb) eqn:F.
    + revert E. apply dec_prefix_nopanic. intros k Hk E. destruct (H k 0%Z Hk E) as [?|[_ ?]]; [lia|done].
    + unfold dec_prefix in E. assert (dec_loop (S (S (length p))) (pb_prefixes pb) false p ≠ Panic).
      { apply dec_loop_nopanic. by left. }
      destruct (pb_prefixes pb !! p); [by case_bool_decide|done].
  - exfalso. revert E. by apply dec_prefix_terminates.
Qed.

Lemma drain_nil st : mp_evict st = [] → drain st = st.
Proof. unfold drain. intros E. rewrite E. cbn [foldl]. destruct st. cbn in *. by subst. Qed.

(** A finish that finds nothing ready. *)
Lemma same_set st h pb pb' : mp_pend st !! h = Some pb → same_data pb pb' → ready pb = false →
  let st' := finish (set_pend st (<[h := pb']> (mp_pend st))) h in
  mp_out st' = mp_out st ∧ mp_queue st' = mp_queue st ∧ mp_done st' = mp_done st ∧ mp_old st' = mp_old st ∧
  ∀ h', same_pending (mp_pend st !! h') (mp_pend st' !! h').
Proof.
  intros Hp Hs Hr st'. unfold st', finish. cbn. rewrite lookup_insert.
  destruct Hs as (D1 & D2 & D3 & D4 & D5 & D6 & D7 & D8 & D9 & D10). rewrite D10, Hr. cbn.
  split; [done|]. split; [done|]. split; [done|]. split; [done|].
  intros h'. destruct (decide (h' = h)) as [->|Hne].
  - rewrite lookup_insert, Hp. by repeat split.
  - rewrite lookup_insert_ne by done. destruct (mp_pend st !! h'); [|done]. apply same_data_refl.
Qed.
Lemma same_all st : ∀ h', same_pending (mp_pend st !! h') (mp_pend st !! h').
Proof. intros h'. destruct (mp_pend st !! h'); [|done]. apply same_data_refl. Qed.

Lemma apply_useless st h pb kd m : useless st h kd → kind_hash kd = h → kind_ok kd → m_key m = key_of kd →
  mp_pend st !! h = Some pb → h ∉ lru_keys (mp_done st) → h ∉ mp_old st →
  kind_type kd ≠ BatchType → kind_type kd ≠ SubBatchHeaderType → kind_type kd ≠ ReorgType →
  ∃ pb' d, apply_msg pb m = Ok (pb', d) ∧ same_data pb pb'.
Proof.
  intros Hu Hh Hok Hk Hp Hd Ho T1 T2 T3. destruct (key_recovered kd Hok) as [_ Hrec].
  destruct (key_len kd) as [Hl1 Hl2]. rewrite <- Hk in Hrec, Hl1, Hl2.
  assert (Ht : ∃ r, m_key m = kind_type kd :: r).
  { rewrite Hk. pose proof (key_type kd) as E. destruct (key_of kd) as [|x l]; [done|]. cbn in E. injection E as ->. by eexists. }
  destruct (upd_res_fields pb m) as (F1 & F2 & F3 & F4 & F5).
  pose proof (same_res pb m) as Sr. pose proof (same_keep pb m) as Sk.
  destruct Ht as [kr Hkr]. unfold apply_msg. rewrite Hkr. cbv beta iota zeta. rewrite <- Hkr.
  destruct Hu as [kd _ Hg|pb0 H1|pb0 id H1 H2|pb0 id i H1 H2|pb0 id i l H1 H2 H2' H3|pb0 p v H1 H2 H3|pb0 p H1 H2|pb0 p H1 H2|pb0 p H1 H2|pb0 H1];
    try (rewrite Hp in H1; injection H1 as <-); try done.
  - by destruct Hg.
  - destruct Hrec as [R1 R2]. rewrite bool_decide_eq_true_2 by done.
    rewrite bool_decide_eq_false_2 by (specialize (Hl2 _ _ _ eq_refl); lia). rewrite R1, R2, F5, H2. by eexists _, _.
  - destruct Hrec as [R1 R2]. rewrite bool_decide_eq_true_2 by done.
    rewrite bool_decide_eq_false_2 by (specialize (Hl2 _ _ _ eq_refl); lia). rewrite R1, R2, F5, H2.
    rewrite bool_decide_eq_false_2 by lia. rewrite H3. by eexists _, _.
  - rewrite bool_decide_eq_false_2 by done. rewrite bool_decide_eq_true_2 by done.
    rewrite bool_decide_eq_false_2 by lia. rewrite Hrec, F3.
    destruct v as [|v0 vr]; [done|].
    match goal with |- context [match ?x with Some _ => _ | None => _ end] =>
      replace x with (Some (v0 :: vr)) by (symmetry; exact H2) end.
    by eexists _, _.
  - rewrite bool_decide_eq_false_2 by done. rewrite bool_decide_eq_true_2 by done.
    rewrite bool_decide_eq_false_2 by lia. rewrite Hrec, F3, F1, F2.
    rewrite (unexpected_none _ _ H2). cbn [mbind outcome_bind].
    match goal with |- context [match ?x with Some _ => _ | None => _ end] => destruct x as [[|v0 vr]|] end; by eexists _, _.
  - rewrite bool_decide_eq_false_2 by done. rewrite bool_decide_eq_false_2 by done. rewrite bool_decide_eq_true_2 by done.
    rewrite bool_decide_eq_false_2 by lia. rewrite Hrec, F4. rewrite bool_decide_eq_true_2 by done. by eexists _, _.
  - rewrite bool_decide_eq_false_2 by done. rewrite bool_decide_eq_false_2 by done. rewrite bool_decide_eq_true_2 by done.
    rewrite bool_decide_eq_false_2 by lia. rewrite Hrec, F4, F1, F2.
    rewrite (unexpected_none _ _ H2). cbn [mbind outcome_bind]. case_bool_decide; by eexists _, _.
  - rewrite bool_decide_eq_false_2 by done. rewrite bool_decide_eq_false_2 by done. rewrite bool_decide_eq_false_2 by done. by eexists _, _.
Qed.

Lemma useless_harmless c e st m h kd :
  base_inv c st → mp_evict st = [] → (∀ pb, mp_pend st !! h = Some pb → ready pb = false) →
  useless st h kd → kind_hash kd = h → kind_ok kd → m_key m = key_of kd →
  ∃ st' err, process c e st m = Ok (st', err) ∧
    mp_out st' = mp_out st ∧ mp_queue st' = mp_queue st ∧ mp_done st' = mp_done st ∧ mp_old st' = mp_old st ∧
    (∀ h', same_pending (mp_pend st !! h') (mp_pend st' !! h')).
Proof.
  intros Hb Hev Hnr Hu Hh Hok Hk.
  assert (Ht : ∃ r, m_key m = kind_type kd :: r).
  { rewrite Hk. pose proof (key_type kd) as E. destruct (key_of kd) as [|x l]; [done|]. cbn in E. injection E as ->. by eexists. }
  destruct Ht as [kr Hkr]. destruct (key_len kd) as [Hl _]. rewrite <- Hk in Hl.
  assert (Hmh : msg_hash m = h). { unfold msg_hash. rewrite Hk, (proj1 (key_recovered _ Hok)). done. }
  unfold process. unfold process_with at 1. rewrite drain_nil by done.
  destruct (upd_res_spec st m) as (E1 & E2 & E3 & E4 & E5 & _).
  set (s := mp_update_res st m) in *.
  rewrite Hkr. cbv beta iota zeta. rewrite <- Hkr. rewrite bool_decide_eq_false_2 by lia. rewrite Hmh.
  assert (Hreorg : kind_type kd ≠ ReorgType).
  { destruct Hu; try done. destruct kd; try done. cbn in Hh. subst. done. }
  rewrite bool_decide_eq_false_2 by done.
  unfold lru_contains. rewrite E1, E3, E4.
  case_bool_decide as Hd.
  { eexists _, _. split; [reflexivity|]. rewrite E1. do 4 (split; [done|]). apply same_all. }
  case_bool_decide as Ho.
  { eexists _, _. split; [reflexivity|]. rewrite E1. do 4 (split; [done|]). apply same_all. }
  destruct (mp_pend st !! h) as [pb|] eqn:Hp.
  2: { exfalso. destruct Hu as [? ? []| | | | | | | | |]; congruence. }
  case_bool_decide as T1.
  { destruct (decode_batch (m_val m)); eexists _, _; (split; [reflexivity|]); rewrite E1; do 4 (split; [done|]); apply same_all. }
  case_bool_decide as T2.
  { destruct Hu as [kd _ [?|?]|? ?|? id H1 H2| | | | | | |]; try done.
    destruct (key_recovered _ Hok) as [_ Hrec]. rewrite <- Hk in Hrec. cbn in Hrec. rewrite Hrec. rewrite Hp in H1. injection H1 as <-.
    rewrite bool_decide_eq_true_2 by done.
    eexists _, _. split; [reflexivity|]. rewrite E1. do 4 (split; [done|]). apply same_all. }
  destruct (apply_useless st h pb kd m) as (pb' & d & -> & Hs); [done..|]. cbn [mbind outcome_bind fst].
  eexists _, _. split; [reflexivity|].
  destruct (same_set s h pb pb') as (S1 & S2 & S3 & S4 & S5); [by rewrite E1|done|by apply Hnr|].
  rewrite E1 in *. rewrite S1, S2, S3, S4. done.
Qed.

(** * Complete blocks do not wait *)
Lemma finish_settled st h h' pb : mp_pend (finish st h) !! h' = Some pb →
  (h' = h ∧ ready pb = false) ∨ (h' ≠ h ∧ mp_pend st !! h' = Some pb).
Proof.
  unfold finish. destruct (mp_pend st !! h) as [pb0|] eqn:E.
  - destruct (ready pb0) eqn:R.
    + cbn. intros [? ?]%lookup_delete_Some. by right.
    + destruct (decide (h' = h)) as [->|]; [intros; left; by simplify_eq|by right].
  - destruct (decide (h' = h)) as [->|]; [congruence|by right].
Qed.
Lemma process_settled c e st m st' : base_inv c st → settled st → process c e st m = Ok (st', false) → settled st'.
Proof.
  intros Hb Hs E h pb Hp.
  destruct (decide (h = msg_hash m)) as [->|Hne].
  2: { destruct (process_frame _ _ _ _ _ _ Hb E) as (_ & _ & Hf & _). destruct (Hf h Hne) as [Heq|[Heq _]]; [|congruence].
       apply (Hs h). congruence. }
  assert (Hs' : ∀ h pb, mp_pend (mp_update_res (drain st) m) !! h = Some pb → ready pb = false).
  { intros h pb0. destruct (upd_res_spec (drain st) m) as (-> & _).
    destruct (drain_spec st) as (_ & _ & _ & _ & _ & _ & _ & E8 & _). intros [? _]%E8. by apply (Hs h). }
  clear Hs Hb. unfold process, process_with at 1 in E. set (s := mp_update_res (drain st) m) in *. clearbody s.
  set (h := msg_hash m) in *.
  case_bool_decide; [done|]. destruct (m_key m) as [|t kr] eqn:Ek; [done|].
  case_bool_decide; [destruct (decode_int (m_val m)); simplify_eq/=; by apply (Hs' h)|].
  destruct (lru_contains (mp_done s) h); [simplify_eq; by apply (Hs' h)|].
  case_bool_decide; [simplify_eq; by apply (Hs' h)|].
  assert (Hfin : ∀ s0, finish s0 h = st' → ready pb = false).
  { intros s0 <-. by destruct (finish_settled _ _ _ _ Hp) as [[_ ?]|[? _]]. }
  case_bool_decide.
  - destruct (decode_batch (m_val m)) as [b|]; [|done].
    destruct (mp_pend s !! h) eqn:Hph; [simplify_eq; by apply (Hs' h)|]. cbn in E.
    destruct (mp_queue s !! h) as [q|].
    + match type of E with (mbind _ ?r = _) => destruct r as [[s1 er]| |]; cbn in E; try done end.
      destruct er; [done|]. simplify_eq. by eapply Hfin.
    + simplify_eq. by eapply Hfin.
  - case_bool_decide.
    + destruct (mp_pend s !! h) as [pb0|] eqn:Hph; [|simplify_eq/=; by apply (Hs' h)].
      case_bool_decide; [simplify_eq; by apply (Hs' h)|].
      destruct (decode_int (m_val m)); [|done]. case_bool_decide; [done|].
      match type of E with (mbind _ ?r = _) => destruct r as [pb3| |]; cbn in E; try done end.
      injection E as E. by eapply Hfin.
    + destruct (mp_pend s !! h) as [pb0|] eqn:Hph; [|simplify_eq/=; by apply (Hs' h)].
      destruct (apply_msg pb0 m) as [r| |]; cbn in E; try done. injection E as E. by eapply Hfin.
Qed.
Lemma error_free_settled c ins st st' : base_inv c st → settled st → error_free c ins st st' → settled st' ∧ base_inv c st'.
Proof.
  intros Hb Hs Hr. induction Hr as [st|m e ins st st1 st2 E _ IH|n ins st st2 _ IH]; [done| |].
  - apply IH; [|by eapply process_settled]. apply (step_base c st (IMsg m e) st1); [done|]. cbn. by rewrite E.
  - apply IH; [by apply (step_base c st (IEvict n))|].
    intros h pb. destruct (evict_older_spec st n) as (-> & _). apply Hs.
Qed.
