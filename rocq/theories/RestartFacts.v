(** C58: a consumer restarted from the token of a block continues after that block. *)
From Verif Require Import Base Lru Types Avro Wire SpecWire WireFacts GoPath GoText Producer SpecBlock Consumer SpecCollect CollectFacts CollectFacts2
  SpecToken TokenFacts Kafka SpecKafka KafkaFacts Feed SpecFeed FeedFacts FeedFacts2
  Ordering SpecChain System SpecSystem SystemFacts SystemFacts2 Restart SpecRestart.

(** * The token *)
Lemma token_marks c ins st pb : consumer_run c ins st → EBatch pb ∈ mp_out st →
  ∀ s e, ((pb_res pb : gmap bytes Z) ∪ pb_resdef pb) !! s = Some e → ∃ m, marks (messages ins) (pb_hash pb) m ∧ m_src m = s ∧ m_off m = e.
Proof.
  intros Hr Hpb s e He. destruct (token_exact c ins st pb Hr Hpb) as (H1 & ms1 & m0 & ms2 & E & Hh & H2).
  apply lookup_union_Some_raw in He as [He|[_ He]].
  - destruct (H1 s e He) as (m & Hm & Ha & Es & Eo). exists m. split; [by left|done].
  - apply H2 in He as [(m & Hm & Es & Eo) _]. exists m. split; [|done]. apply elem_of_app in Hm as [Hm| ->%elem_of_list_singleton].
    + right. by exists ms1, m0, ms2.
    + left. split; [|by apply Hh]. rewrite E. apply elem_of_app. right. apply elem_of_list_here.
Qed.
Lemma marks_read ms h m : marks ms h m → m ∈ ms.
Proof. intros [[H _]|(ms1 & m0 & ms2 & -> & _ & H)]; [done|]. apply elem_of_app. by left. Qed.
Lemma token_parsed c ins st pb fs es ds : consumer_run c ins st → EBatch pb ∈ mp_out st →
  feed_ok fs → read_before (messages ins) fs → es ≡ₚ map_to_list (pb_res pb : gmap bytes Z) → ds ≡ₚ map_to_list (pb_resdef pb : gmap bytes Z) →
  parse_token (resumption_text (pb_res pb) es ds) = Some ((pb_res pb : gmap bytes Z) ∪ pb_resdef pb).
Proof.
  intros Hr Hpb Hf Hb He Hd. apply token_roundtrip; [done|done|]. intros k v Hk.
  assert (Hm : ∃ m, m ∈ messages ins ∧ m_src m = k ∧ m_off m = v).
  { destruct (token_exact c ins st pb Hr Hpb) as (H1 & ms1 & m0 & ms2 & E & Hh & H2). destruct Hk as [Hk|Hk].
    - destruct (H1 k v Hk) as (m & ? & _ & ? & ?). by exists m.
    - apply H2 in Hk as [(m & Hm & ? & ?) _]. exists m. split; [|done]. rewrite E. apply elem_of_app in Hm as [Hm| ->%elem_of_list_singleton].
      + apply elem_of_app. by left.
      + apply elem_of_app. right. apply elem_of_list_here. }
  destruct Hm as (m & Hm & <- & <-). destruct (Hb m Hm) as (f & Hin & <- & _ & Hi). split; [by apply (fo_legal fs Hf)|done].
Qed.

(** * The partitions *)
Lemma open_all_lookup tok rb h fs : ∀ ps, open_all tok rb h fs = Some ps →
  ∀ i, match fs !! i with Some f => ∃ p, ps !! i = Some p ∧ open_part tok rb h f = Some p | None => ps !! i = None end.
Proof.
  induction fs as [|f fs IH]; intros ps H i; cbn in H; [injection H as <-; done|].
  destruct (open_part tok rb h f) as [p|] eqn:Ep; [|done]. destruct (open_all tok rb h fs) as [ps'|] eqn:Eps; [|done]. injection H as <-.
  destruct i as [|i]; cbn; [by exists p|]. by apply IH.
Qed.
Lemma open_all_some tok rb h fs : (∀ f, f ∈ fs → ∃ p, open_part tok rb h f = Some p) → ∃ ps, open_all tok rb h fs = Some ps.
Proof.
  induction fs as [|f fs IH]; intros H; cbn; [by eexists|]. destruct (H f (elem_of_list_here _ _)) as (p & ->).
  destruct IH as (ps & ->); [|by eexists]. intros g Hg. apply H. by apply elem_of_list_further.
Qed.
Lemma open_all_in tok rb h fs ps p : open_all tok rb h fs = Some ps → p ∈ ps → ∃ f, f ∈ fs ∧ open_part tok rb h f = Some p.
Proof.
  intros H [i Hi]%elem_of_list_lookup. assert (Hl := open_all_lookup _ _ _ _ _ H i).
  destruct (fs !! i) as [f|] eqn:E; [|congruence]. destruct Hl as (q & Hq & Ho). exists f. split; [by eapply elem_of_list_lookup_2|congruence].
Qed.
Lemma open_part_low tok rb h f p : log_ok (fp_log f) → (∀ m, m ∈ fp_new f → (pt_newest (fl_part (fp_log f)) ≤ fm_off m)%Z) →
  open_part tok rb h f = Some p → Forall (λ m, p.2 ≤ fm_off m)%Z p.1.
Proof.
  intros Hl Hn H. unfold open_part in H. destruct (warm_start _ _ _ _ _) as [[s so]|] eqn:E; [|done]. injection H as <-. cbn [fst snd].
  apply Forall_app. split.
  - apply Forall_forall. intros m Hm. by eapply (warm_start_le _ _ _ _ (fp_log f)).
  - apply Forall_forall. intros m Hm. specialize (Hn m Hm).
    assert (so ≤ pt_newest (fl_part (fp_log f)))%Z; [|lia]. destruct Hl as [Hp _]. unfold partition_ok in Hp.
    clear -E Hp. unfold warm_start in E.
    set (x := match tok !! fp_name f with Some o => if bool_decide (o < rb)%Z then _ else _ | None => _ end) in E.
    destruct x as [a b]. unfold consume_partition, OffsetNewest, OffsetOldest in E.
    repeat (case_bool_decide; try (injection E as <- <-); try discriminate; try lia).
Qed.

(** What is in reach is delivered. *)
Lemma open_reach tok rb h f p x : (0 ≤ rb)%Z → h ≠ zero_hash → log_ok (fp_log f) →
  (∀ e, tok !! fp_name f = Some e → (0 ≤ e < pt_newest (fl_part (fp_log f)))%Z ∧
     ((e ≤ fm_off x)%Z ∨ (e ≤ fm_off x + rb)%Z ∧ ((pt_oldest (fl_part (fp_log f)) ≤ e - rb)%Z ∨ (e < rb)%Z))) →
  open_part tok rb h f = Some p → x ∈ fp_all f → x ∈ p.1.
Proof.
  intros Hrb Hh [Hp [_ Hheld]] Htok H Hx. unfold open_part in H.
  destruct (warm_start _ _ _ _ _) as [[s so]|] eqn:E; [|done]. injection H as <-. cbn [fst].
  apply elem_of_app in Hx as [Hx|Hx]; apply elem_of_app; [left|by right].
  unfold from_offset. apply elem_of_list_filter. split; [|done]. rewrite Forall_forall in Hheld. specialize (Hheld x Hx).
  unfold held in Hheld. unfold partition_ok in Hp. unfold warm_start in E. rewrite (bool_decide_eq_false_2 (h = zero_hash)) in E by done. cbn [andb] in E.
  unfold consume_partition, OffsetNewest, OffsetOldest in E.
  destruct (tok !! fp_name f) as [e|].
  - destruct (Htok e eq_refl) as [He Hr]. clear Htok.
    destruct (decide (e < rb)%Z) as [Hlt|Hge].
    + rewrite (bool_decide_eq_true_2 (e < rb)%Z) in E by done.
      repeat (case_bool_decide; try (injection E as <- <-); try discriminate; try lia).
    + rewrite (bool_decide_eq_false_2 (e < rb)%Z) in E by done.
      repeat (case_bool_decide; try (injection E as <- <-); try discriminate; try lia).
  - repeat (case_bool_decide; try (injection E as <- <-); try discriminate; try lia).
Qed.
(** The partitions can be opened. *)
Lemma open_part_some tok rb h f : (0 ≤ rb)%Z → h ≠ zero_hash → log_ok (fp_log f) →
  (∀ e, tok !! fp_name f = Some e → (pt_oldest (fl_part (fp_log f)) ≤ e < pt_newest (fl_part (fp_log f)))%Z) →
  ∃ p, open_part tok rb h f = Some p.
Proof.
  intros Hrb Hh [Hp _] Htok. unfold open_part. destruct (warm_start _ _ _ _ _) as [[s so]|] eqn:E; [by eexists|]. exfalso.
  unfold partition_ok in Hp. unfold warm_start in E. rewrite (bool_decide_eq_false_2 (h = zero_hash)) in E by done. cbn [andb] in E.
  unfold consume_partition, OffsetNewest, OffsetOldest in E.
  destruct (tok !! fp_name f) as [e|].
  - specialize (Htok e eq_refl). destruct (decide (e < rb)%Z) as [Hlt|Hge].
    + rewrite (bool_decide_eq_true_2 (e < rb)%Z) in E by done. repeat (case_bool_decide; try discriminate; try lia).
    + rewrite (bool_decide_eq_false_2 (e < rb)%Z) in E by done. repeat (case_bool_decide; try discriminate; try lia).
  - repeat (case_bool_decide; try discriminate; try lia).
Qed.

(** * The message loop *)
Lemma loop_in fs out m : m ∈ loop_messages fs out → ∃ i f x, (i, x) ∈ out ∧ fs !! i = Some f ∧ m = fp_msg f x ∧ data_message m.
Proof.
  unfold loop_messages. intros (y & Hy & E)%elem_of_list_omap. destruct y as [i x]. cbn [fst snd] in E.
  destruct (fs !! i) as [f|] eqn:Ef; [|done]. destruct (decide (data_message (fp_msg f x))) as [Hd|]; [|done]. injection E as <-. by exists i, f, x.
Qed.
Lemma in_loop fs out i f x : (i, x) ∈ out → fs !! i = Some f → data_message (fp_msg f x) → fp_msg f x ∈ loop_messages fs out.
Proof.
  intros Hi Hf Hd. unfold loop_messages. apply elem_of_list_omap. exists (i, x). split; [done|]. cbn. rewrite Hf. by rewrite decide_True.
Qed.
Lemma elem_put_out i x out : x ∈ put_out i out ↔ (i, x) ∈ out.
Proof.
  unfold put_out. rewrite elem_of_list_fmap. split.
  - intros ((j & y) & -> & H). apply elem_of_list_filter in H as [E H]. cbn in E. subst j. done.
  - intros H. exists (i, x). split; [done|]. apply elem_of_list_filter. done.
Qed.
Lemma from_offset_in l s m : m ∈ from_offset l s → m ∈ fl_msgs l.
Proof. by intros [_ H]%elem_of_list_filter. Qed.
Lemma open_part_from tok rb h f p m : open_part tok rb h f = Some p → m ∈ p.1 → m ∈ fp_all f.
Proof.
  unfold open_part. destruct (warm_start _ _ _ _ _) as [[s so]|]; [|done]. intros [= <-] Hm. cbn in Hm.
  apply elem_of_app in Hm as [Hm|Hm]; apply elem_of_app; [left|by right]. by eapply from_offset_in.
Qed.
Lemma life_only_from mt bs c cfg t rb fs s y : feed_ok fs → feed_from mt bs fs → kafka_life c cfg t rb fs s y → only_from mt bs (messages (y_ins y)).
Proof.
  intros Hf Hfrom (tok & ps & _ & Ho & Hw & _ & Hpre) m Hm.
  assert (Hm' : m ∈ loop_messages fs (wm_out s)) by (destruct Hpre as [r ->]; apply elem_of_app; by left).
  apply loop_in in Hm' as (i & f & x & Hx & Hfi & -> & Hd). assert (Hin : f ∈ fs) by (by eapply elem_of_list_lookup_2).
  assert (Hlow : Forall (λ x : list fmsg * Z, Forall (λ m, x.2 ≤ fm_off m)%Z x.1) ps).
  { apply Forall_forall. intros p Hp. destruct (open_all_in _ _ _ _ _ _ Ho Hp) as (g & Hg & Hop).
    eapply open_part_low; [by apply (fo_log fs Hf)|intros z Hz; by eapply (fo_new fs Hf)|done]. }
  assert (Hl := open_all_lookup _ _ _ _ _ Ho i). rewrite Hfi in Hl. destruct Hl as (p & Hp & Hop).
  assert (Hxa : x ∈ fp_all f).
  { eapply open_part_from; [done|]. destruct (warm_order ps s Hlow Hw i p Hp) as [r ->]. apply elem_of_app. left. by apply elem_put_out. }
  apply (Hfrom f x Hin Hxa Hd). by apply elem_of_list_singleton.
Qed.
Lemma key_of_data kd f x : fm_key x = key_of kd → (∃ mt b tr, needed mt b tr kd) → data_message (fp_msg f x).
Proof.
  intros E (mt & b & tr & Hn). unfold data_message. cbn. rewrite E.
  destruct Hn; cbn; eexists; (split; [reflexivity|]); done.
Qed.

(** * Two lives *)
Section restart.
  Context (mt : bytes → option bytes) (base : hash) (num : Z) (w : N) (old new : list block) (c : mp_config) (cfg cfg2 : config).
  Let bs := old ++ new.
  Context (Hc : chain_from base num w bs) (Hnd : NoDup (base :: map bk_hash bs)) (Hwf : ∀ b, b ∈ bs → wf_block mt b)
    (Hl : cfg_last_hash cfg = end_hash base old) (Hw : cfg_last_weight cfg = end_weight w old)
    (Hz : cfg_last_hash cfg ≠ zero_hash)
    (Hwl : ∀ b, b ∈ bs → (0 ≤ ba_num (bk_args b))%Z ∧
       ∀ h, cfg_whitelist cfg !! ba_num (bk_args b) = Some h → h = bk_hash b)
    (Hwl2 : cfg_whitelist cfg2 = cfg_whitelist cfg).
  (* the first life *)
  Context (y : sys) (Hrun : sys_run c cfg y) (Hms : only_from mt bs (messages (y_ins y))).
  Context (pre post : list pending_batch) (pb : pending_batch) (Hadd : all_added (o_out (y_omp y)) = pre ++ pb :: post).
  Let k := S (length pre).

  Lemma first_life : EBatch pb ∈ mp_out (y_mp y) ∧ Forall2 (λ b pb, exact mt b (mc_tracked c) pb) (take k new) (pre ++ [pb]) ∧ k ≤ length new.
  Proof.
    assert (Hv := sys_run_inv _ _ _ Hrun). destruct (sv_omp _ _ _ Hv) as (s0 & H0 & Hr). destruct (sv_con _ _ _ Hv) as [Hcb Hcr].
    destruct (taken_chain base num w old new cfg (λ b pb, exact mt b (mc_tracked c) pb ∧ pb ∈ sent_batches (mp_out (y_mp y)))) with (l := y_taken y) (s0 := s0)
      as (s & n & A1 & A2 & _ & A4 & _); try done.
    - intros b p [H _]. by apply exact_headed in H.
    - intros b Hb. apply (wf_num _ _ (Hwf b Hb)).
    - apply Hv.
    - rewrite (quiet c (y_ins y)) in Hcr; [|apply Hv|intros m Hm; by apply Hms]. apply prefix_nil_inv in Hcr.
      unfold no_reorgs, reorgs_of. unfold taken_reorgs in Hcr.
      clear -Hcr. induction (y_taken y) as [|[o [p|a h]] l IH]; cbn in *; [done|by apply IH|done].
    - intros p Hp. assert (Hin : p ∈ sent_batches (mp_out (y_mp y))) by (by eapply elem_of_prefix).
      destruct (emitted_from mt base old new c Hnd Hwf (y_ins y) (y_mp y) p) as (i & b & Hi & He); [apply Hv|apply Hv|done|done|]. by exists i, b.
    - assert (s = y_omp y) as -> by congruence. rewrite Hadd in A2. unfold k.
      assert (Hlen := Forall2_length _ _ _ A2). rewrite take_length, app_length in Hlen. cbn in Hlen.
      assert (A3 : Forall2 (λ b pb, exact mt b (mc_tracked c) pb ∧ pb ∈ sent_batches (mp_out (y_mp y))) (take (S (length pre)) new) (pre ++ [pb])).
      { replace (take (S (length pre)) new) with (take (S (length pre)) (take n new)) by (rewrite take_take; f_equal; lia).
        replace (pre ++ [pb]) with (take (S (length pre)) (pre ++ pb :: post)); [by apply Forall2_take|].
        rewrite cons_middle, app_assoc, take_app_alt; [done|]. rewrite app_length. cbn. lia. }
      split; [|split; [|lia]].
      + apply elem_of_sent. apply Forall2_app_inv_r in A3 as (l1 & l2 & _ & H & _). inversion H as [|? ? ? ? [_ ?]]; subst. done.
      + eapply Forall2_impl; [exact A3|]. intros b p [H _]. exact H.
  Qed.

  Context (Hl2 : cfg_last_hash cfg2 = pb_hash pb) (Hw2 : cfg_last_weight cfg2 = pb_weight pb).
  Context (fs : list fpart) (rb : Z) (es ds : list (bytes * Z)) (Hrb : (0 ≤ rb)%Z) (Hfeed : feed_ok fs) (Hfrom : feed_from mt bs fs)
    (Hread : read_before (messages (y_ins y)) fs)
    (Hes : es ≡ₚ map_to_list (pb_res pb : gmap bytes Z)) (Hds : ds ≡ₚ map_to_list (pb_resdef pb : gmap bytes Z)).
  Let t := resumption_text (pb_res pb) es ds.
  Let tok := (pb_res pb : gmap bytes Z) ∪ pb_resdef pb.

  Lemma last_block : ∃ b mid, take k new = mid ++ [b] ∧ b ∈ bs ∧ exact mt b (mc_tracked c) pb.
  Proof.
    destruct first_life as (_ & H & _). apply Forall2_app_inv_r in H as (l1 & l2 & _ & H & E). inversion H as [|b ? l ? He Hn]; subst.
    inversion Hn; subst. exists b, l1. split; [done|]. split; [|done]. unfold bs. apply elem_of_app. right.
    assert (Hb : b ∈ take k new) by (rewrite E; apply elem_of_app; right; apply elem_of_list_here).
    rewrite <- (take_drop k new). apply elem_of_app. by left.
  Qed.
  Lemma hash_nonzero : pb_hash pb ≠ zero_hash.
  Proof.
    destruct last_block as (b & mid & _ & Hb & He). destruct He as (_ & _ & _ & -> & _).
    destruct (proj1 (elem_of_list_lookup _ _) Hb) as [i Hi]. assert (H := chain_at _ _ _ _ Hc _ _ Hi). tauto.
  Qed.
  Lemma token_ok : parse_token t = Some tok.
  Proof.
    assert (Hv := sys_run_inv _ _ _ Hrun). eapply token_parsed; [apply Hv|apply first_life|done|done|done|done].
  Qed.
  Lemma entries f e : f ∈ fs → tok !! fp_name f = Some e → ∃ m, marks (messages (y_ins y)) (pb_hash pb) m ∧ m_src m = fp_name f ∧ m_off m = e ∧
    (0 ≤ e < pt_newest (fl_part (fp_log f)))%Z.
  Proof.
    intros Hf He. assert (Hv := sys_run_inv _ _ _ Hrun).
    destruct (token_marks c (y_ins y) (y_mp y) pb (sv_mp _ _ _ Hv) (proj1 first_life) _ _ He) as (m & Hm & Es & Eo).
    exists m. split; [done|]. split; [done|]. split; [done|].
    destruct (Hread m (marks_read _ _ _ Hm)) as (g & Hg & En & Hoff & _). rewrite Eo in Hoff.
    assert (g = f) as ->; [|done].
    destruct (proj1 (elem_of_list_lookup _ _) Hg) as [i Hi]. destruct (proj1 (elem_of_list_lookup _ _) Hf) as [j Hj].
    assert (i = j) as ->; [|congruence]. eapply NoDup_lookup; [exact (fo_names fs Hfeed)| |]; rewrite map_at; [by rewrite Hi|].
    rewrite Hj. cbn. congruence.
  Qed.

  (** The consumer starts. *)
  Lemma restart_opens : marks_held (messages (y_ins y)) (pb_hash pb) fs → ∃ ps, open_all tok rb (cfg_last_hash cfg2) fs = Some ps.
  Proof.
    clear Hw2. intros Hm. apply open_all_some. intros f Hf. apply open_part_some; [done|rewrite Hl2; apply hash_nonzero|by apply (fo_log fs Hfeed)|].
    intros e He. destruct (entries f e Hf He) as (m & Hk & Es & Eo & Hoff). specialize (Hm f m Hf Hk Es). lia.
  Qed.

  (** The second life. *)
  Lemma second_life s y2 : kafka_life c cfg2 t rb fs s y2 →
    all_removed (o_out (y_omp y2)) = [] ∧
    (∃ n, Forall2 (λ b pb, exact mt b (mc_tracked c) pb) (take n new) (pre ++ pb :: all_added (o_out (y_omp y2)))) ∧
    ((∀ b kd, b ∈ drop k new → needed mt b (mc_tracked c) kd → reachable rb (messages (y_ins y)) (pb_hash pb) fs kd) →
     (∀ s', ¬ warm_step s s') → (∀ i, i < length fs → put_out i (wm_out s) ≠ []) →
     messages (y_ins y2) = loop_messages fs (wm_out s) → batches_of (y_taken y2) = sent_batches (mp_out (y_mp y2)) →
     Forall2 (λ b pb, exact mt b (mc_tracked c) pb) new (pre ++ pb :: all_added (o_out (y_omp y2)))).
  Proof.
    intros Hlife. assert (Hms2 := life_only_from _ _ _ _ _ _ _ _ _ Hfeed Hfrom Hlife).
    destruct Hlife as (tok' & ps & Hp & Ho & Hws & Hrun2 & Hpre). rewrite token_ok in Hp. injection Hp as <-.
    destruct first_life as (Hem & Hfirst & Hlen). destruct last_block as (b & mid & Etake & Hb & He).
    assert (Hbs : bs = (old ++ take k new) ++ drop k new) by (unfold bs; by rewrite <- app_assoc, take_drop).
    destruct (end_to_end mt base num w (old ++ take k new) (drop k new) c cfg2) with (y := y2) as (B1 & (n & B2) & B3).
    - by rewrite <- Hbs.
    - by rewrite <- Hbs.
    - by rewrite <- Hbs.
    - rewrite Hl2. unfold end_hash. rewrite Etake, app_assoc, last_snoc. by destruct He as (_ & _ & _ & -> & _).
    - rewrite Hw2. unfold end_weight. rewrite Etake, app_assoc, last_snoc. by destruct He as (_ & -> & _).
    - rewrite Hl2. apply hash_nonzero.
    - rewrite <- Hbs, Hwl2. done.
    - done.
    - by rewrite <- Hbs.
    - split; [done|]. split.
      + exists (k + n). rewrite cons_middle, app_assoc. replace (take (k + n) new) with (take k new ++ take n (drop k new)).
        * by apply Forall2_app.
        * by rewrite take_take_drop.
      + intros Hreach Hstuck Hnew Hall Htaken. rewrite cons_middle, app_assoc, <- (take_drop k new). apply Forall2_app; [done|].
        apply B3; [|done]. intros b' kd Hb' Hk. destruct (Hreach b' kd Hb' Hk) as (f & x & Hf & Hx & Ekey & Hr).
        exists (fp_msg f x). split; [|done]. rewrite Hall.
        destruct (proj1 (elem_of_list_lookup _ _) Hf) as [i Hi].
        assert (Hlk := open_all_lookup _ _ _ _ _ Ho i). rewrite Hi in Hlk. destruct Hlk as (p & Hpi & Hop).
        assert (Hlow : Forall (λ x : list fmsg * Z, Forall (λ m, x.2 ≤ fm_off m)%Z x.1) ps).
        { apply Forall_forall. intros q Hq. destruct (open_all_in _ _ _ _ _ _ Ho Hq) as (g & Hg & Hog).
          eapply open_part_low; [by apply (fo_log fs Hfeed)|intros z Hz'; by eapply (fo_new fs Hfeed)|done]. }
        assert (Hne : Forall (λ x : list fmsg * Z, x.1 ≠ []) ps).
        { apply Forall_forall. intros q [j Hj]%elem_of_list_lookup Hnil.
          assert (Hlj := open_all_lookup _ _ _ _ _ Ho j). destruct (fs !! j) as [g|] eqn:Eg; [|congruence].
          apply (Hnew j); [by eapply lookup_lt_Some|]. destruct (warm_order ps s Hlow Hws j q Hj) as [r Er]. rewrite Hnil in Er.
          by destruct (put_out j (wm_out s)). }
        apply (in_loop fs (wm_out s) i f x); [|done|eapply key_of_data; [exact Ekey|by exists mt, b', (mc_tracked c)]].
        apply elem_put_out. rewrite (warm_stuck ps s Hlow Hne Hws Hstuck i p Hpi).
        eapply (open_reach tok rb (cfg_last_hash cfg2) f); [done|rewrite Hl2; apply hash_nonzero|by apply (fo_log fs Hfeed)| |exact Hop|done].
        intros e Hent. destruct (entries f e Hf Hent) as (m & Hmk & Es & Eo & Hoff). split; [done|]. rewrite <- Eo. by apply Hr.
  Qed.
End restart.
