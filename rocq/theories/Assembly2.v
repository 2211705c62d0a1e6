(** Collection of one block, continued: headers, kept messages, completeness. *)
From Verif Require Import Base Lru LruFacts Types Avro AvroFacts Wire SpecWire WireFacts GoPath PathFacts Producer SpecBlock
  Consumer ConsumerBase Assembly.

Section assembly.
  Context (mt : bytes → option bytes) (b : block) (tr : bytes → bool).
  Context (Hwf : wf_block mt b).
  Notation a := (bk_args b).
  Notation h := (ba_hash (bk_args b)).
  Notation need := (needed mt b tr).
  Notation tid := (tracked_id b tr).
  Notation pb_fun := (pb_fun mt b tr).
  Notation applied_ok := (applied_ok mt b tr).
  Notation usable := (usable mt b tr).
  Notation left := (left mt b).

  (** * Sub-batch headers *)
  Lemma fun_head A pb id : pb_fun A pb → applied_ok A → id ∈ pb_pbatches pb →
    pb_fun (A ∪ {[key_of (KSubHead h id)]})
      (pb_set_batches pb (<[id := replicate (length (bk_parts b id)) false]> (pb_batches pb)) (pb_pbatches pb ∖ {[id]})).
  Proof.
    intros [F1 F2 F3 F4 F5 F6 F7 F8 F9] HA Hid. apply F8 in Hid as [Ht Hn].
    assert (Hok : kind_ok (KSubHead h id)) by (eapply ok_head; done).
    split; cbn [pb_set_batches pb_num pb_weight pb_parent pb_hash pb_values pb_deletes pb_prefixes pb_batches pb_pbatches]; try done.
    - intros k v. rewrite F5. rewrite (val_add mt b tr Hwf) by done. split; [by left|].
      by intros [?|[(? & _)|(? & ? & ? & ? & _)]].
    - intros k. rewrite F6. rewrite (del_add mt b tr Hwf) by done. split; [by left|].
      by intros [?|[(? & _)|(? & ? & ? & ? & _)]].
    - intros p z. rewrite F7. rewrite (left_other mt b tr Hwf); done.
    - intros id'. rewrite elem_of_difference, elem_of_singleton, F8. split.
      + intros [[H1 H2] H3]. split; [done|]. rewrite (elem_add A) by (done || by eapply ok_head).
        intros [?|[=]]; [done|congruence].
      + intros [H1 H2]. rewrite (elem_add A) in H2 by (done || by eapply ok_head).
        split; [split; [done|]|]; [intros ?|intros ->]; apply H2; [by left|by right].
    - intros id' bits. rewrite lookup_insert_Some, F9. split.
      + intros [[<- <-]|[Hne (H1 & H2 & H3 & H4)]].
        * split; [done|]. split; [by apply elem_of_union_r, elem_of_singleton|]. rewrite replicate_length. split; [done|].
          intros i x [-> Hi]%lookup_replicate. rewrite (elem_add A); [|eapply ok_sub; [done..|by apply lookup_lt_is_Some]|done].
          split; [done|]. intros [Hin|[=]]. exfalso. apply Hn.
          destruct (HA _ Hin) as (kd & E & Hnd & Hh). apply key_inj in E as <-;
            [|eapply ok_sub; [done..|by apply lookup_lt_is_Some]|by eapply need_ok].
          by eapply Hh.
        * split; [done|]. split; [by apply elem_of_union_l|]. split; [done|]. intros i x Hi. rewrite (H4 i x Hi).
          rewrite (elem_add A); [|eapply ok_sub; [done..|apply lookup_lt_is_Some; apply lookup_lt_Some in Hi; lia]|done].
          split; [by left|]. by intros [?|[=]].
      + intros (H1 & H2 & H3 & H4). rewrite (elem_add A) in H2 by (done || by eapply ok_head).
        assert (H4' : ∀ i x, bits !! i = Some x → (x = true ↔ key_of (KSubMsg h id' (Z.of_nat i)) ∈ A)).
        { intros i x Hi. rewrite (H4 i x Hi).
          rewrite (elem_add A); [|eapply ok_sub; [done..|apply lookup_lt_is_Some; apply lookup_lt_Some in Hi; lia]|done].
          split; [|by left]. by intros [?|[=]]. }
        destruct (decide (id = id')) as [<-|Hne].
        * left. split; [done|]. apply list_eq. intros i. destruct (decide (i < length (bk_parts b id))) as [Hi|Hi].
          -- rewrite lookup_replicate_2 by done.
             destruct (bits !! i) as [x|] eqn:Ex; [|apply lookup_ge_None in Ex; lia]. f_equal.
             specialize (H4' i x Ex). destruct x; [|done]. exfalso. apply Hn.
             destruct (HA _ (proj1 H4' eq_refl)) as (kd & E & Hnd & Hh). apply key_inj in E as <-;
               [|eapply ok_sub; [done..|by apply lookup_lt_is_Some]|by eapply need_ok].
             by eapply Hh.
          -- rewrite !lookup_ge_None_2; [done|lia|]. rewrite replicate_length. lia.
        * right. split; [done|]. split; [done|]. split; [|done]. destruct H2 as [?|[=]]; [done|congruence].
  Qed.

  (** * Completeness *)
  Lemma batches_total A pb id : pb_fun A pb → tid id → key_of (KSubHead h id) ∈ A → is_Some (pb_batches pb !! id).
  Proof.
    intros HF Ht Hh. exists ((λ j, bool_decide (key_of (KSubMsg h id (Z.of_nat j)) ∈ A)) <$> seq 0 (length (bk_parts b id))).
    apply (pf_batches _ _ _ _ _ HF). split; [done|]. split; [done|]. rewrite fmap_length, seq_length. split; [done|].
    intros j x. rewrite list_lookup_fmap_Some. intros (j' & Hj' & ->). apply lookup_seq in Hj' as [-> _]. apply bool_decide_eq_true.
  Qed.
  Lemma count_pos_update k p : k ∈ dom (ba_updates a) → mt k = Some p → count_of mt b p ≠ 0.
  Proof.
    intros Hk Hp. unfold count_of. assert (size (filter (λ k, mt k = Some p) (dom (ba_updates a))) ≠ 0); [|lia].
    apply size_non_empty_iff. intros E. apply (not_elem_of_empty (C:=gset bytes) k). rewrite <- E. by apply elem_of_filter.
  Qed.
  Lemma count_pos_delete k p : k ∈ ba_deletes a → mt k = Some p → count_of mt b p ≠ 0.
  Proof.
    intros Hk Hp. unfold count_of. assert (size (filter (λ k, mt k = Some p) (ba_deletes a)) ≠ 0); [|lia].
    apply size_non_empty_iff. intros E. apply (not_elem_of_empty (C:=gset bytes) k). rewrite <- E. by apply elem_of_filter.
  Qed.
  Lemma ready_iff A pb : pb_fun A pb →
    (ready pb = true ↔ ∀ kd, need kd → kd ≠ KBatch h → key_of kd ∈ A).
  Proof.
    intros HF. unfold ready. rewrite !andb_true_iff, !bool_decide_eq_true. split.
    - intros [[H1 H2] H3] kd Hn Hk. destruct Hn as [|k p Hk1 Hk2 Hk3|k p Hk1 Hk2 Hk3|id Ht|id i Ht Hi]; [done|..].
      + assert (Hp : pb_prefixes pb !! p = Some (Z.of_nat (left A p))).
        { apply (pf_prefixes _ _ _ _ _ HF). split; [done|]. split; [by eapply count_pos_update|done]. }
        apply H2 in Hp. destruct (decide (key_of (KUpdate h k) ∈ A)) as [|HA]; [done|exfalso]. apply Hp.
        assert (size (filter (λ k, mt k = Some p ∧ key_of (KUpdate h k) ∉ A) (dom (ba_updates a))) ≠ 0).
        { apply size_non_empty_iff. intros E. apply (not_elem_of_empty (C:=gset bytes) k). rewrite <- E. by apply elem_of_filter. }
        unfold left. lia.
      + assert (Hp : pb_prefixes pb !! p = Some (Z.of_nat (left A p))).
        { apply (pf_prefixes _ _ _ _ _ HF). split; [done|]. split; [by eapply count_pos_delete|done]. }
        apply H2 in Hp. destruct (decide (key_of (KDelete h k) ∈ A)) as [|HA]; [done|exfalso]. apply Hp.
        assert (size (filter (λ k, mt k = Some p ∧ key_of (KDelete h k) ∉ A) (ba_deletes a)) ≠ 0).
        { apply size_non_empty_iff. intros E. apply (not_elem_of_empty (C:=gset bytes) k). rewrite <- E. by apply elem_of_filter. }
        unfold left. lia.
      + destruct (decide (key_of (KSubHead h id) ∈ A)) as [|HA]; [done|exfalso].
        assert (Hin : id ∈ pb_pbatches pb) by (by apply (pf_pbatches _ _ _ _ _ HF)). rewrite H1 in Hin. by apply not_elem_of_empty in Hin.
      + assert (HA : key_of (KSubHead h id) ∈ A).
        { destruct (decide (key_of (KSubHead h id) ∈ A)) as [|HA]; [done|exfalso].
          assert (Hin : id ∈ pb_pbatches pb) by (by apply (pf_pbatches _ _ _ _ _ HF)). rewrite H1 in Hin. by apply not_elem_of_empty in Hin. }
        destruct (batches_total A pb id HF Ht HA) as [bits Hb]. pose proof (H3 _ _ Hb) as Hf. cbn beta in Hf.
        apply (pf_batches _ _ _ _ _ HF) in Hb as (_ & _ & Hl & Hb).
        destruct (bits !! i) as [x|] eqn:Ex; [|apply lookup_ge_None in Ex; lia].
        apply (Hb i x Ex). destruct x; [done|]. exfalso. apply Hf. by eapply elem_of_list_lookup_2.
    - intros H. split; [split|].
      + apply set_eq. intros id. split; [|by intros ?%not_elem_of_empty]. intros [Ht Hn]%(pf_pbatches _ _ _ _ _ HF).
        exfalso. apply Hn, H; [by apply NSubHead|done].
      + intros p z Hz. cbn beta. apply (pf_prefixes _ _ _ _ _ HF) in Hz as (Htr & _ & ->). unfold left.
        assert (E1 : filter (λ k, mt k = Some p ∧ key_of (KUpdate h k) ∉ A) (dom (ba_updates a)) = ∅).
        { apply set_eq. intros k. split; [|by intros ?%not_elem_of_empty]. intros [[E1 E2] E3]%elem_of_filter. exfalso.
          apply E2, H; [by apply (NUpdate _ _ _ k p)|done]. }
        assert (E2 : filter (λ k, mt k = Some p ∧ key_of (KDelete h k) ∉ A) (ba_deletes a) = ∅).
        { apply set_eq. intros k. split; [|by intros ?%not_elem_of_empty]. intros [[E2 E3] E4]%elem_of_filter. exfalso.
          apply E3, H; [by apply (NDelete _ _ _ k p)|done]. }
        rewrite E1, E2, !size_empty. lia.
      + intros id bits Hb. cbn beta. apply (pf_batches _ _ _ _ _ HF) in Hb as (Ht & _ & Hl & Hb).
        intros [i Hi]%elem_of_list_lookup. pose proof (proj2 (Hb i false Hi)) as Hx. discriminate Hx. apply H; [|done].
        apply NSubMsg; [done|]. rewrite <- Hl. by eapply lookup_lt_Some.
  Qed.
  Lemma complete_exact A pb : pb_fun A pb → (∀ kd, need kd → kd ≠ KBatch h → key_of kd ∈ A) → exact mt b tr pb.
  Proof.
    intros HF H. destruct HF as [F1 F2 F3 F4 F5 F6 F7 F8 F9]. split; [done|]. split; [done|]. split; [done|]. split; [done|]. split.
    - intros k v. rewrite F5. split.
      + intros [(H1 & H2 & H3)|[(p & H1 & H2 & H3 & H4)|(id & i & pt & H1 & H2 & H3 & H4)]].
        * apply VOwn; [done|]. by rewrite H1.
        * apply VOwn; [done|]. by rewrite H1.
        * by eapply VPart.
      + destruct 1 as [k v Hk Htr|id i pt k v Ht Hp Hk].
        * destruct (mt k) as [p|] eqn:Em; cbn in Htr; [|by left]. right; left. exists p. split; [done|]. split; [done|].
          split; [done|]. apply H; [|done]. apply (NUpdate _ _ _ k p); [|done|done]. apply elem_of_dom. by eexists.
        * right; right. exists id, i, pt. split; [done|]. split; [done|]. split; [done|]. apply H; [|done].
          apply NSubMsg; [done|]. by eapply lookup_lt_Some.
    - intros k. rewrite F6. split.
      + intros [(H1 & H2 & H3)|[(p & H1 & H2 & H3 & H4)|(id & i & pt & H1 & H2 & H3 & H4)]].
        * apply DOwn; [done|]. by rewrite H1.
        * apply DOwn; [done|]. by rewrite H1.
        * by eapply DPart.
      + destruct 1 as [k Hk Htr|id i pt k Ht Hp Hk].
        * destruct (mt k) as [p|] eqn:Em; cbn in Htr; [|by left]. right; left. exists p. split; [done|]. split; [done|].
          split; [done|]. apply H; [|done]. by apply (NDelete _ _ _ k p).
        * right; right. exists id, i, pt. split; [done|]. split; [done|]. split; [done|]. apply H; [|done].
          apply NSubMsg; [done|]. by eapply lookup_lt_Some.
  Qed.

  (** * Headers *)
  Lemma header_ok x : is_header mt b x → batch_ok x.
  Proof.
    intros (H1 & H2 & H3 & H4). split; [rewrite H1; apply (wf_num _ _ Hwf)|]. split; [rewrite H3; apply (wf_parent _ _ Hwf)|].
    intros k r Hr. apply H4 in Hr. unfold record_ok.
    assert (hash_ok zero_hash) by done. assert (in_int32 0) by done.
    destruct Hr as [k v|k|k id Hid|p Hp]; cbn [br_count br_sub]; try done.
    - split; [done|]. apply (wf_parts _ _ Hwf). by exists k.
    - split; [|done]. apply (wf_count _ _ Hwf).
  Qed.
  Lemma fun_header c st x m : mc_tracked c = tr → is_header mt b x → pb_fun ∅ (header_batch c st h x m).
  Proof.
    intros Htr (H1 & H2 & H3 & H4). unfold header_batch. apply pb_fun_upd_res. rewrite Htr.
    assert (Hl : ∀ k r, filter (λ x, tr x.1 = true) (b_updates x) !! k = Some r ↔ header_entry mt b k r ∧ tr k = true).
    { intros k r. rewrite map_filter_lookup_Some, H4. done. }
    split; cbn [pb_num pb_weight pb_parent pb_hash pb_values pb_deletes pb_prefixes pb_batches pb_pbatches].
    - done.
    - rewrite H2. apply bigint_roundtrip.
    - done.
    - done.
    - intros k v. rewrite lookup_omap_Some. unfold val_in. split.
      + intros (r & Hv & [He Ht]%Hl). destruct He as [k v0 E1 E2 E3|k E1|k id E1|p E1]; cbn in Hv; try discriminate.
        left. split; [done|]. split; [|done]. by destruct v0; simplify_eq.
      + intros [(E1 & E2 & E3)|[(p & _ & _ & _ & []%not_elem_of_empty)|(? & ? & ? & _ & _ & _ & []%not_elem_of_empty)]].
        exists (BR v 0 zero_hash false). split.
        * cbn. pose proof (wf_values _ _ Hwf k v E2). by destruct v.
        * apply Hl. split; [|done]. apply HValue; [done|done|]. apply (wf_inline _ _ Hwf); [done|]. apply elem_of_dom. by eexists.
    - intros k. rewrite elem_of_dom. unfold del_in. split.
      + intros [r [[He Ht]%Hl Hd]%map_filter_lookup_Some]. destruct He as [k v0 E1 E2 E3|k E1|k id E1|p E1]; cbn in Hd; try discriminate.
        by left.
      + intros [(E1 & E2 & E3)|[(p & _ & _ & _ & []%not_elem_of_empty)|(? & ? & ? & _ & _ & _ & []%not_elem_of_empty)]].
        exists (BR [] 0 zero_hash true). apply map_filter_lookup_Some. split; [|done]. apply Hl. split; [|done]. by apply HDelete.
    - intros p z. rewrite lookup_omap_Some.
      assert (HL : left ∅ p = count_of mt b p).
      { unfold left, count_of. f_equal; f_equal; apply set_eq; intros k; rewrite !elem_of_filter; set_solver. }
      rewrite HL. split.
      + intros (r & Hv & [He Ht]%Hl). destruct He as [k v0 E1 E2 E3|k E1|k id E1|p E1]; cbn in Hv; try discriminate.
        case_bool_decide; [discriminate|]. by simplify_eq.
      + intros (Ht & Hc & ->). exists (BR [] (Z.of_nat (count_of mt b p)) zero_hash false). split.
        * cbn. rewrite bool_decide_eq_false_2; [done|]. lia.
        * apply Hl. split; [|done]. by apply HCount.
    - intros id. rewrite elem_of_list_to_set, elem_of_list_omap. split.
      + intros ([k r] & Hin & Hv). apply elem_of_map_to_list, Hl in Hin as [He Ht]. cbn in Hv.
        destruct He as [k v0 E1 E2 E3|k E1|k id' E1|p E1]; cbn in Hv; try discriminate.
        case_bool_decide; [discriminate|]. simplify_eq. split; [by exists k|]. by intros ?%not_elem_of_empty.
      + intros [(k & Hk & Ht) _]. exists (k, BR [] 0 id false). split.
        * apply elem_of_map_to_list, Hl. split; [|done]. by apply HBatch.
        * cbn. rewrite bool_decide_eq_false_2; [done|]. apply (wf_nonzero _ _ Hwf). by exists k.
    - intros id bits. rewrite lookup_empty. split; [done|]. by intros (_ & []%not_elem_of_empty & _).
  Qed.

  (** * A pending batch that has seen the messages [D] *)
  Definition pending_ok (D : list msg) (pb : pending_batch) : Prop :=
    ∀ k m, pb_pmsgs pb !! k = Some m → m_key m = k ∧ m ∈ D ∧ res_le pb m ∧
      ∃ kd, m_key m = key_of kd ∧ body kd ∧ sent mt b kd (m_val m) ∧ sized (length (m_val m)).
  Definition covered (A : gset bytes) (pb : pending_batch) (m : msg) : Prop :=
    ∀ kd, need kd → m_key m = key_of kd → kd = KBatch h ∨ m_key m ∈ A ∨
      (∃ id i, kd = KSubMsg h id i ∧ key_of (KSubHead h id) ∉ A ∧ is_Some (pb_pmsgs pb !! m_key m)).
  Definition seen (D : list msg) (pb : pending_batch) (k : bytes) : Prop := ∃ m, m ∈ D ∧ m_key m = k ∧ res_le pb m.
  Definition collecting (D : list msg) (pb : pending_batch) : Prop :=
    ∃ A, pb_fun A pb ∧ applied_ok A ∧ pending_ok D pb ∧ (∀ m, m ∈ D → covered A pb m) ∧
      (∀ k, k ∈ A → seen D pb k) ∧ seen D pb (key_of (KBatch h)).

  Lemma collecting_ready D pb : collecting D pb → ready pb = true →
    exact mt b tr pb ∧ ∀ kd, need kd → seen D pb (key_of kd).
  Proof.
    intros (A & HF & HA & HP & HC & HS & HB) Hr. pose proof (proj1 (ready_iff A pb HF) Hr) as H. split; [by eapply complete_exact|].
    intros kd Hn. destruct (decide (key_of kd = key_of (KBatch h))) as [->|Hne]; [done|]. apply HS, H; [done|].
    intros ->. done.
  Qed.
  Lemma ready_collecting D pb : collecting D pb → (∀ kd, need kd → ∃ m, m ∈ D ∧ m_key m = key_of kd) → ready pb = true.
  Proof.
    intros (A & HF & HA & HP & HC & HS & HB) H. apply (ready_iff A pb HF).
    assert (HH : ∀ id, tid id → key_of (KSubHead h id) ∈ A).
    { intros id Ht. destruct (H _ (NSubHead _ _ _ id Ht)) as (m & Hm & Hk).
      destruct (HC m Hm _ (NSubHead _ _ _ id Ht) Hk) as [?|[?|(? & ? & ? & _)]]; [done|congruence|done]. }
    intros kd Hn Hne. destruct (H kd Hn) as (m & Hm & Hk).
    destruct (HC m Hm kd Hn Hk) as [?|[?|(id & i & -> & Hh & _)]]; [done|congruence|].
    exfalso. apply Hh, HH. clear -Hn. inversion Hn; by subst.
  Qed.

  (** * Messages that reach a pending batch *)
  Lemma res_le_ext pb pb' m : pb_res pb' = pb_res pb → res_le pb m → res_le pb' m.
  Proof. unfold res_le. by intros ->. Qed.
  Lemma res_le_upd pb pb' m m' : pb_res pb' = pb_res (pb_update_res pb m) → res_le pb m' → res_le pb' m'.
  Proof. intros E H. eapply res_le_ext; [exact E|]. by apply upd_res_mono. Qed.
  Lemma res_le_self pb pb' m : pb_res pb' = pb_res (pb_update_res pb m) → res_le pb' m.
  Proof. intros E. eapply res_le_ext; [exact E|]. apply upd_res_le. Qed.
  Lemma head_not_body (A : gset bytes) kd id : body kd → key_of (KSubHead h id) ∈ A ∪ {[key_of kd]} → key_of (KSubHead h id) ∈ A.
  Proof. intros Hb [?|E%elem_of_singleton]%elem_of_union; [done|]. destruct kd; by destruct Hb. Qed.
  Lemma applied_ok_add A kd : applied_ok A → usable A kd → applied_ok (A ∪ {[key_of kd]}).
  Proof.
    intros HA [Hn Hh] k [Hk|Hk%elem_of_singleton]%elem_of_union.
    - destruct (HA k Hk) as (kd' & E & Hn' & Hh'). exists kd'. split; [done|]. split; [done|].
      intros id i Hi. apply elem_of_union_l. by eapply Hh'.
    - exists kd. split; [done|]. split; [done|]. intros id i Hi. apply elem_of_union_l. by eapply Hh.
  Qed.

  Definition body_copy (m : msg) (kd : message_kind) : Prop :=
    m_key m = key_of kd ∧ body kd ∧ sent mt b kd (m_val m) ∧ sized (length (m_val m)).
  Lemma apply_body A pb m kd : pb_fun A pb → body_copy m kd → applied mt b tr A pb m kd.
  Proof.
    intros HF (Hk & Hb & Hs & Hz). remember (m_val m) as v eqn:Ev. destruct Hs as [|k v p H1 H2|k v p H1 H2|id Ha|id i pt es H1 H2 H3]; try by destruct Hb.
    - subst v. by eapply apply_update.
    - by eapply apply_delete.
    - eapply apply_sub; try done. by rewrite <- Ev.
  Qed.
  Lemma not_usable_sub A kd : need kd → ¬ usable A kd → ∃ id i, kd = KSubMsg h id i ∧ key_of (KSubHead h id) ∉ A.
  Proof.
    intros Hn Hu. destruct Hn as [|k p H1 H2 H3|k p H1 H2 H3|id Ht|id i Ht Hi];
      try (exfalso; apply Hu; split; [by econstructor|done]).
    exists id, (Z.of_nat i). split; [done|]. intros Hin. apply Hu. split; [by constructor|]. by intros ? ? [= <- _].
  Qed.

  Lemma collect_body D pb m kd : collecting D pb → body_copy m kd →
    ∃ pb' d, apply_msg pb m = Ok (pb', d) ∧ collecting (D ++ [m]) pb'.
  Proof.
    intros (A & HF & HA & HP & HC & HS & HB) Hbc. destruct (apply_body A pb m kd HF Hbc) as (pb' & d & A' & Hap & HF' & Hres & Hcase).
    destruct Hbc as (Hk & Hb & Hs & Hz).
    exists pb', d. split; [done|]. exists A'. split; [done|].
    assert (Hm : ∀ k, seen D pb k → seen (D ++ [m]) pb' k).
    { intros k (m' & H1 & H2 & H3). exists m'. split; [apply elem_of_app; by left|]. split; [done|]. by eapply res_le_upd. }
    destruct Hcase as [(Hu & -> & Hpm)|(Hu & -> & -> & Hpm)].
    - rewrite Hk. split; [by apply applied_ok_add|]. split; [|split; [|split]].
      + intros k m'. rewrite Hpm. intros Hk'. destruct (HP k m' Hk') as (? & ? & ? & ?). split; [done|].
        split; [apply elem_of_app; by left|]. split; [|done]. by eapply res_le_upd.
      + intros m' [Hin| ->%elem_of_list_singleton]%elem_of_app.
        * intros kd' Hn' Hk'. destruct (HC m' Hin kd' Hn' Hk') as [?|[?|(id & i & ? & Hh & Hq)]]; [by left|right; left|right; right].
          -- by apply elem_of_union_l.
          -- exists id, i. split; [done|]. rewrite Hpm. split; [|done]. intros Hin'. apply Hh. by eapply head_not_body.
        * intros kd' Hn' Hk'. right; left. rewrite Hk. by apply elem_of_union_r, elem_of_singleton.
      + intros k [Hin| ->%elem_of_singleton]%elem_of_union; [by apply Hm, HS|].
        exists m. split; [apply elem_of_app; right; by apply elem_of_list_singleton|]. split; [done|]. by eapply res_le_self.
      + by apply Hm.
    - split; [done|]. split; [|split; [|split]].
      + intros k m'. rewrite Hpm. intros [[<- <-]|[Hne Hk']]%lookup_insert_Some.
        * split; [done|]. split; [apply elem_of_app; right; by apply elem_of_list_singleton|]. split; [by eapply res_le_self|].
          by exists kd.
        * destruct (HP k m' Hk') as (? & ? & ? & ?). split; [done|].
          split; [apply elem_of_app; by left|]. split; [|done]. by eapply res_le_upd.
      + intros m' [Hin| ->%elem_of_list_singleton]%elem_of_app.
        * intros kd' Hn' Hk'. destruct (HC m' Hin kd' Hn' Hk') as [?|[?|(id & i & ? & Hh & Hq)]]; [by left|by right; left|right; right].
          exists id, i. split; [done|]. split; [done|]. rewrite Hpm. destruct (decide (m_key m = m_key m')) as [->|Hne].
          -- rewrite lookup_insert. by eexists.
          -- by rewrite lookup_insert_ne.
        * intros kd' Hn' Hk'. assert (kd' = kd) as ->.
          { apply key_inj; [by eapply need_ok|by eapply sent_ok|congruence]. }
          destruct (not_usable_sub A kd Hn' Hu) as (id & i & -> & Hh). right; right. exists id, i. split; [done|]. split; [done|].
          rewrite Hpm, lookup_insert. by eexists.
      + intros k Hin. by apply Hm, HS.
      + by apply Hm.
  Qed.

  (** A message of another type (reorg-complete, ping, unknown) for this hash. *)
  Definition stray (m : msg) : Prop :=
    msg_hash m = h ∧ 33 ≤ length (m_key m) ∧
    ∃ t, head (m_key m) = Some t ∧
      t ∉ [BatchType; SubBatchHeaderType; SubBatchMsgType; BatchMsgType; BatchDeleteMsgType; ReorgType].
  Lemma stray_not_needed m kd : stray m → need kd → m_key m ≠ key_of kd.
  Proof.
    intros (_ & _ & t & Ht & Hn) Hnd E. rewrite E, key_type in Ht. injection Ht as <-. apply Hn.
    destruct Hnd; cbn; set_solver.
  Qed.
  (** A message that is not needed, or no longer. *)
  Lemma collect_skip D pb m :
    collecting D pb →
    (∀ kd, need kd → m_key m = key_of kd → kd = KBatch h ∨ (∀ A, pb_fun A pb → m_key m ∈ A)) →
    collecting (D ++ [m]) pb.
  Proof.
    intros (A & HF & HA & HP & HC & HS & HB) Hm.
    assert (Hs : ∀ k, seen D pb k → seen (D ++ [m]) pb k).
    { intros k (m' & H1 & H2 & H3). exists m'. split; [apply elem_of_app; by left|done]. }
    exists A. split; [done|]. split; [done|]. split; [|split; [|split]].
    - intros k m' Hk. destruct (HP k m' Hk) as (? & ? & ?). split; [done|]. split; [apply elem_of_app; by left|done].
    - intros m' [Hin| ->%elem_of_list_singleton]%elem_of_app; [by apply HC|].
      intros kd Hn Hk. destruct (Hm kd Hn Hk) as [?|HA']; [by left|]. right; left. by apply HA'.
    - intros k Hk. by apply Hs, HS.
    - by apply Hs.
  Qed.
  Lemma collect_res D pb m : collecting D pb → collecting D (pb_update_res pb m).
  Proof.
    intros (A & HF & HA & HP & HC & HS & HB).
    destruct (upd_res_fields pb m) as (_ & _ & _ & _ & _ & Epm).
    assert (Hs : ∀ k, seen D pb k → seen D (pb_update_res pb m) k).
    { intros k (m' & H1 & H2 & H3). exists m'. split; [done|]. split; [done|]. by apply upd_res_mono. }
    exists A. split; [by apply pb_fun_upd_res|]. split; [done|]. split; [|split; [|split]].
    - intros k m'. rewrite Epm. intros Hk. destruct (HP k m' Hk) as (? & ? & ? & ?). split; [done|]. split; [done|]. split; [|done].
      by apply upd_res_mono.
    - intros m' Hin kd Hn Hk. rewrite Epm. by apply (HC m' Hin).
    - intros k Hk. by apply Hs, HS.
    - by apply Hs.
  Qed.
  Lemma collect_stray D pb m : collecting D pb → stray m →
    apply_msg pb m = Ok (pb_update_res pb m, true) ∧ collecting (D ++ [m]) (pb_update_res pb m).
  Proof.
    intros HD Hm. split.
    - destruct Hm as (_ & _ & t & Ht & Hn). apply (apply_other_eq pb m t Ht); intros ->; apply Hn; set_solver.
    - apply collect_skip; [by apply collect_res|]. intros kd Hn E. exfalso. by eapply stray_not_needed.
  Qed.

  (** Applying the kept messages again when a sub-batch header has arrived. *)
  Record revisit (A0 : gset bytes) (pb0 : pending_batch) (seen : list bytes) (pb : pending_batch) (A : gset bytes) : Prop := RV {
    rv_fun : pb_fun A pb;
    rv_ok : applied_ok A;
    rv_sub : A0 ⊆ A;
    rv_heads : ∀ id, key_of (KSubHead h id) ∈ A → key_of (KSubHead h id) ∈ A0;
    rv_pm : ∀ k m, pb_pmsgs pb !! k = Some m → pb_pmsgs pb0 !! k = Some m;
    rv_res : ∀ m, res_le pb0 m → res_le pb m;
    rv_from : ∀ k, k ∈ A → k ∈ A0 ∨ is_Some (pb_pmsgs pb0 !! k);
    rv_done : ∀ k m kd, k ∈ seen → pb_pmsgs pb0 !! k = Some m → body_copy m kd → usable A0 kd → k ∈ A;
    rv_kept : ∀ k, is_Some (pb_pmsgs pb0 !! k) → k ∈ A ∨ is_Some (pb_pmsgs pb !! k)
  }.
  Lemma usable_mono A A' kd : A ⊆ A' → usable A kd → usable A' kd.
  Proof. intros Hs [Hn Hh]. split; [done|]. intros id i E. apply Hs. by eapply Hh. Qed.
  Lemma revisit_step A0 pb0 vs pb A k m kd :
    pb_pmsgs pb0 !! k = Some m → m_key m = k → body_copy m kd → revisit A0 pb0 vs pb A →
    ∃ pb' d A', apply_msg pb m = Ok (pb', d) ∧
      revisit A0 pb0 (vs ++ [k]) (if d : bool then pb_set_pmsgs pb' (delete k (pb_pmsgs pb')) else pb') A'.
  Proof.
    intros Hk0 Hkey Hbc [R1 R2 R3 R4 R5 R6 R7 R8 R9].
    destruct (apply_body A pb m kd R1 Hbc) as (pb' & d & A' & Hap & HF' & Hres & Hcase).
    exists pb', d, A'. split; [done|].
    assert (Hkd : ∀ kd', body_copy m kd' → kd' = kd).
    { intros kd' (E & _ & Hs & _). destruct Hbc as (E' & _ & Hs' & _). apply key_inj; [by eapply sent_ok..|congruence]. }
    destruct Hbc as (Hk & Hb & Hs & Hz).
    assert (HF2 : pb_fun A' (if d then pb_set_pmsgs pb' (delete k (pb_pmsgs pb')) else pb')).
    { destruct d; [|done]. eapply pb_fun_ext; [exact HF'|..]; done. }
    assert (HR2 : ∀ m', res_le pb0 m' → res_le (if d then pb_set_pmsgs pb' (delete k (pb_pmsgs pb')) else pb') m').
    { intros m' H%R6. eapply (res_le_upd pb _ m) in H; [|exact Hres]. destruct d; [|done]. by eapply res_le_ext; [|exact H]. }
    destruct Hcase as [(Hu & -> & Hpm)|(Hu & -> & -> & Hpm)].
    - rewrite Hkey in *. subst k. split; try done.
      + rewrite Hk. by apply applied_ok_add.
      + intros x Hx. apply elem_of_union_l. by apply R3.
      + intros id Hin. apply R4. rewrite Hk in Hin. by eapply head_not_body.
      + intros k' m'. destruct d; cbn [pb_pmsgs pb_set_pmsgs]; rewrite Hpm; [|apply R5].
        rewrite lookup_delete_Some. intros [_ ?]. by apply R5.
      + intros k' [Hin| ->%elem_of_singleton]%elem_of_union; [by apply R7|]. right. by eexists.
      + intros k' m' kd' [Hin| ->%elem_of_list_singleton]%elem_of_app Hk' Hb' Hu'.
        * apply elem_of_union_l. by eapply R8.
        * by apply elem_of_union_r, elem_of_singleton.
      + intros k' Hin. destruct (decide (k' = m_key m)) as [->|Hne]; [left; by apply elem_of_union_r, elem_of_singleton|].
        destruct (R9 k' Hin) as [?|Hsm]; [left; by apply elem_of_union_l|right].
        destruct d; cbn [pb_pmsgs pb_set_pmsgs]; rewrite Hpm; [|done]. by rewrite lookup_delete_ne.
    - split; try done.
      + intros k' m'. rewrite Hpm, Hkey. intros [[<- <-]|[_ ?]]%lookup_insert_Some; [done|by apply R5].
      + intros k' m' kd' [Hin| ->%elem_of_list_singleton]%elem_of_app Hk' Hb' Hu'; [by eapply R8|].
        simplify_eq. rewrite (Hkd kd' Hb') in Hu'. exfalso. apply Hu. by eapply usable_mono.
      + intros k' Hin. destruct (R9 k' Hin) as [?|Hsm]; [by left|right]. rewrite Hpm, Hkey.
        destruct (decide (k = k')) as [->|Hne]; [rewrite lookup_insert; by eexists|by rewrite lookup_insert_ne].
  Qed.
  Lemma revisit_loop A0 pb0 ks :
    pb_fun A0 pb0 → applied_ok A0 →
    (∀ k m, pb_pmsgs pb0 !! k = Some m → m_key m = k ∧ ∃ kd, body_copy m kd) →
    ∃ pb A, apply_pending pb0 ks = Ok pb ∧ revisit A0 pb0 ks pb A.
  Proof.
    intros HF HA HP. unfold apply_pending.
    assert (H : ∀ ks vs pb A, revisit A0 pb0 vs pb A → ∃ pb' A',
      foldM (λ p k, match pb_pmsgs pb0 !! k with
        | None => Ok p
        | Some m => r ← apply_msg p m; let '(p, done) := r : pending_batch * bool in
            Ok (if done then pb_set_pmsgs p (delete k (pb_pmsgs p)) else p)
        end) ks pb = Ok pb' ∧ revisit A0 pb0 (vs ++ ks) pb' A').
    { clear ks. induction ks as [|k ks IH]; intros vs pb A HR; cbn [foldM].
      - rewrite app_nil_r. eauto.
      - destruct (pb_pmsgs pb0 !! k) as [m|] eqn:Ek.
        + destruct (HP k m Ek) as [Hk [kd Hkd]].
          destruct (revisit_step A0 pb0 vs pb A k m kd Ek Hk Hkd HR) as (pb' & d & A' & -> & HR').
          cbn [mbind outcome_bind]. destruct (IH _ _ _ HR') as (pb2 & A2 & E & HR2). exists pb2, A2.
          rewrite <- app_assoc in HR2. done.
        + cbn [mbind outcome_bind]. assert (HR' : revisit A0 pb0 (vs ++ [k]) pb A).
          { destruct HR as [R1 R2 R3 R4 R5 R6 R7 R8 R9]. split; try done.
            intros k' m' kd' [Hin| ->%elem_of_list_singleton]%elem_of_app Hk' Hb' Hu'; [by eapply R8|congruence]. }
          destruct (IH _ _ _ HR') as (pb2 & A2 & E & HR2). exists pb2, A2. rewrite <- app_assoc in HR2. done. }
    destruct (H ks [] pb0 A0) as (pb & A & E & HR); [|by eauto].
    split; try done; [by left|by intros ? ? ? ?%elem_of_nil|by right].
  Qed.

  Lemma collect_head D pb m id ks : collecting D pb → m_key m = key_of (KSubHead h id) → id ∈ pb_pbatches pb →
    let pb2 := pb_update_res (pb_set_batches pb (<[id := replicate (length (bk_parts b id)) false]> (pb_batches pb)) (pb_pbatches pb ∖ {[id]})) m in
    ks ≡ₚ keys (pb_pmsgs pb2) →
    ∃ pb3, apply_pending pb2 ks = Ok pb3 ∧ collecting (D ++ [m]) pb3.
  Proof.
    intros (A & HF & HA & HP & HC & HS & HB) Hk Hid pb2 Hks.
    pose proof (fun_head A pb id HF HA Hid) as HF1. apply (pb_fun_upd_res mt b tr _ _ m) in HF1. fold pb2 in HF1.
    apply (pf_pbatches _ _ _ _ _ HF) in Hid as [Ht Hn].
    assert (HA1 : applied_ok (A ∪ {[key_of (KSubHead h id)]})).
    { apply applied_ok_add; [done|]. split; [by constructor|done]. }
    assert (Hpm : pb_pmsgs pb2 = pb_pmsgs pb).
    { unfold pb2. match goal with |- pb_pmsgs (pb_update_res ?x _) = _ => destruct (upd_res_fields x m) as (_ & _ & _ & _ & _ & ->) end. done. }
    assert (Hmono : ∀ m', res_le pb m' → res_le pb2 m') by (intros m' H; by apply upd_res_mono).
    destruct (revisit_loop _ pb2 ks HF1 HA1) as (pb3 & A3 & E & [R1 R2 R3 R4 R5 R6 R7 R8 R9]).
    { intros k m'. rewrite Hpm. intros Hm'. destruct (HP k m' Hm') as (? & ? & ? & ?). done. }
    exists pb3. split; [done|].
    assert (Hsn : ∀ k, seen D pb k → seen (D ++ [m]) pb3 k).
    { intros k (m' & H1 & H2 & H3). exists m'. split; [apply elem_of_app; by left|]. split; [done|]. by apply R6, Hmono. }
    exists A3. split; [done|]. split; [done|]. split; [|split; [|split]].
    - intros k m' Hk'%R5. rewrite Hpm in Hk'. destruct (HP k m' Hk') as (? & ? & ? & ?). split; [done|].
      split; [apply elem_of_app; by left|]. split; [|done]. by apply R6, Hmono.
    - intros m' [Hin| ->%elem_of_list_singleton]%elem_of_app kd' Hn' Hk'.
      + destruct (HC m' Hin kd' Hn' Hk') as [?|[?|(id' & i & ? & Hh & [m'' Hq])]]; [by left|right; left; by apply R3, elem_of_union_l|].
        assert (Hq2 : pb_pmsgs pb2 !! m_key m' = Some m'') by (by rewrite Hpm).
        destruct (decide (id' = id)) as [->|Hne].
        * right; left. destruct (HP _ _ Hq) as (E1 & _ & _ & kd'' & Hb). eapply (R8 _ _ kd''); [|exact Hq2|done|].
          -- rewrite Hks. unfold keys. apply elem_of_list_fmap. exists (m_key m', m''). split; [done|].
             by apply elem_of_map_to_list.
          -- assert (kd'' = kd') as ->.
             { apply key_inj; [by eapply sent_ok, Hb|by eapply need_ok|]. destruct Hb as (? & _). congruence. }
             subst kd'. split; [done|]. intros ? ? [= <- _]. by apply elem_of_union_r, elem_of_singleton.
        * destruct (R9 (m_key m')) as [?|?]; [by eexists|by right; left|]. right; right. exists id', i.
          split; [done|]. split; [|done]. intros Hin'%R4. rewrite (elem_add A) in Hin'.
          -- destruct Hin' as [?|[=]]; [done|congruence].
          -- subst kd'. eapply ok_head; [done|]. clear -Hn'. inversion Hn'; by subst.
          -- by eapply ok_head.
      + right; left. rewrite Hk. by apply R3, elem_of_union_r, elem_of_singleton.
    - intros k Hk3. destruct (R7 k Hk3) as [[Hin| ->%elem_of_singleton]%elem_of_union|[m' Hm']].
      + by apply Hsn, HS.
      + exists m. split; [apply elem_of_app; right; by apply elem_of_list_singleton|]. split; [done|]. apply R6, upd_res_le.
      + rewrite Hpm in Hm'. destruct (HP k m' Hm') as (? & ? & ? & ?). apply Hsn. by exists m'.
    - by apply Hsn.
  Qed.
End assembly.
