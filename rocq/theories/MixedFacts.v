(** C72: a message processor that also gets whole blocks. *)
From Verif Require Import Base Lru LruFacts Types Avro AvroFacts Wire SpecWire WireFacts GoPath PathFacts Producer SpecBlock
  Consumer ConsumerBase ConsumerFacts Assembly Assembly2 Assembly3 SpecCollect CollectFacts CollectFacts2 AgainFacts MixedSystem SpecMixed.

Lemma complete_fields st pb : ∃ o pb', as_given pb' pb ∧
  process_complete st pb =
  MP (pb_num pb) (delete (pb_hash pb) (mp_pend st)) (mp_queue st) (mp_old st) (fst (lru_add (mp_done st) (pb_hash pb)))
     (mp_res st) (mp_evict st) (mp_chan (process_complete st pb)) (mp_out st ++ o) ∧
  (∀ x, EBatch x ∈ o ↔ x = pb') ∧ (∀ n h, EReorg n h ∉ o).
Proof.
  unfold process_complete. destruct (pb_wait pb) as [ch|] eqn:Ew.
  - eexists _, pb. split; [done|]. split; [cbn; reflexivity|]. split.
    + intros x. rewrite elem_of_cons, elem_of_list_singleton. split; [intros [?|?]; congruence|intros ->; by right].
    + intros n h. rewrite elem_of_cons, elem_of_list_singleton. intros [?|?]; congruence.
  - eexists _, _. split; [|split; [cbn; reflexivity|split]].
    2: { intros x. rewrite elem_of_cons, elem_of_list_singleton. split; [intros [?|[= ->]]; [discriminate|reflexivity]|intros ->; by right]. }
    + done.
    + intros n h. rewrite elem_of_cons, elem_of_list_singleton. intros [?|?]; congruence.
Qed.
Lemma complete_base c st pb : base_inv c st → base_inv c (process_complete st pb).
Proof.
  intros [Hq Hpd [Hc Hc0] Hw]. destruct (complete_fields st pb) as (o & pb' & _ & -> & _). split; cbn.
  - exact Hq.
  - intros h' pb2 [Hne Hp]%lookup_delete_Some. destruct (Hpd _ _ Hp) as (? & ? & ?). split; [done|]. split; [done|].
    intros Hin. by apply lru_add_other in Hin.
  - rewrite lru_add_cap. done.
  - apply lru_add_wf; done.
Qed.

(** The steps of the processor do not depend on what it sent. *)
Lemma prim_pre c e r h o s st' : prim c e r h (pre_out o s) st' → ∃ s', st' = pre_out o s' ∧ prim c e r h s s'.
Proof.
  intros Hp. remember (pre_out o s) as st eqn:Es.
  destruct Hp as [st|st m|st Hr|st n Hr Hd Ho|st pb p n H1 H2 H3 H4|st m H1 H2 H3 H4|st pb pb' H1 H2 H3|st pb H1 H2|st|st k n Hn]; subst st.
  - rewrite pre_drain. eexists. split; [reflexivity|]. apply PDrain.
  - rewrite pre_res. eexists. split; [reflexivity|]. apply PRes.
  - exists (reset c s). split; [done|]. by apply PReset.
  - exists (announce_reorg s n h). split; [unfold announce_reorg, pre_out; cbn; by rewrite app_assoc|]. by apply PReorg.
  - exists (open_batch s h pb p n). split; [unfold open_batch, pre_out; cbn; by rewrite app_assoc|]. by apply POpen.
  - exists (queue_msg s h m). split; [done|]. by apply PQueue.
  - exists (set_pend s (<[h := pb']> (mp_pend s))). split; [done|]. by eapply PUpd.
  - exists (emit s h pb). split; [unfold emit, pre_out; cbn; by rewrite app_assoc|]. by apply PEmit.
  - exists (set_queue s (delete h (mp_queue s))). split; [done|]. by apply PUnqueue.
  - rewrite pre_evict. eexists. split; [reflexivity|]. by eapply PPush.
Qed.

Section mixed.
  Context (mt : bytes → option bytes) (b : block) (c : mp_config).
  Context (Hwf : wf_block mt b).
  Notation h := (ba_hash (bk_args b)).
  Notation good := (good mt b).
  Notation queued := (queued mt b).
  Notation waiting := (waiting mt b c).
  Notation exact := (exact mt b (mc_tracked c)).

  (** The block is over; messages of it may still be queued. *)
  Definition shut (hist : list msg) (st : mp) : Prop :=
    mp_pend st !! h = None ∧ (h ∈ mp_old st ∨ h ∈ lru_keys (mp_done st)) ∧
    ∀ q k m, mp_queue st !! h = Some q → q !! k = Some m → m ∈ hist ∧ good m.
  Definition open (hist : list msg) (st : mp) : Prop :=
    ∃ D, D ⊆ hist ∧ (queued D st ∨ (waiting D st ∧ mp_queue st !! h = None)).
  Definition coll (hist : list msg) (st : mp) : Prop := base_inv c st ∧ (open hist st ∨ shut hist st).

  Lemma coll_pre hist o st : coll hist (pre_out o st) ↔ coll hist st.
  Proof. split; intros [[B1 B2 B3 B4] H]; (split; [by split|exact H]). Qed.
  Lemma coll_cut hist st : coll hist (cut_out st) ↔ coll hist st.
  Proof. split; intros [[B1 B2 B3 B4] H]; (split; [by split|exact H]). Qed.
  Lemma inv_coll hist st : inv mt b c False hist st → coll hist st.
  Proof.
    intros [(Hb & _) Hst]. split; [done|]. destruct Hst as [(D & HD & _ & Hph)|[(H1 & H2 & _) Hq]].
    - left. by exists D.
    - right. split; [done|]. split; [done|]. intros q k m Hk. congruence.
  Qed.
  Lemma open_inv hist st : base_inv c st → open hist st → inv mt b c False hist (cut_out st).
  Proof.
    intros [B1 B2 B3 B4] (D & HD & Hph). split.
    - split; [by split|]. split; [by intros pb ?%elem_of_nil|done].
    - left. exists D. split; [done|]. split; [done|exact Hph].
  Qed.
  (** A block that has been forgotten. *)
  Lemma forgotten hist st : base_inv c st → mp_pend st !! h = None →
    (∀ q k m, mp_queue st !! h = Some q → q !! k = Some m → m ∈ hist ∧ good m) → coll hist st.
  Proof.
    intros Hb Hp Hq. split; [done|].
    destruct (decide (h ∈ mp_old st ∨ h ∈ lru_keys (mp_done st))) as [Hd|Hd]; [by right|left].
    exists (match mp_queue st !! h with Some q => (map_to_list q).*2 | None => [] end). split.
    - destruct (mp_queue st !! h) as [q|] eqn:E; [|by intros ? ?%elem_of_nil].
      intros m ([k m'] & -> & Hm)%elem_of_list_fmap. apply elem_of_map_to_list in Hm. by eapply Hq.
    - left. split; [done|]. split; [tauto|]. split; [tauto|]. split.
      + destruct (mp_queue st !! h) as [q|] eqn:E; [|by intros ? ?%elem_of_nil].
        intros m ([k m'] & -> & Hm)%elem_of_list_fmap. apply elem_of_map_to_list in Hm. exists q. split; [done|].
        cbn. rewrite (proj1 (bi_queue _ _ Hb h q k m' E Hm)). by eexists.
      + intros q k m E Hm. rewrite E. split; [|by eapply Hq]. apply elem_of_list_fmap. exists (k, m). split; [done|].
        by apply elem_of_map_to_list.
  Qed.
  Lemma shut_mono hist hist' st : hist ⊆ hist' → shut hist st → shut hist' st.
  Proof. intros Hs (H1 & H2 & H3). split; [done|]. split; [done|]. intros q k m Hq Hm. destruct (H3 q k m Hq Hm). split; [by apply Hs|done]. Qed.
  Lemma settle_shut hist st m : shut hist st → shut hist (settle st m).
  Proof.
    intros (H1 & H2 & H3). destruct (settle_spec st m) as (E1 & E2 & E3 & E4 & E5 & E6).
    split; [by apply settle_none|]. rewrite E1, E2, E6. split; [destruct H2; auto|done].
  Qed.
  Lemma settle_base st m : base_inv c st → base_inv c (settle st m).
  Proof.
    intros Hb. eapply (prims_base c id_env false h); [|exact Hb]. eapply rtc_l; [apply PDrain|]. apply rtc_once, PRes.
  Qed.

  (** Messages of the block. *)
  Lemma coll_good e hist st m : coll hist st → good m → menv_ok e →
    ∃ st' o, process c e st m = Ok (st', false) ∧ coll (hist ++ [m]) st' ∧ mp_out st' = mp_out st ++ o ∧
      ∀ pb, EBatch pb ∈ o → pb_hash pb = h → exact pb.
  Proof.
    intros [Hb Hph] Hg He. destruct Hph as [Hop|Hsh].
    - assert (Hi := open_inv hist st Hb Hop).
      destruct (inv_good mt b c Hwf False e hist (cut_out st) m Hi Hg He ltac:(by intros [])) as (s & Hp & Hi').
      exists (pre_out (mp_out st) s), (mp_out s). split; [|split; [|split; [done|]]].
      + rewrite <- (pre_cut st) at 1. rewrite pre_process, Hp. done.
      + apply coll_pre. by apply inv_coll.
      + intros pb Hpb Hh. by destruct (inv_emitted _ _ _ _ _ _ _ Hi' Hpb Hh).
    - assert (Hs1 := settle_shut hist st m Hsh). exists (settle st m), []. split; [|split; [|split]].
      + unfold process. eapply (dead_step mt b c Hwf False); [done|]. destruct Hs1 as (H1 & H2 & _). done.
      + split; [by apply settle_base|]. right. eapply shut_mono; [|exact Hs1]. intros x Hx. apply elem_of_app. by left.
      + destruct (settle_spec st m) as (_ & _ & -> & _). by rewrite app_nil_r.
      + by intros pb ?%elem_of_nil.
  Qed.
  (** ... and of other blocks. *)
  Lemma coll_prim e h' hist st st' : h' ≠ h → prim c e false h' st st' → coll hist st → coll hist st'.
  Proof.
    intros Hne Hp [Hb [Hop|Hsh]].
    - rewrite <- (pre_cut st) in Hp. apply prim_pre in Hp as (s' & -> & Hp). apply coll_pre, inv_coll.
      eapply (inv_prim mt b c False); [exact Hne| |exact Hp|by apply open_inv]. by intros [].
    - assert (Hb' : base_inv c st') by (eapply prim_base; [exact Hp|done]).
      pose proof Hsh as (H1 & H2 & H3).
      destruct Hp as [st|st m|st Hr|st n Hr Hd Ho|st pb p n P1 P2 P3 P4|st m P1 P2 P3 P4|st pb pb' P1 P2 P3|st pb P1 P2|st|st k n Hn]; try done.
      + destruct (drain_spec st) as (E1 & E2 & E3 & E4 & E5 & E6 & E7 & E8 & E9). split; [done|]. right. split; [|split].
        * destruct (mp_pend (drain st) !! h) as [pb|] eqn:Ep; [|done]. apply E8 in Ep as [? _]. congruence.
        * rewrite E2, E9. destruct H2; auto.
        * by rewrite E1.
      + destruct (upd_res_spec st m) as (E1 & E2 & E3 & E4 & _). split; [done|]. right. unfold shut. rewrite E1, E2, E3, E4. done.
      + split; [done|]. right. split; [|done]. cbn. by rewrite lookup_insert_ne.
      + split; [done|]. right. split; [done|]. split; [done|]. rewrite queue_msg_spec. by rewrite bool_decide_eq_false_2.
      + split; [done|]. right. split; [|done]. cbn. by rewrite lookup_insert_ne.
      + apply forgotten; [done| |done]. cbn. by rewrite lookup_delete_ne.
      + split; [done|]. right. split; [done|]. split; [done|]. cbn. by rewrite lookup_delete_ne.
      + destruct (evict_older_spec st n) as (E1 & E2 & E3 & E4 & _). split; [done|]. right. unfold shut. rewrite E1, E2, E3, E4. done.
  Qed.
  Lemma coll_prims e h' hist st st' : h' ≠ h → rtc (prim c e false h') st st' → coll hist st → coll hist st'.
  Proof. intros Hne. induction 1 as [|x y z Hxy _ IH]; [done|]. intros H. apply IH. by eapply coll_prim. Qed.
  (** Reorg messages. *)
  Lemma coll_reset hist st : coll hist st → coll hist (reset c st).
  Proof.
    intros [Hb [Hop|Hsh]].
    - apply coll_cut. change (cut_out (reset c st)) with (reset c (cut_out st)). apply inv_coll, inv_reset; [exact Hwf|by apply open_inv].
    - destruct Hsh as (H1 & H2 & H3). apply forgotten; [|done|done]. eapply (prim_base c id_env true h); [|exact Hb]. by apply PReset.
  Qed.
  Lemma coll_announce hist st n h' : coll hist st → coll hist (announce_reorg st n h').
  Proof. intros [[B1 B2 B3 B4] H]. split; [by split|exact H]. Qed.
  Lemma coll_settle hist st m : coll hist st → coll hist (settle st m).
  Proof.
    intros [Hb [Hop|Hsh]].
    - assert (Hi := settle_inv mt b c False hist _ m (open_inv hist st Hb Hop)). apply inv_coll in Hi.
      assert (E : settle st m = pre_out (mp_out st) (settle (cut_out st) m)).
      { unfold settle. rewrite <- (pre_cut st) at 1. by rewrite pre_drain, pre_res. }
      rewrite E. by apply coll_pre.
    - split; [by apply settle_base|]. right. by apply settle_shut.
  Qed.
  Lemma process_out e st m st' err : base_inv c st → process c e st m = Ok (st', err) →
    ∃ o, mp_out st' = mp_out st ++ o ∧ ∀ pb, EBatch pb ∈ o → pb_hash pb = msg_hash m.
  Proof.
    intros Hb Hp. apply process_frame in Hp as ((o & Ho & Hf) & _); [|done]. exists o. split; [done|].
    intros pb Hpb. eapply Forall_forall in Hf; [|exact Hpb]. exact Hf.
  Qed.

  (** Whole blocks. *)
  Lemma coll_whole hist st pb : coll hist st → coll hist (process_complete st pb).
  Proof.
    intros [Hb Hph]. assert (Hb' := complete_base c st pb Hb). destruct (complete_fields st pb) as (o & pb' & _ & E & _ & _).
    destruct (decide (pb_hash pb = h)) as [Eh|Hne].
    - split; [done|]. right. rewrite E. split; [cbn; rewrite Eh; apply lookup_delete|]. split.
      + right. cbn. rewrite Eh. apply lru_add_self. apply (bi_cap _ _ Hb).
      + cbn. destruct Hph as [(D & HD & [(_ & _ & _ & _ & Hq)|[_ Hq]])|(_ & _ & Hq)].
        * intros q k m Hk Hm. destruct (Hq q k m Hk Hm). split; [by apply HD|done].
        * intros q k m Hk. congruence.
        * done.
    - destruct Hph as [(D & HD & Hph)|(H1 & H2 & H3)].
      + split; [done|]. left. exists D. split; [done|]. rewrite E. unfold Assembly3.queued, Assembly3.waiting in *. cbn [mp_pend mp_queue mp_old mp_done].
        rewrite lookup_delete_ne by done. destruct Hph as [(P1 & P2 & P3 & P4)|Hw]; [left|by right].
        split; [done|]. split; [done|]. split; [|done]. intros Hin. apply P3. eapply lru_add_other; [exact Hin|done].
      + apply forgotten; [done| |]; rewrite E; cbn; [by rewrite lookup_delete_ne|done].
  Qed.
  Lemma inv_whole hist st pb : pb_hash pb ≠ h → inv mt b c True hist st → inv mt b c True hist (process_complete st pb).
  Proof.
    intros Hne [(Hb & Ho & Hq) Hst]. assert (Hb' := complete_base c st pb Hb).
    destruct (complete_fields st pb) as (o & pb' & Hg & E & Hx & _).
    assert (Hcore' : core mt b c True hist (process_complete st pb)).
    { split; [done|]. rewrite E. split; [|done]. cbn. intros pb2 [?|Hin]%elem_of_app; [by apply Ho|]. apply Hx in Hin as ->.
      destruct Hg as (_ & _ & _ & Eh & _). congruence. }
    assert (Hem : has_emitted b (mp_out st) → has_emitted b (mp_out (process_complete st pb))).
    { intros (pb2 & ? & ?). exists pb2. split; [|done]. rewrite E. cbn. apply elem_of_app. by left. }
    assert (Hpn : mp_pend (process_complete st pb) !! h = mp_pend st !! h) by (rewrite E; cbn; by rewrite lookup_delete_ne).
    assert (Hqn : mp_queue (process_complete st pb) = mp_queue st) by (by rewrite E).
    destruct Hst as [(D & HD & HS & Hph)|[(Hd1 & Hd2 & Hd3) Hqn']].
    - split; [done|]. left. exists D. split; [done|]. split.
      { intros Hs. destruct (HS Hs) as [?|?]; [left; by apply Hem|by right]. }
      unfold Assembly3.queued, Assembly3.waiting in *. rewrite Hpn, Hqn. destruct Hph as [(P1 & P2 & P3 & P4)|Hw]; [left|by right].
      split; [done|]. rewrite E. cbn. split; [done|]. split; [|done]. intros Hin. apply P3. eapply lru_add_other; [exact Hin|done].
    - apply inv_forget; [done|by rewrite Hpn|by rewrite Hqn|]. intros Hs. by apply Hem, Hd3.
  Qed.
End mixed.
