(** Collection of one block by the message processor, among messages of any other blocks. *)
From Verif Require Import Base Lru LruFacts Types Avro AvroFacts Wire SpecWire WireFacts GoPath PathFacts Producer SpecBlock
  Consumer ConsumerBase ConsumerFacts Assembly Assembly2.

Section collect.
  Context (mt : bytes → option bytes) (b : block) (c : mp_config).
  Context (Hwf : wf_block mt b).
  (** [S]: no eviction request asks for blocks newer than this one. *)
  Context (S : Prop).
  Notation tr := (mc_tracked c).
  Notation h := (ba_hash (bk_args b)).
  Notation need := (needed mt b tr).
  Notation collecting := (collecting mt b tr).
  Notation stray := (stray b).
  Notation body_copy := (body_copy mt b).

  Definition good (m : msg) : Prop := copy_of mt b m ∨ stray m.
  Definition quiet (n : Z) : Prop := (n ≤ ba_num (bk_args b))%Z.
  Definition quiet_env (e : menv) : Prop := S → ∀ k n, n ∈ me_evict e k → quiet n.

  Lemma good_cases m : good m →
    (m_key m = key_of (KBatch h) ∧ ∃ x, is_header mt b x ∧ decode_batch (m_val m) = Some x) ∨
    (∃ id, m_key m = key_of (KSubHead h id) ∧ announced b id ∧ decode_int (m_val m) = Some (Z.of_nat (length (bk_parts b id)))) ∨
    (∃ kd, body_copy m kd) ∨ stray m.
  Proof.
    intros [(kd & Hk & Hs & Hz)|?]; [|by do 3 right].
    pose proof Hs as Hs0. remember (m_val m) as v eqn:Ev. destruct Hs as [x es H1 H2|k v p H1 H2|k v p H1 H2|id Ha|id i pt es H1 H2 H3].
    - left. split; [done|]. exists x. split; [done|]. apply batch_roundtrip; [by eapply header_ok|done|done].
    - right; right; left. eexists. split; [done|]. rewrite <- Ev. done.
    - right; right; left. eexists. split; [done|]. rewrite <- Ev. done.
    - right; left. exists id. split; [done|]. split; [done|]. apply int_exact. apply (wf_parts _ _ Hwf id Ha).
    - right; right; left. eexists. split; [done|]. rewrite <- Ev. done.
  Qed.
  Lemma good_hash m : good m → msg_hash m = h ∧ 33 ≤ length (m_key m) ∧ type_of m ≠ Some ReorgType.
  Proof.
    intros [(kd & Hk & Hs & Hz)|(H1 & H2 & t & H3 & H4)].
    - destruct (sent_ok mt b Hwf kd _ Hs) as [Hok Hh]. unfold msg_hash. rewrite Hk.
      split; [|split; [apply key_len|]].
      + by rewrite (proj1 (key_recovered _ Hok)).
      + unfold type_of. rewrite Hk, key_type. by destruct Hs.
    - split; [done|]. split; [done|]. unfold type_of. rewrite H3. intros [= ->]. apply H4. set_solver.
  Qed.
  Lemma good_later m : good m → m_key m ≠ key_of (KBatch h) → later h m.
  Proof.
    intros Hg Hne. destruct (good_hash m Hg) as (H1 & H2 & H3). split; [done|]. split; [done|]. split; [|done].
    unfold type_of. destruct Hg as [(kd & Hk & Hs & Hz)|(_ & _ & t & Ht & H4)].
    - rewrite Hk, key_type. destruct Hs; try done.
    - rewrite Ht. intros [= ->]. apply H4. set_solver.
  Qed.
  Lemma later_not_header m : later h m → m_key m ≠ key_of (KBatch h).
  Proof. intros (_ & _ & H & _) E. apply H. unfold type_of. by rewrite E. Qed.

  (** * What has been emitted for the block *)
  Definition emitted_ok (hist : list msg) (pb : pending_batch) : Prop :=
    exact mt b tr pb ∧ ∀ kd, need kd → ∃ m, m ∈ hist ∧ m_key m = key_of kd ∧ res_le pb m.
  Definition outs_ok (hist : list msg) (o : list mp_event) : Prop :=
    ∀ pb, EBatch pb ∈ o → pb_hash pb = h → emitted_ok hist pb.
  Definition has_emitted (o : list mp_event) : Prop := ∃ pb, EBatch pb ∈ o ∧ pb_hash pb = h.
  Lemma outs_ok_mono hist hist' o : hist ⊆ hist' → outs_ok hist o → outs_ok hist' o.
  Proof.
    intros Hs H pb Hp Hh. destruct (H pb Hp Hh) as [He Hn]. split; [done|]. intros kd Hk. destruct (Hn kd Hk) as (m & ? & ?).
    exists m. split; [by apply Hs|done].
  Qed.

  Definition core (hist : list msg) (st : mp) : Prop :=
    base_inv c st ∧ outs_ok hist (mp_out st) ∧ (S → ∀ n, n ∈ mp_evict st → quiet n).
  Definition live (D : list msg) (st : mp) : Prop := ∃ pb, mp_pend st !! h = Some pb ∧ collecting D pb.
  Definition waiting (D : list msg) (st : mp) : Prop :=
    ∃ pb, mp_pend st !! h = Some pb ∧ collecting D pb ∧ ready pb = false.
  Definition dead (st : mp) : Prop :=
    mp_pend st !! h = None ∧ (h ∈ mp_old st ∨ h ∈ lru_keys (mp_done st)) ∧ (S → has_emitted (mp_out st)).
  Definition queued (D : list msg) (st : mp) : Prop :=
    mp_pend st !! h = None ∧ h ∉ mp_old st ∧ h ∉ lru_keys (mp_done st) ∧
    (∀ m, m ∈ D → ∃ q, mp_queue st !! h = Some q ∧ is_Some (q !! m_key m)) ∧
    (∀ q k m, mp_queue st !! h = Some q → q !! k = Some m → m ∈ D ∧ good m).

  Lemma collecting_num D pb : collecting D pb → pb_num pb = ba_num (bk_args b).
  Proof. intros (A & HF & _). apply HF. Qed.

  Definition settle (st : mp) (m : msg) : mp := mp_update_res (drain st) m.
  Lemma settle_spec st m :
    let st' := settle st m in
    mp_queue st' = mp_queue st ∧ mp_done st' = mp_done st ∧ mp_out st' = mp_out st ∧ mp_evict st' = [] ∧
    (∀ h pb, mp_pend st' !! h = Some pb ↔ mp_pend st !! h = Some pb ∧ ¬ evicted (mp_evict st) pb) ∧
    (∀ h, h ∈ mp_old st' ↔ h ∈ mp_old st ∨ ∃ pb, mp_pend st !! h = Some pb ∧ evicted (mp_evict st) pb).
  Proof.
    cbn. unfold settle. destruct (upd_res_spec (drain st) m) as (-> & -> & -> & -> & -> & -> & _).
    destruct (drain_spec st) as (E1 & E2 & E3 & E4 & E5 & E6 & E7 & E8 & E9). done.
  Qed.
  Lemma settle_core hist st m : core hist st → core hist (settle st m).
  Proof.
    intros (Hb & Ho & Hq). destruct (settle_spec st m) as (E1 & E2 & E3 & E4 & _). split; [|split].
    - eapply (prims_base c id_env false h); [|exact Hb]. eapply rtc_l; [apply PDrain|]. apply rtc_once, PRes.
    - by rewrite E3.
    - rewrite E4. by intros _ n ?%elem_of_nil.
  Qed.
  Lemma settle_none st m : mp_pend st !! h = None → mp_pend (settle st m) !! h = None.
  Proof.
    intros H. destruct (settle_spec st m) as (_ & _ & _ & _ & E & _).
    destruct (mp_pend (settle st m) !! h) as [pb|] eqn:Ep; [|done]. apply E in Ep as [? _]. congruence.
  Qed.
  Lemma settle_some hist D st m pb : core hist st → mp_pend st !! h = Some pb → collecting D pb →
    mp_pend (settle st m) !! h = Some pb ∨ dead (settle st m).
  Proof.
    intros (Hb & _ & Hq) Hp Hc. destruct (settle_spec st m) as (E1 & E2 & E3 & E4 & E5 & E6).
    destruct (decide (evicted (mp_evict st) pb)) as [He|He].
    - right. split; [|split].
      + destruct (mp_pend (settle st m) !! h) as [pb'|] eqn:Ep; [|done]. apply E5 in Ep as [? Hne]. by simplify_eq.
      + left. apply E6. right. by exists pb.
      + intros HS. destruct He as (n & Hn & Hlt). specialize (Hq HS n Hn). unfold quiet in Hq.
        rewrite (collecting_num D pb Hc) in Hlt. lia.
    - left. by apply E5.
  Qed.
  Lemma settle_dead st m : dead st → dead (settle st m).
  Proof.
    intros (H1 & H2 & H3). destruct (settle_spec st m) as (E1 & E2 & E3 & E4 & E5 & E6). split; [by apply settle_none|].
    rewrite E2, E3, E6. split; [|done]. destruct H2; auto.
  Qed.
  Lemma settle_queued D st m : queued D st → queued D (settle st m).
  Proof.
    intros (H1 & H2 & H3 & H4 & H5). destruct (settle_spec st m) as (E1 & E2 & E3 & E4 & E5 & E6).
    split; [by apply settle_none|]. rewrite E2, E6, E1. split; [|done]. intros [?|(pb & ? & _)]; [done|congruence].
  Qed.

  Lemma finish_spec hist D st pb : core hist st → mp_pend st !! h = Some pb → collecting D pb → D ⊆ hist →
    let st' := finish st h in
    core hist st' ∧ mp_queue st' = mp_queue st ∧ (waiting D st' ∨ dead st').
  Proof.
    intros (Hb & Ho & Hq) Hp Hc HD st'.
    assert (Hb' : base_inv c st') by (eapply (prims_base c id_env false h); [apply finish_prims|done]).
    revert Hb'. unfold st', finish. rewrite Hp. destruct (ready pb) eqn:Er; intros Hb'.
    - destruct (collecting_ready mt b tr D pb Hc Er) as [Hex Hseen].
      split; [|split; [done|right]].
      + split; [done|]. split; [|done]. cbn. intros pb' [Hin|Hin]%elem_of_app Hh; [by apply Ho|].
        apply elem_of_list_singleton in Hin. injection Hin as ->. split; [done|]. intros kd Hk.
        destruct (Hseen kd Hk) as (m & ? & ? & ?). exists m. split; [by apply HD|done].
      + split; [cbn; by rewrite lookup_delete|]. split.
        * right. cbn. apply lru_add_self. apply (bi_cap _ _ Hb).
        * intros _. exists pb. cbn. split; [apply elem_of_app; right; by apply elem_of_list_singleton|]. apply Hex.
    - split; [done|]. split; [done|]. left. by exists pb.
  Qed.

  (** A message for a pending batch. *)
  Lemma tail_step rec e st m D pb :
    let st1 := settle st m in
    good m → later h m → menv_ok e → mp_pend st1 !! h = Some pb → collecting D pb →
    h ∉ mp_old st1 → h ∉ lru_keys (mp_done st1) →
    ∃ st' pb', process_with rec c e st m = Ok (st', false) ∧ collecting (D ++ [m]) pb' ∧
      (st' = finish (set_pend st1 (<[h := pb']> (mp_pend st1))) h ∨ (st' = st1 ∧ pb' = pb)).
  Proof.
    intros st1 Hg Hl [_ He] Hp Hc Ho Hd. destruct Hl as (Hh & Hlen & Ht0 & Ht5). unfold process_with.
    rewrite Hh. fold (settle st m). fold st1. clearbody st1. rewrite bool_decide_eq_false_2 by lia.
    unfold type_of in *. pose proof (good_cases m Hg) as Hcases.
    destruct (m_key m) as [|t kr] eqn:Ek; [cbn in Hlen; lia|]. cbn [head] in *.
    rewrite bool_decide_eq_false_2 by congruence.
    unfold lru_contains. rewrite bool_decide_eq_false_2 by done. rewrite bool_decide_eq_false_2 by done.
    rewrite bool_decide_eq_false_2 by congruence. rewrite Hp. rewrite <- Ek in *.
    destruct Hcases as [(E & _)|[(id & E & Han & Hdec)|Hrest]].
    - exfalso. apply Ht0. rewrite Ek in E. injection E as -> _. done.
    - rewrite bool_decide_eq_true_2 by (rewrite Ek in E; by injection E).
      assert (Hok : kind_ok (KSubHead h id)).
      { split; [apply (wf_hash _ _ Hwf)|]. apply (wf_parts _ _ Hwf id Han). }
      destruct (key_recovered _ Hok) as [_ Eid]. rewrite <- E in Eid. rewrite Eid.
      case_bool_decide as Hin.
      + exists st1, pb. split; [done|]. split; [|by right].
        apply collect_skip; [done|]. intros kd Hn Ekd. right. intros A HF. rewrite E in *.
        assert (kd = KSubHead h id) as -> by (symmetry; apply key_inj; [done|by eapply need_ok|done]).
        destruct (decide (key_of (KSubHead h id) ∈ A)) as [|HnA]; [done|]. exfalso. apply Hin.
        apply (pf_pbatches _ _ _ _ _ HF). split; [|done]. clear -Hn. inversion Hn; by subst.
      + rewrite Hdec. rewrite bool_decide_eq_false_2 by lia. rewrite Nat2Z.id.
        cbn [pb_set_batches pb_batches pb_pbatches].
        destruct (collect_head mt b tr Hwf D pb m id
          (me_sub e (m_key m) (keys (pb_pmsgs (pb_update_res (pb_set_batches pb (<[id := replicate (length (bk_parts b id)) false]> (pb_batches pb)) (pb_pbatches pb ∖ {[id]})) m))))
          Hc E Hin (He _ _)) as (pb3 & Hap & Hcol).
        unfold pb_set_batches in *. cbn [pb_num pb_weight pb_parent pb_hash pb_values pb_deletes pb_res pb_resdef pb_prefixes pb_batches pb_pbatches pb_pmsgs pb_wait pb_frp] in *.
        rewrite Hap. cbn [mbind outcome_bind]. eexists _, pb3. split; [reflexivity|]. split; [done|by left].
    - assert (Hap : ∃ pb' d, apply_msg pb m = Ok (pb', d) ∧ collecting (D ++ [m]) pb').
      { destruct Hrest as [[kd Hkd]|Hs]; [by eapply collect_body|]. destruct (collect_stray mt b tr Hwf D pb m Hc Hs). eauto. }
      rewrite bool_decide_eq_false_2.
      2: { intros ->. destruct Hrest as [[kd (E & Hb & _)]|(_ & _ & t' & Ht & Hn)].
           - rewrite Ek in E. destruct kd; by destruct Hb.
           - rewrite Ek in Ht. injection Ht as <-. apply Hn. set_solver. }
      destruct Hap as (pb' & d & -> & Hcol). cbn [mbind outcome_bind fst].
      eexists _, pb'. split; [reflexivity|]. split; [done|by left].
  Qed.

  (** ... and for a block that has been dealt with. *)
  Lemma dead_step rec e st m : good m → dead (settle st m) → process_with rec c e st m = Ok (settle st m, false).
  Proof.
    intros Hg (Hp & Hd & _). destruct (good_hash m Hg) as (Hh & Hlen & Ht5). unfold process_with. rewrite Hh. fold (settle st m).
    set (st1 := settle st m) in *. clearbody st1. rewrite bool_decide_eq_false_2 by lia. unfold type_of in *.
    destruct (m_key m) as [|t kr] eqn:Ek; [cbn in Hlen; lia|]. cbn [head] in *. rewrite bool_decide_eq_false_2 by congruence.
    unfold lru_contains. destruct (bool_decide (h ∈ lru_keys (mp_done st1))) eqn:E; [done|].
    apply bool_decide_eq_false in E. rewrite bool_decide_eq_true_2; [done|]. by destruct Hd.
  Qed.

  Lemma live_fresh hist st pb : core hist st → mp_pend st !! h = Some pb → h ∉ mp_old st ∧ h ∉ lru_keys (mp_done st).
  Proof. intros [Hb _] Hp. destruct (bi_pend _ _ Hb _ _ Hp) as (_ & ? & ?). done. Qed.

  Lemma set_pend_core hist st pb pb' : core hist st → mp_pend st !! h = Some pb → pb_num pb' = pb_num pb → pb_hash pb' = pb_hash pb →
    core hist (set_pend st (<[h := pb']> (mp_pend st))).
  Proof.
    intros (Hb & Ho & Hq) Hp H1 H2. split; [|done]. eapply (prim_base c id_env false h); [|exact Hb]. by eapply PUpd.
  Qed.

  (** One message of the block while it is pending or dead. *)
  Lemma inner_step rec e hist st m D :
    core hist st → (live D st ∨ dead st) → good m → later h m → menv_ok e → m ∈ hist → D ⊆ hist →
    ∃ st', process_with rec c e st m = Ok (st', false) ∧ core hist st' ∧ mp_queue st' = mp_queue st ∧
      (live (D ++ [m]) st' ∨ dead st').
  Proof.
    intros Hcore Hst Hg Hl He Hm HD.
    pose proof (settle_core hist st m Hcore) as Hcore1. destruct (settle_spec st m) as (Eq & _).
    assert (Hst1 : live D (settle st m) ∨ dead (settle st m)).
    { destruct Hst as [(pb & Hp & Hc)|Hd]; [|right; by apply settle_dead].
      destruct (settle_some hist D st m pb Hcore Hp Hc); [|by right]. left. by exists pb. }
    destruct Hst1 as [(pb & Hp & Hc)|Hd].
    - destruct (live_fresh _ _ _ Hcore1 Hp) as [Hno Hnd].
      destruct (tail_step rec e st m D pb Hg Hl He Hp Hc Hno Hnd) as (st' & pb' & Hpr & Hcol & Hcase).
      exists st'. split; [done|]. destruct Hcase as [->|[-> ->]].
      + destruct (finish_spec hist (D ++ [m]) (set_pend (settle st m) (<[h:=pb']> (mp_pend (settle st m)))) pb') as (H1 & H2 & H3).
        * eapply set_pend_core; [done|exact Hp|..].
          -- rewrite (collecting_num _ _ Hcol), (collecting_num _ _ Hc). done.
          -- destruct Hcol as (? & HF & _). destruct Hc as (? & HF' & _). rewrite (pf_hash _ _ _ _ _ HF), (pf_hash _ _ _ _ _ HF'). done.
        * cbn. by rewrite lookup_insert.
        * done.
        * intros x [?| ->%elem_of_list_singleton]%elem_of_app; [by apply HD|done].
        * split; [done|]. split; [rewrite H2; done|]. destruct H3 as [(pb2 & ? & ? & ?)|?]; [left; by exists pb2|by right].
      + split; [done|]. split; [done|]. left. by exists pb.
    - exists (settle st m). split; [by apply dead_step|]. split; [done|]. split; [done|by right].
  Qed.

  Lemma push_core hist st ns : core hist st → (S → ∀ n, n ∈ ns → quiet n) → 
    let st' := foldl evict_older_than st ns in
    core hist st' ∧ mp_pend st' = mp_pend st ∧ mp_queue st' = mp_queue st ∧ mp_old st' = mp_old st ∧ mp_done st' = mp_done st ∧
    mp_out st' = mp_out st.
  Proof.
    revert st; induction ns as [|n ns IH]; intros st Hc Hq; cbn [foldl]; [done|].
    destruct (evict_older_spec st n) as (E1 & E2 & E3 & E4 & E5 & _).
    assert (Hc' : core hist (evict_older_than st n)).
    { destruct Hc as (Hb & Ho & He). split; [|split].
      - eapply (prim_base c (ME id (λ _, id) (λ _, [n])) false zero_hash); [|exact Hb]. apply (PPush _ _ _ _ _ []). apply elem_of_list_here.
      - by rewrite E5.
      - intros HS n'. unfold evict_older_than. case_bool_decide; [|by apply He]. cbn.
        intros [?| ->%elem_of_list_singleton]%elem_of_app; [by apply He|]. apply (Hq HS), elem_of_list_here. }
    destruct (IH _ Hc') as (H1 & H2 & H3 & H4 & H5 & H6).
    { intros HS n' Hn. apply (Hq HS). by apply elem_of_list_further. }
    split; [done|]. by rewrite H2, H3, H4, H5, H6.
  Qed.

  Lemma replay_ok rec e hist q ks st D :
    core hist st → (live D st ∨ dead st) → menv_ok e → quiet_env e → D ⊆ hist →
    (∀ k m, q !! k = Some m → good m ∧ later h m ∧ m ∈ hist) →
    ∃ st' D', replay (process_with rec c e) e q ks st = Ok (st', false) ∧ core hist st' ∧ mp_queue st' = mp_queue st ∧
      (live D' st' ∨ dead st') ∧ D ⊆ D' ∧ D' ⊆ hist ∧ (∀ k m, k ∈ ks → q !! k = Some m → m ∈ D').
  Proof.
    intros Hcore Hst He Hqe HD Hq. unfold replay. revert st D Hcore Hst HD.
    induction ks as [|k ks IH]; intros st D Hcore Hst HD; cbn [foldM].
    - exists st, D. split; [done|]. split; [done|]. split; [done|]. split; [done|]. split; [done|]. split; [done|]. by intros ? ? ?%elem_of_nil.
    - destruct (q !! k) as [m|] eqn:Ek.
      + destruct (Hq k m Ek) as (Hg & Hl & Hm).
        destruct (push_core hist st (me_evict e k) Hcore) as (Hcore1 & E1 & E2 & E3 & E4 & E5).
        { intros HS n Hn. by eapply Hqe. }
        assert (Hst1 : live D (foldl evict_older_than st (me_evict e k)) ∨ dead (foldl evict_older_than st (me_evict e k))).
        { unfold live, dead. rewrite E1, E3, E4, E5. done. }
        destruct (inner_step rec e hist _ m D Hcore1 Hst1 Hg Hl He Hm HD) as (st' & -> & Hcore' & Eq' & Hst').
        cbn [mbind outcome_bind]. destruct (IH st' (D ++ [m])) as (st'' & D' & H1 & H2 & H3 & H4 & H5 & H6 & H7); [done|done| |].
        { intros x [?| ->%elem_of_list_singleton]%elem_of_app; [by apply HD|done]. }
        exists st'', D'. split; [done|]. split; [done|]. split; [congruence|]. split; [done|].
        split; [intros x Hx; apply H5, elem_of_app; by left|]. split; [done|].
        intros k' m' [->|Hk']%elem_of_cons Hm'; [|by eapply H7]. simplify_eq. apply H5, elem_of_app. right. by apply elem_of_list_singleton.
      + cbn [mbind outcome_bind]. destruct (IH st D) as (st'' & D' & H1 & H2 & H3 & H4 & H5 & H6 & H7); [done|done|done|].
        exists st'', D'. split; [done|]. split; [done|]. split; [done|]. split; [done|]. split; [done|]. split; [done|]. intros k' m' [->|Hk']%elem_of_cons Hm'; [congruence|by eapply H7].
  Qed.

  (** * The invariant *)
  Definition same_keys (hist D : list msg) : Prop := ∀ m, m ∈ hist → ∃ m', m' ∈ D ∧ m_key m' = m_key m.
  Definition inv (hist : list msg) (st : mp) : Prop :=
    core hist st ∧
    ((∃ D, D ⊆ hist ∧ (S → has_emitted (mp_out st) ∨ same_keys hist D) ∧
       (queued D st ∨ (waiting D st ∧ mp_queue st !! h = None))) ∨
     (dead st ∧ mp_queue st !! h = None)).

  Lemma snoc_sub (D hist : list msg) m : D ⊆ hist → D ++ [m] ⊆ hist ++ [m].
  Proof. intros H x [?|?]%elem_of_app; apply elem_of_app; [left; by apply H|by right]. Qed.
  Lemma sub_snoc (hist : list msg) m : hist ⊆ hist ++ [m].
  Proof. intros x ?. apply elem_of_app. by left. Qed.
  Lemma in_snoc (hist : list msg) m : m ∈ hist ++ [m].
  Proof. apply elem_of_app. right. by apply elem_of_list_singleton. Qed.
  Lemma core_mono hist hist' st : hist ⊆ hist' → core hist st → core hist' st.
  Proof. intros Hs (H1 & H2 & H3). split; [done|]. split; [|done]. by eapply outs_ok_mono. Qed.
  Lemma same_keys_snoc hist D m : same_keys hist D → same_keys (hist ++ [m]) (D ++ [m]).
  Proof.
    intros H x [Hx| ->%elem_of_list_singleton]%elem_of_app.
    - destruct (H x Hx) as (m' & ? & ?). exists m'. split; [apply elem_of_app; by left|done].
    - exists m. split; [apply in_snoc|done].
  Qed.

  Lemma settle_inv hist st m : inv hist st → inv hist (settle st m).
  Proof.
    intros [Hcore Hst]. destruct (settle_spec st m) as (E1 & E2 & E3 & E4 & E5 & E6). split; [by apply settle_core|].
    rewrite E1, E3. destruct Hst as [(D & HD & HS & [Hq|[(pb & Hp & Hc & Hr) Hqn]])|[Hd Hqn]].
    - left. exists D. split; [done|]. split; [done|]. left. by apply settle_queued.
    - destruct (settle_some hist D st m pb Hcore Hp Hc) as [Hp'|Hd]; [left|by right].
      exists D. split; [done|]. split; [done|]. right. split; [by exists pb|done].
    - right. split; [by apply settle_dead|done].
  Qed.

  Lemma inv_finish hist D st pb :
    core hist st → mp_pend st !! h = Some pb → collecting D pb → D ⊆ hist →
    (S → has_emitted (mp_out (finish st h)) ∨ same_keys hist D) → mp_queue st !! h = None → inv hist (finish st h).
  Proof.
    intros Hcore Hp Hc HD HS Hq. destruct (finish_spec hist D st pb Hcore Hp Hc HD) as (H1 & H2 & H3). split; [done|].
    rewrite H2. destruct H3 as [Hw|Hd]; [left|by right]. exists D. split; [done|]. split; [done|]. by right.
  Qed.
  Lemma finish_emitted st : has_emitted (mp_out st) → has_emitted (mp_out (finish st h)).
  Proof.
    intros (pb & Hin & Hh). unfold finish. destruct (mp_pend st !! h) as [pb'|]; [|by exists pb]. destruct (ready pb'); [|by exists pb].
    exists pb. cbn. split; [apply elem_of_app; by left|done].
  Qed.
  Lemma prim_emitted e r h' st st' : prim c e r h' st st' → has_emitted (mp_out st) → has_emitted (mp_out st').
  Proof.
    intros Hp (pb & Hin & Hh). exists pb. split; [|done].
    destruct Hp; cbn; try (apply elem_of_app; by left); try done.
    - by destruct (drain_spec st) as (_ & _ & -> & _).
    - by destruct (upd_res_spec st m) as (_ & _ & _ & _ & -> & _).
    - by destruct (evict_older_spec st n) as (_ & _ & _ & _ & -> & _).
  Qed.
  Lemma prims_emitted e r h' st st' : rtc (prim c e r h') st st' → has_emitted (mp_out st) → has_emitted (mp_out st').
  Proof. induction 1 as [|x y z Hxy _ IH]; [done|]. intros H. apply IH. by eapply prim_emitted. Qed.

  Lemma collect_header st x m : is_header mt b x → m_key m = key_of (KBatch h) → collecting [m] (header_batch c st h x m).
  Proof.
    intros Hx Hk. exists ∅. assert (Hs : seen [m] (header_batch c st h x m) (key_of (KBatch h))).
    { exists m. split; [by apply elem_of_list_singleton|]. split; [done|]. apply upd_res_le. }
    split; [by apply fun_header|]. split; [by intros k ?%not_elem_of_empty|]. split; [|split; [|split]].
    - intros k m'. unfold header_batch. match goal with |- pb_pmsgs (pb_update_res ?p _) !! _ = _ → _ => destruct (upd_res_fields p m) as (_ & _ & _ & _ & _ & ->) end.
      cbn [pb_pmsgs]. by rewrite lookup_empty.
    - intros m' ->%elem_of_list_singleton kd Hn E. left. symmetry. apply key_inj; [|by eapply need_ok|congruence].
      split; [apply (wf_hash _ _ Hwf)|done].
    - by intros k ?%not_elem_of_empty.
    - done.
  Qed.

  (** Messages of the block. *)
  Lemma inv_good e hist st m : inv hist st → good m → menv_ok e → quiet_env e →
    ∃ st', process c e st m = Ok (st', false) ∧ inv (hist ++ [m]) st'.
  Proof.
    intros Hinv Hg He Hqe. pose proof (settle_inv hist st m Hinv) as [Hcore1 Hst1].
    pose proof (core_mono _ (hist ++ [m]) _ (sub_snoc hist m) Hcore1) as Hcore2.
    destruct (settle_spec st m) as (Eq & _). unfold process.
    destruct Hst1 as [(D & HD & HS & Hph)|[Hd Hqn]].
    2: { exists (settle st m). split; [by apply dead_step|]. split; [done|]. by right. }
    destruct (decide (m_key m = key_of (KBatch h))) as [Ek|Ek].
    - (* the header *)
      destruct (good_cases m Hg) as [(_ & x & Hx & Hdec)|[(id & E & _)|[(kd & E & Hb & _)|Hs]]].
      2: (rewrite Ek in E; discriminate E).
      2: { rewrite Ek in E. destruct kd; by destruct Hb. }
      2: { exfalso. eapply stray_not_needed; [exact Hwf|exact Hs|apply (NHeader mt b tr)|done]. }
      destruct (good_hash m Hg) as (Hh & Hlen & Ht5).
      assert (Hfresh : h ∉ mp_old (settle st m) ∧ h ∉ lru_keys (mp_done (settle st m))).
      { destruct Hph as [(? & ? & ? & _)|[(pb & Hp & _) _]]; [done|]. by eapply live_fresh. }
      destruct Hfresh as [Hno Hnd].
      unfold process_with at 1. rewrite Hh. fold (settle st m). set (st1 := settle st m) in *.
      rewrite bool_decide_eq_false_2 by lia. unfold type_of in *.
      destruct (m_key m) as [|t kr] eqn:Ekm; [cbn in Hlen; lia|]. cbn [head] in *. rewrite bool_decide_eq_false_2 by congruence.
      unfold lru_contains. rewrite bool_decide_eq_false_2 by done. rewrite bool_decide_eq_false_2 by done.
      rewrite bool_decide_eq_true_2 by (by injection Ek). rewrite <- Ekm in *. rewrite Hdec. clear t kr Ekm Ht5.
      destruct Hph as [(Hp & _ & _ & Hq1 & Hq2)|[(pb & Hp & Hc & Hr) Hqn]]; rewrite Hp.
      + set (pb := header_batch c st1 h x m). pose proof (collect_header st1 x m Hx Ek) as Hcol. fold pb in Hcol.
        set (st2 := MP _ _ _ _ _ _ _ _ _).
        assert (Hst2 : st2 = open_batch st1 h pb (b_parent x) (b_num x)) by done.
        assert (Hcore3 : core (hist ++ [m]) st2).
        { destruct Hcore2 as (Hb & Ho & Hq). split; [|split].
          - eapply (prim_base c id_env false h); [|exact Hb]. rewrite Hst2. apply POpen; done.
          - intros pb' Hin Hh'. unfold st2 in Hin. cbn in Hin. apply elem_of_app in Hin as [?|Hin]; [by apply Ho|].
            apply elem_of_list_singleton in Hin. done.
          - done. }
        assert (Hp2 : mp_pend st2 !! h = Some pb) by (unfold st2; cbn; by rewrite lookup_insert).
        assert (Hem : has_emitted (mp_out st1) → has_emitted (mp_out st2)).
        { intros (pb' & ? & ?). exists pb'. split; [|done]. unfold st2. cbn. apply elem_of_app. by left. }
        assert (Hqs : mp_queue st2 = mp_queue st1) by done.
        assert (H1m : [m] ⊆ hist ++ [m]) by (intros y ->%elem_of_list_singleton; apply in_snoc).
        rewrite Hqs. destruct (mp_queue st1 !! h) as [q|] eqn:Eqq.
        * destruct (replay_ok (λ _ _, Hang) e (hist ++ [m]) q (me_queue e (keys q)) st2 [m]) as (st3 & D3 & Hrep & Hcore4 & Eq3 & Hst3 & Hs1 & Hs2 & Hs3); [done| |done|done|done| |].
          { left. by exists pb. }
          { intros k m' Hk. destruct (Hq2 q k m' eq_refl Hk) as [Hin Hg']. split; [done|].
            destruct Hcore1 as [Hb1 _]. destruct (bi_queue _ _ Hb1 h q k m' Eqq Hk) as [_ Hl]. split; [done|].
            apply elem_of_app. left. by apply HD. }
          rewrite Hrep. cbn [mbind outcome_bind]. eexists. split; [reflexivity|].
          set (st4 := set_queue st3 (delete h (mp_queue st3))).
          assert (Hcore5 : core (hist ++ [m]) st4).
          { destruct Hcore4 as (Hb & Ho & Hq). split; [|done]. eapply (prim_base c id_env false h); [|exact Hb]. apply PUnqueue. }
          assert (Hq4 : mp_queue st4 !! h = None) by (unfold st4; cbn; by rewrite lookup_delete).
          destruct Hst3 as [(pb3 & Hp3 & Hc3)|Hd3].
          -- eapply (inv_finish _ D3); [done|exact Hp3|done|done| |done].
             intros Hs. destruct (HS Hs) as [Hemi|Hsk].
             ++ left. apply finish_emitted. change (mp_out st4) with (mp_out st3).
                assert (Hr : rtc (prim c e false h) st2 st3).
                { clear -Hrep Hq2 Eqq Hcore1. destruct Hcore1 as [Hb1 _].
                  assert (Hql : ∀ k m', q !! k = Some m' → later h m').
                  { intros k m' Hk. by destruct (bi_queue _ _ Hb1 h q k m' Eqq Hk). }
                  revert Hrep. unfold replay. generalize (me_queue e (keys q)). intros ks.
                  assert (G : ∀ ks s1 s2, foldM (λ s k, match s : mp * bool with
                      | (st, true) => Ok (st, true)
                      | (st, false) => match q !! k with None => Ok (st, false)
                          | Some m => process_with (λ _ _, Hang) c e (foldl evict_older_than st (me_evict e k)) m end end) ks s1 = Ok s2 →
                      rtc (prim c e false h) s1.1 s2.1).
                  { clear -Hql. induction ks as [|k ks IH]; intros s1 s2; cbn [foldM]; [intros [= <-]; apply rtc_refl|].
                    destruct s1 as [s1 [|]]; cbn [mbind outcome_bind]; [apply IH|].
                    destruct (q !! k) as [m|] eqn:Ek; [|apply IH].
                    destruct (process_with _ c e _ m) as [[s3 er]| |] eqn:Ep; cbn [mbind outcome_bind]; try discriminate.
                    intros Hf. apply IH in Hf. cbn in *. etrans; [|exact Hf]. 
                    etrans; [by apply (push_prims c e false h k)|]. by eapply process_later_prims; [eapply Hql|]. }
                  intros Hf. by apply G in Hf. }
                eapply prims_emitted; [exact Hr|]. by apply Hem.
             ++ right. intros y [Hy| ->%elem_of_list_singleton]%elem_of_app.
                ** destruct (Hsk y Hy) as (y' & Hy' & E'). destruct (Hq1 y' Hy') as (q' & Hq' & [m'' Hm'']). simplify_eq.
                   exists m''. split; [|destruct Hcore1 as [Hb1 _]; destruct (bi_queue _ _ Hb1 h q' _ m'' Eqq Hm'') as [E'' _]; congruence].
                   eapply Hs3; [|exact Hm'']. rewrite (proj1 He _). unfold keys. apply elem_of_list_fmap. exists (m_key y', m'').
                   split; [done|]. by apply elem_of_map_to_list.
                ** exists m. split; [apply Hs1; by apply elem_of_list_singleton|done].
          -- split.
             ++ destruct Hd3 as (Hd3 & _). unfold finish, st4. cbn [set_queue mp_pend]. rewrite Hd3. done.
             ++ right. destruct Hd3 as (Hd3 & Hd4 & Hd5). unfold finish, st4. cbn [set_queue mp_pend]. rewrite Hd3. split; [|done].
                done.
        * eexists. split; [reflexivity|]. eapply (inv_finish _ [m]); [done|exact Hp2|done|done| |done].
          intros Hs. destruct (HS Hs) as [Hemi|Hsk]; [left; by apply finish_emitted, Hem|right].
          intros y [Hy| ->%elem_of_list_singleton]%elem_of_app.
          -- destruct (Hsk y Hy) as (y' & Hy' & _). by destruct (Hq1 y' Hy') as (? & ? & _).
          -- exists m. split; [by apply elem_of_list_singleton|done].
      + exists st1. split; [done|]. split; [done|]. left. exists (D ++ [m]). split; [by apply snoc_sub|]. split.
        * intros Hs. destruct (HS Hs) as [?|?]; [by left|right; by apply same_keys_snoc].
        * right. split; [|done]. exists pb. split; [done|]. split; [|done]. apply collect_skip; [done|].
          intros kd Hn E. left. symmetry. apply key_inj; [|by eapply need_ok|congruence].
          split; [apply (wf_hash _ _ Hwf)|done].
    - (* other messages *)
      pose proof (good_later m Hg Ek) as Hl.
      destruct Hph as [Hq|[(pb & Hp & Hc & Hr) Hqn]].
      + destruct Hq as (Hp & Hno & Hnd & Hq1 & Hq2).
        assert (Hpr : process_with (process_with (λ _ _, Hang) c e) c e st m = Ok (queue_msg (settle st m) h m, false)).
        { destruct Hl as (Hh & Hlen & Ht0 & Ht5). unfold process_with at 1. rewrite Hh. fold (settle st m). set (st1 := settle st m) in *.
          rewrite bool_decide_eq_false_2 by lia. unfold type_of in *.
          destruct (m_key m) as [|t kr] eqn:Ekm; [cbn in Hlen; lia|]. cbn [head] in *. rewrite bool_decide_eq_false_2 by congruence.
          unfold lru_contains. rewrite bool_decide_eq_false_2 by done. rewrite bool_decide_eq_false_2 by done.
          rewrite bool_decide_eq_false_2 by congruence. rewrite Hp. by case_bool_decide. }
        eexists. split; [exact Hpr|]. set (st1 := settle st m) in *.
        split.
        * destruct Hcore2 as (Hb & Ho & Hqu). split; [|done]. eapply (prim_base c id_env false h); [|exact Hb]. by apply PQueue.
        * left. exists (D ++ [m]). split; [by apply snoc_sub|]. split.
          { intros Hs. destruct (HS Hs) as [?|?]; [by left|right; by apply same_keys_snoc]. }
          left. split; [done|]. split; [done|]. split; [done|].
          assert (Eqm : mp_queue (queue_msg st1 h m) !! h = Some (<[m_key m := m]> (default ∅ (mp_queue st1 !! h)))).
          { rewrite queue_msg_spec. by rewrite bool_decide_eq_true_2. }
          split.
          -- intros y Hy. eexists. split; [exact Eqm|]. destruct (decide (m_key m = m_key y)) as [->|Hne]; [rewrite lookup_insert; by eexists|].
             rewrite lookup_insert_ne by done. apply elem_of_app in Hy as [Hy| ->%elem_of_list_singleton]; [|done].
             destruct (Hq1 y Hy) as (q & -> & ?). done.
          -- intros q k y. rewrite Eqm. intros [= <-]. intros [[<- <-]|[Hne Hy]]%lookup_insert_Some.
             ++ split; [apply in_snoc|done].
             ++ destruct (mp_queue st1 !! h) as [q|] eqn:Eqq; cbn in Hy; [|by rewrite lookup_empty in Hy].
                destruct (Hq2 q k y eq_refl Hy) as [? ?]. split; [apply elem_of_app; by left|done].
      + destruct (live_fresh _ _ _ Hcore1 Hp) as [Hno Hnd].
        destruct (tail_step (process_with (λ _ _, Hang) c e) e st m D pb Hg Hl He Hp Hc Hno Hnd) as (st' & pb' & Hpr & Hcol & Hcase).
        exists st'. split; [done|]. set (st1 := settle st m) in *. destruct Hcase as [->|[-> ->]].
        * eapply (inv_finish _ (D ++ [m]) _ pb').
          -- eapply set_pend_core; [done|exact Hp|..].
             ++ rewrite (collecting_num _ _ Hcol), (collecting_num _ _ Hc). done.
             ++ destruct Hcol as (? & HF & _). destruct Hc as (? & HF' & _). rewrite (pf_hash _ _ _ _ _ HF), (pf_hash _ _ _ _ _ HF'). done.
          -- cbn. by rewrite lookup_insert.
          -- done.
          -- by apply snoc_sub.
          -- intros Hs. destruct (HS Hs) as [?|?]; [left; by apply finish_emitted|right; by apply same_keys_snoc].
          -- done.
        * split; [done|]. left. exists (D ++ [m]). split; [by apply snoc_sub|]. split.
          { intros Hs. destruct (HS Hs) as [?|?]; [by left|right; by apply same_keys_snoc]. }
          right. split; [by exists pb|done].
  Qed.

  (** Messages of other blocks. *)
  Lemma inv_forget hist st : core hist st → mp_pend st !! h = None → mp_queue st !! h = None →
    (S → has_emitted (mp_out st)) → inv hist st.
  Proof.
    intros Hcore Hp Hq HS. split; [done|].
    destruct (decide (h ∈ mp_old st ∨ h ∈ lru_keys (mp_done st))) as [Hd|Hd]; [by right|left].
    exists []. split; [by intros ? ?%elem_of_nil|]. split; [intros Hs; left; by apply HS|]. left. split; [done|].
    split; [tauto|]. split; [tauto|]. split; [by intros ? ?%elem_of_nil|]. intros q k m. by rewrite Hq.
  Qed.
  Lemma inv_prim e h' hist st st' : h' ≠ h → quiet_env e → prim c e false h' st st' → inv hist st → inv hist st'.
  Proof.
    intros Hne Hqe Hp Hinv. pose proof Hinv as [Hcore Hst].
    assert (Hb' : base_inv c st') by (eapply prim_base; [exact Hp|apply Hcore]).
    destruct Hp as [st|st m|st Hr|st n Hr Hd Ho|st pb p n H1 H2 H3 H4|st m H1 H2 H3 H4|st pb pb' H1 H2 H3|st pb H1 H2|st|st k n Hn].
    - (* drain *)
      pose proof (settle_inv hist st (Msg [] [] [] 0) Hinv) as Hs. unfold settle in Hs.
      destruct (upd_res_spec (drain st) (Msg [] [] [] 0)) as (E1 & E2 & E3 & E4 & E5 & E6 & _).
      destruct Hs as [(_ & Ho & Hq) Hs]. unfold inv, core, queued, waiting, dead in *. rewrite E1, E2, E3, E4, E5 in Hs. rewrite E5 in Ho. rewrite E6 in Hq.
      done.
    - destruct (upd_res_spec st m) as (E1 & E2 & E3 & E4 & E5 & E6 & _).
      destruct Hcore as (_ & Ho & Hq). unfold inv, core, queued, waiting, dead in *. rewrite E1, E2, E3, E4, E5, E6. done.
    - done.
    - done.
    - (* open *)
      destruct Hcore as (_ & Ho & Hq). split.
      + split; [done|]. split; [|done]. cbn. intros pb' [?|Hin]%elem_of_app; [by apply Ho|]. apply elem_of_list_singleton in Hin. done.
      + assert (Hem : has_emitted (mp_out st) → has_emitted (mp_out (open_batch st h' pb p n))).
        { intros (pb' & ? & ?). exists pb'. split; [|done]. cbn. apply elem_of_app. by left. }
        unfold queued, waiting, dead in *. cbn [open_batch mp_pend mp_queue mp_old mp_done] in *. rewrite lookup_insert_ne by done.
        destruct Hst as [(D & HD & HS & Hph)|[(Hd1 & Hd2 & Hd3) Hqn]]; [left|right].
        * exists D. split; [done|]. split; [|done]. intros Hs. destruct (HS Hs) as [?|?]; [left; by apply Hem|by right].
        * split; [|done]. split; [done|]. split; [done|]. intros Hs. by apply Hem, Hd3.
    - (* queue *)
      destruct Hcore as (_ & Ho & Hq). split; [done|]. 
      unfold queued, waiting, dead in *. rewrite queue_msg_spec. rewrite bool_decide_eq_false_2 by done. done.
    - (* update *)
      destruct Hcore as (_ & Ho & Hq). split; [done|]. 
      unfold queued, waiting, dead in *. cbn [set_pend mp_pend mp_queue mp_old mp_done mp_out]. rewrite lookup_insert_ne by done. done.
    - (* emit *)
      destruct Hcore as (Hb & Ho & Hq). destruct (bi_pend _ _ Hb _ _ H1) as (Hh & _).
      assert (Hcore' : core hist (emit st h' pb)).
      { split; [done|]. split; [|done]. cbn. intros pb' [?|Hin]%elem_of_app; [by apply Ho|]. apply elem_of_list_singleton in Hin. injection Hin as ->. congruence. }
      assert (Hem : has_emitted (mp_out st) → has_emitted (mp_out (emit st h' pb))).
      { intros (pb' & ? & ?). exists pb'. split; [|done]. cbn. apply elem_of_app. by left. }
      assert (Hpn : mp_pend (emit st h' pb) !! h = mp_pend st !! h) by (cbn; by rewrite lookup_delete_ne).
      destruct Hst as [(D & HD & HS & Hph)|[(Hd1 & Hd2 & Hd3) Hqn]].
      + split; [done|]. left. exists D. split; [done|]. split.
        { intros Hs. destruct (HS Hs) as [?|?]; [left; by apply Hem|by right]. }
        unfold queued, waiting in *. rewrite Hpn. destruct Hph as [(P1 & P2 & P3 & P4)|Hw]; [left|by right].
        split; [done|]. split; [done|]. split; [|done]. cbn. intros Hin. apply P3. by eapply lru_add_other.
      + apply inv_forget; [done|by rewrite Hpn|done|]. intros Hs. by apply Hem, Hd3.
    - (* unqueue *)
      destruct Hcore as (_ & Ho & Hq). split; [done|]. 
      unfold queued, waiting, dead in *. cbn [set_queue mp_pend mp_queue mp_old mp_done mp_out]. rewrite lookup_delete_ne by done. done.
    - (* push *)
      destruct (push_core hist st [n] Hcore) as (Hcore1 & E1 & E2 & E3 & E4 & E5).
      { intros Hs n' ->%elem_of_list_singleton. by eapply Hqe. }
      cbn [foldl] in *. split; [done|]. unfold queued, waiting, dead in *. rewrite E1, E2, E3, E4, E5. done.
  Qed.
  Lemma inv_prims e h' hist st st' : h' ≠ h → quiet_env e → rtc (prim c e false h') st st' → inv hist st → inv hist st'.
  Proof. intros Hne Hqe. induction 1 as [|x y z Hxy _ IH]; [done|]. intros H. apply IH. by eapply inv_prim. Qed.
  Lemma inv_other e hist st m st' err : msg_hash m ≠ h → is_reorg m = false → quiet_env e →
    process c e st m = Ok (st', err) → inv hist st → inv hist st'.
  Proof.
    intros Hne Hr Hqe Hp Hinv. apply process_prims in Hp; [|apply Hinv]. rewrite Hr in Hp. by eapply inv_prims.
  Qed.

  (** Reorg messages, for any hash. *)
  Lemma process_reorg e st m st' err : is_reorg m = true → process c e st m = Ok (st', err) →
    st' = reset c (settle st m) ∨ ∃ n, st' = announce_reorg (reset c (settle st m)) n (msg_hash m).
  Proof.
    unfold is_reorg. intros Ht%bool_decide_eq_true. unfold process, process_with at 1. fold (settle st m).
    case_bool_decide; [discriminate|]. destruct (m_key m) as [|t kr]; [done|]. injection Ht as ->.
    rewrite bool_decide_eq_true_2 by done. fold (reset c (settle st m)).
    destruct (decode_int (m_val m)) as [n|]; intros [= <- <-]; [right; by exists n|by left].
  Qed.
  Lemma inv_reset hist st : inv hist st → inv hist (reset c st).
  Proof.
    intros [Hcore Hst].
    assert (Hcore' : core hist (reset c st)).
    { destruct Hcore as (Hb & Ho & Hq). split; [|done]. eapply (prim_base c id_env true h); [|exact Hb]. by apply PReset. }
    destruct Hst as [(D & HD & HS & Hph)|[(Hd1 & Hd2 & Hd3) Hqn]].
    - split; [done|]. left. exists D. split; [done|]. split; [done|]. destruct Hph as [(P1 & P2 & P3 & P4 & P5)|Hw]; [left|by right].
      split; [done|]. split; [cbn; set_solver|]. split; [cbn; by intros ?%elem_of_nil|]. done.
    - by apply inv_forget.
  Qed.
  Lemma inv_announce hist st n h' : inv hist st → inv hist (announce_reorg st n h').
  Proof.
    intros [(Hb & Ho & Hq) Hst].
    assert (Hem : has_emitted (mp_out st) → has_emitted (mp_out (announce_reorg st n h'))).
    { intros (pb' & ? & ?). exists pb'. split; [|done]. cbn. apply elem_of_app. by left. }
    split.
    - split; [|split; [|done]].
      + destruct Hb as [B1 B2 B3 B4]. split; done.
      + cbn. intros pb' [?|Hin]%elem_of_app; [by apply Ho|]. apply elem_of_list_singleton in Hin. done.
    - unfold queued, waiting, dead in *. cbn [announce_reorg mp_pend mp_queue mp_old mp_done] in *.
      destruct Hst as [(D & HD & HS & Hph)|[(Hd1 & Hd2 & Hd3) Hqn]]; [left|right].
      + exists D. split; [done|]. split; [|done]. intros Hs. destruct (HS Hs) as [?|?]; [left; by apply Hem|by right].
      + split; [|done]. split; [done|]. split; [done|]. intros Hs. by apply Hem, Hd3.
  Qed.
  Lemma inv_reorg e hist st m st' err : is_reorg m = true → process c e st m = Ok (st', err) → inv hist st → inv hist st'.
  Proof.
    intros Hr Hp Hinv. destruct (process_reorg e st m st' err Hr Hp) as [->|[n ->]]; [|apply inv_announce]; by apply inv_reset, settle_inv.
  Qed.

  (** * Runs *)
  (** The inputs that belong to the block are copies of its messages or strays. *)
  Definition input_good (i : mp_input) : Prop :=
    match i with
    | IMsg m e => menv_ok e ∧ quiet_env e ∧ (msg_hash m = h → is_reorg m = false → good m)
    | IEvict n => S → quiet n
    end.
  Definition of_block (i : mp_input) : option msg :=
    match i with
    | IMsg m _ => if decide (msg_hash m = h ∧ is_reorg m = false) then Some m else None
    | IEvict _ => None
    end.
  Lemma inv_step hist st i st' : inv hist st → input_good i → mp_step c st i = Ok st' →
    inv (hist ++ option_list (of_block i)) st'.
  Proof.
    intros Hinv Hi. destruct i as [m e|n]; cbn [mp_step of_block].
    - destruct Hi as (He & Hqe & Hg). destruct (process c e st m) as [[s er]| |] eqn:Ep; cbn [mbind outcome_bind]; try discriminate.
      intros [= <-]. case_decide as Hd.
      + destruct Hd as [Hh Hr]. destruct (inv_good e hist st m Hinv (Hg Hh Hr) He Hqe) as (s' & Ep' & Hinv'). rewrite Ep in Ep'. injection Ep' as -> ->. exact Hinv'.
      + cbn [option_list]. rewrite app_nil_r. cbn [fst]. destruct (is_reorg m) eqn:Er; [by eapply inv_reorg|].
        eapply inv_other; [| |exact Hqe|exact Ep|done]; [|done]. intros Hh. by apply Hd.
    - intros [= <-]. cbn [option_list]. rewrite app_nil_r.
      eapply (inv_prim (ME id (λ _, id) (λ _, [n])) (h + 1)%N); [lia| |apply (PPush _ _ _ _ _ []), elem_of_list_here|done].
      intros Hs k n' ->%elem_of_list_singleton. by apply Hi.
  Qed.
  Lemma inv_run hist ins st st' : inv hist st → Forall input_good ins → mp_run c ins st = Ok st' →
    inv (hist ++ omap of_block ins) st'.
  Proof.
    unfold mp_run. revert hist st; induction ins as [|i ins IH]; intros hist st Hinv Hi; cbn [foldM].
    - intros [= <-]. by rewrite app_nil_r.
    - apply Forall_cons in Hi as [Hi1 Hi]. destruct (mp_step c st i) as [s| |] eqn:E; cbn [mbind outcome_bind]; try discriminate.
      intros Hr. specialize (IH _ _ (inv_step _ _ _ _ Hinv Hi1 E) Hi Hr). revert IH. rewrite <- app_assoc. cbn [omap list_omap].
      by destruct (of_block i).
  Qed.
  Lemma inv_new last st : mp_new c last = Ok st → inv [] st.
  Proof.
    intros Hn. pose proof (new_base c last st Hn) as Hb. unfold mp_new in Hn. case_bool_decide; [|discriminate]. injection Hn as <-.
    split; [split; [done|]; split; [by intros ? ?%elem_of_nil|by intros _ ? ?%elem_of_nil]|]. left. exists [].
    split; [done|]. split; [right; by intros ? ?%elem_of_nil|]. left.
    split; [done|]. split; [cbn; set_solver|]. split; [cbn; by intros ?%elem_of_nil|]. split; [by intros ? ?%elem_of_nil|].
    intros q k m. cbn. by rewrite lookup_empty.
  Qed.

  Lemma inv_emitted hist st pb : inv hist st → EBatch pb ∈ mp_out st → pb_hash pb = h → emitted_ok hist pb.
  Proof. intros [(_ & H & _) _]. apply H. Qed.
  Lemma inv_complete hist st : S → inv hist st → (∀ kd, need kd → ∃ m, m ∈ hist ∧ m_key m = key_of kd) → has_emitted (mp_out st).
  Proof.
    intros Hs [Hcore [(D & HD & HS & Hph)|[(_ & _ & Hd) _]]] Hall; [|by apply Hd].
    destruct (HS Hs) as [?|Hsk]; [done|exfalso].
    assert (HallD : ∀ kd, need kd → ∃ m, m ∈ D ∧ m_key m = key_of kd).
    { intros kd Hk. destruct (Hall kd Hk) as (m & Hm & E). destruct (Hsk m Hm) as (m' & ? & ?). exists m'. split; [done|congruence]. }
    destruct Hph as [(P1 & P2 & P3 & P4 & P5)|[(pb & Hp & Hc & Hr) _]].
    - destruct (HallD _ (NHeader mt b tr)) as (m & Hm & E). destruct (P4 m Hm) as (q & Hq & [m' Hm']).
      destruct Hcore as [Hb _]. destruct (bi_queue _ _ Hb h q _ m' Hq Hm') as [E' Hl].
      apply (later_not_header m' Hl). congruence.
    - rewrite (ready_collecting mt b tr D pb Hc HallD) in Hr. discriminate.
  Qed.
End collect.
