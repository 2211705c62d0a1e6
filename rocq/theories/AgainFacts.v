(** A processor behaves the same whatever it has sent before; blocks are collected again after a reorg message. *)
From Verif Require Import Base Lru LruFacts Types Avro Wire SpecWire GoPath Producer SpecBlock Consumer ConsumerBase ConsumerFacts
  Assembly Assembly2 Assembly3 SpecCollect CollectFacts AvroFacts WireFacts Kafka SpecKafka KafkaFacts3 SpecAgain.

Definition pre_out (o : list mp_event) (st : mp) : mp :=
  MP (mp_last st) (mp_pend st) (mp_queue st) (mp_old st) (mp_done st) (mp_res st) (mp_evict st) (mp_chan st) (o ++ mp_out st).
Definition cut_out (st : mp) : mp :=
  MP (mp_last st) (mp_pend st) (mp_queue st) (mp_old st) (mp_done st) (mp_res st) (mp_evict st) (mp_chan st) [].
Lemma pre_cut st : pre_out (mp_out st) (cut_out st) = st.
Proof. destruct st. unfold pre_out, cut_out. cbn. by rewrite app_nil_r. Qed.
Definition lift (o : list mp_event) (r : outcome (mp * bool)) : outcome (mp * bool) :=
  match r with Ok (s, e) => Ok (pre_out o s, e) | Panic => Panic | Hang => Hang end.

Lemma pre_evict o st n : evict_older_than (pre_out o st) n = pre_out o (evict_older_than st n).
Proof. unfold evict_older_than. cbn. by case_bool_decide. Qed.
Lemma pre_evicts o ns st : foldl evict_older_than (pre_out o st) ns = pre_out o (foldl evict_older_than st ns).
Proof. revert st. induction ns as [|n ns IH]; intros st; [done|]. cbn. by rewrite pre_evict, IH. Qed.
Lemma pre_drain o st : drain (pre_out o st) = pre_out o (drain st).
Proof.
  unfold drain. change (mp_evict (pre_out o st)) with (mp_evict st). change (set_evict (pre_out o st) []) with (pre_out o (set_evict st [])).
  generalize (set_evict st []) as s. induction (mp_evict st) as [|n ns IH]; intros s; [done|]. cbn [foldl]. change (evict_one (pre_out o s) n) with (pre_out o (evict_one s n)). apply IH.
Qed.
Lemma pre_res o st m : mp_update_res (pre_out o st) m = pre_out o (mp_update_res st m).
Proof. unfold mp_update_res. cbn. destruct (mp_res st !! m_src m); [|done]. by case_bool_decide. Qed.
Lemma pre_finish o st h : finish (pre_out o st) h = pre_out o (finish st h).
Proof.
  unfold finish. cbn. destruct (mp_pend st !! h) as [pb|]; [|done]. destruct (ready pb); [|done]. unfold emit, pre_out. cbn. by rewrite app_assoc.
Qed.
Lemma pre_replay o rec rec' e q ks st : (∀ s m, rec' (pre_out o s) m = lift o (rec s m)) →
  replay rec' e q ks (pre_out o st) = lift o (replay rec e q ks st).
Proof.
  intros Hr. unfold replay. assert (G : ∀ er, foldM (λ s k, match s : mp * bool with (st, true) => Ok (st, true) | (st, false) =>
      match q !! k with None => Ok (st, false) | Some m => rec' (foldl evict_older_than st (me_evict e k)) m end end) ks (pre_out o st, er)
    = lift o (foldM (λ s k, match s : mp * bool with (st, true) => Ok (st, true) | (st, false) =>
      match q !! k with None => Ok (st, false) | Some m => rec (foldl evict_older_than st (me_evict e k)) m end end) ks (st, er))); [|apply G].
  revert st. induction ks as [|k ks IH]; intros st er; [done|]. cbn [foldM]. destruct er; [cbn [mbind outcome_bind]; apply IH|].
  destruct (q !! k) as [m|]; [|cbn [mbind outcome_bind]; apply IH]. rewrite pre_evicts, Hr.
  destruct (rec (foldl evict_older_than st (me_evict e k)) m) as [[s er]| |]; cbn [lift mbind outcome_bind]; [apply IH|done|done].
Qed.
Lemma pre_process_with o rec rec' c e st m : (∀ s m, rec' (pre_out o s) m = lift o (rec s m)) →
  process_with rec' c e (pre_out o st) m = lift o (process_with rec c e st m).
Proof.
  intros Hr. unfold process_with. rewrite pre_drain, pre_res. generalize (mp_update_res (drain st) m) as s. intros s.
  case_bool_decide; [done|]. destruct (m_key m) as [|t k]; [done|]. case_bool_decide.
  { destruct (decode_int (m_val m)); [|done]. cbn [lift]. unfold pre_out. cbn. by rewrite app_assoc. }
  change (mp_done (pre_out o s)) with (mp_done s). destruct (lru_contains (mp_done s) (msg_hash m)); [done|].
  change (mp_old (pre_out o s)) with (mp_old s). case_bool_decide; [done|]. case_bool_decide.
  { destruct (decode_batch (m_val m)) as [b|]; [|done]. change (mp_pend (pre_out o s)) with (mp_pend s). destruct (mp_pend s !! msg_hash m); [done|].
    change (mp_queue (MP (mp_last (pre_out o s)) _ (mp_queue (pre_out o s)) _ _ _ _ _ _)) with (mp_queue s).
    cbn [mp_queue]. change (mp_queue (pre_out o s)) with (mp_queue s).
    match goal with |- match _ with Some q => _ | None => Ok (finish ?x _, _) end = _ => set (s1 := x) end.
    match goal with |- _ = lift o (match _ with Some q => _ | None => Ok (finish ?x _, _) end) => set (s2 := x) end.
    assert (E : s1 = pre_out o s2) by (unfold s1, s2, pre_out; cbn; by rewrite app_assoc).
    clearbody s1 s2. subst s1. destruct (mp_queue s !! msg_hash m) as [q|]; [|by rewrite pre_finish].
    rewrite (pre_replay o rec rec') by done. destruct (replay rec e q _ s2) as [[s3 []]| |]; cbn [lift mbind outcome_bind]; try done.
    change (set_queue (pre_out o s3) (delete (msg_hash m) (mp_queue (pre_out o s3)))) with (pre_out o (set_queue s3 (delete (msg_hash m) (mp_queue s3)))).
    by rewrite pre_finish. }
  case_bool_decide.
  { change (mp_pend (pre_out o s)) with (mp_pend s). destruct (mp_pend s !! msg_hash m) as [pb|]; [|done]. case_bool_decide; [done|].
    destruct (decode_int (m_val m)) as [n|]; [|done]. case_bool_decide; [done|].
    destruct (apply_pending _ _) as [pb3| |]; cbn [lift mbind outcome_bind]; try done.
    change (set_pend (pre_out o s) (<[msg_hash m:=pb3]> (mp_pend s))) with (pre_out o (set_pend s (<[msg_hash m:=pb3]> (mp_pend s)))). by rewrite pre_finish. }
  change (mp_pend (pre_out o s)) with (mp_pend s). destruct (mp_pend s !! msg_hash m) as [pb|]; [|done].
  destruct (apply_msg pb m) as [[pb3 d]| |]; cbn [lift mbind outcome_bind]; try done.
  change (set_pend (pre_out o s) (<[msg_hash m:=fst (pb3, d)]> (mp_pend s))) with (pre_out o (set_pend s (<[msg_hash m:=fst (pb3, d)]> (mp_pend s)))).
  by rewrite pre_finish.
Qed.
Lemma pre_process o c e st m : process c e (pre_out o st) m = lift o (process c e st m).
Proof. unfold process. apply pre_process_with. intros s m'. by apply pre_process_with. Qed.
Lemma pre_run o c ins st : mp_run c ins (pre_out o st) = match mp_run c ins st with Ok s => Ok (pre_out o s) | Panic => Panic | Hang => Hang end.
Proof.
  unfold mp_run. revert st. induction ins as [|i ins IH]; intros st; [done|]. cbn [foldM]. destruct i as [m e|n]; cbn [mp_step].
  - rewrite pre_process. destruct (process c e st m) as [[s er]| |]; cbn [lift mbind outcome_bind fst]; [apply IH|done|done].
  - rewrite pre_evict. cbn [mbind outcome_bind]. apply IH.
Qed.
(** What a processor does from here on, with what it sends from here on *)
Lemma run_cut c ins st st' : mp_run c ins st = Ok st' → ∃ s, mp_run c ins (cut_out st) = Ok s ∧ mp_out st' = mp_out st ++ mp_out s.
Proof.
  intros H. rewrite <- (pre_cut st), pre_run in H. destruct (mp_run c ins (cut_out st)) as [s| |]; try done. injection H as <-. by exists s.
Qed.

Section again.
  Context (mt : bytes → option bytes) (b : block) (c : mp_config) (Hwf : wf_block mt b).
  Notation tr := (mc_tracked c).
  Notation h := (ba_hash (bk_args b)).
  (** A processor that has forgotten what it had completed and discarded *)
  Lemma inv_cut hist st : inv mt b c False hist st → mp_old st = ∅ → lru_keys (mp_done st) = [] → mp_evict st = [] →
    ∃ D, D ⊆ hist ∧ inv mt b c True D (cut_out st).
  Proof.
    intros [(Hb & _ & _) Hst] Ho Hd He.
    assert (Hcore : ∀ D, core mt b c True D (cut_out st)).
    { intros D. split; [by destruct Hb as [B1 B2 B3 B4]; split|]. split; [by intros ? ?%elem_of_nil|]. intros _ n Hn. cbn in Hn. rewrite He in Hn. by apply elem_of_nil in Hn. }
    destruct Hst as [(D & HD & _ & Hph)|[(Hd1 & Hd2 & Hd3) Hqn]].
    - exists D. split; [done|]. split; [apply Hcore|]. left. exists D. split; [done|]. split; [|exact Hph]. intros _. right. intros m Hm. by exists m.
    - exists []. split; [by intros ? ?%elem_of_nil|]. split; [apply Hcore|]. exfalso. rewrite Ho, Hd in Hd2. set_solver.
  Qed.
  Lemma collected_again ins0 st m e st1 err ins st2 :
    consumer_run c ins0 st → Forall input_ok ins0 → reorg_type m → process c e st m = Ok (st1, err) → Forall input_ok ins → mp_run c ins st1 = Ok st2 →
    faithful mt b (messages ins0 ++ messages ins) → (∀ n, requested ins n → (n ≤ ba_num (bk_args b))%Z) →
    (∀ kd, needed mt b tr kd → delivered (messages ins) kd) →
    ∃ o pb, mp_out st2 = mp_out st1 ++ o ∧ EBatch pb ∈ o ∧ pb_hash pb = h ∧ exact mt b tr pb.
  Proof.
    intros Hr Hok0 Hm Hp Hok Hrun Hf HS Hall.
    assert (Hre : is_reorg m = true) by (by apply bool_decide_eq_true_2).
    assert (Hinv : inv mt b c False (omap (of_block b) ins0) st1).
    { eapply inv_reorg; [exact Hwf|exact Hre|exact Hp|]. eapply run_inv; [done|done|done| |done]. intros x Hx. apply Hf. apply elem_of_app. by left. }
    assert (Hst1 : mp_old st1 = ∅ ∧ lru_keys (mp_done st1) = [] ∧ mp_evict st1 = []).
    { assert (Hev : mp_evict (settle st m) = []) by apply settle_spec.
      destruct (process_reorg c e st m st1 err Hre Hp) as [->|[n ->]]; cbn; done. }
    destruct Hst1 as (H1 & H2 & H3). destruct (inv_cut _ _ Hinv H1 H2 H3) as (D & HD & Hcut).
    destruct (run_cut _ _ _ _ Hrun) as (s & Hs & Eo).
    assert (Hgood : Forall (input_good mt b True) ins).
    { apply Forall_forall. intros i Hi. destruct i as [m' e'|n]; cbn.
      - rewrite Forall_forall in Hok. specialize (Hok _ Hi). split; [done|]. split.
        + intros _ k n Hk. apply HS. right. eauto.
        + intros Hh Hnr. assert (Hl : 33 ≤ length (m_key m')) by (by eapply run_len). destruct (Hf m') as [?|Hft].
          * apply elem_of_app. right. apply elem_of_messages. by exists e'.
          * by apply hash_about.
          * unfold reorg_type. unfold is_reorg in Hnr. by apply bool_decide_eq_false in Hnr.
          * by left.
          * right. split; [done|]. split; done.
      - intros _. apply HS. by left. }
    assert (Hinv2 := inv_run mt b c Hwf True D ins (cut_out st1) s Hcut Hgood Hs).
    destruct (inv_complete mt b c True _ _ I Hinv2) as (pb & Hpb & Hh).
    { intros kd Hk. destruct (Hall kd Hk) as (m' & Hm' & E). exists m'. split; [|done]. apply elem_of_app. right.
      destruct (need_ok mt b tr Hwf kd Hk) as [? ?]. eapply msgs_of_block; try done. by destruct Hk. }
    exists (mp_out s), pb. split; [done|]. split; [done|]. split; [done|]. apply (inv_emitted mt b c True _ _ _ Hinv2 Hpb Hh).
  Qed.
End again.

(** * The announcement *)
Lemma reorg_processed c e st m n h : hash_ok h → in_int32 n → carries m (reorg_msg n h) →
  ∃ st', process c e st m = Ok (st', false) ∧ mp_out st' = mp_out st ++ [EReorg n h] ∧ mp_last st' = n ∧ mp_queue st' = mp_queue st ∧
    (∀ h' pb, mp_pend st' !! h' = Some pb ↔ mp_pend st !! h' = Some pb ∧ ¬ ∃ k, k ∈ mp_evict st ∧ (pb_num pb < k)%Z) ∧
    mp_old st' = ∅ ∧ lru_keys (mp_done st') = [].
Proof.
  intros Hh Hn [Hk Hv]. cbn [reorg_msg pm_key pm_val] in Hk, Hv.
  assert (Hok : kind_ok (KReorg h)) by (split; [exact Hh|done]).
  assert (Hmh : msg_hash m = h). { unfold msg_hash. rewrite Hk. exact (proj1 (key_recovered _ Hok)). }
  assert (Hlen : 33 ≤ length (m_key m)). { rewrite Hk. unfold get_key. cbn [length concat]. rewrite app_nil_r, hash_bytes_length. lia. }
  unfold process, process_with at 1. fold (settle st m). rewrite bool_decide_eq_false_2 by lia.
  destruct (m_key m) as [|t kr]; [done|]. injection Hk as -> _. rewrite bool_decide_eq_true_2 by done. rewrite Hv, (proj2 (int_exact n) Hn). eexists. split; [reflexivity|]. cbn.
  destruct (settle_spec st m) as (E1 & E2 & E3 & E4 & E5 & E6). rewrite E3, E1, Hmh. split; [done|]. split; [done|]. split; [done|].
  split; [|done]. intros h' pb. rewrite E5. done.
Qed.
(** The loop of the second consumer between the announcement and the end *)
Lemma reorg_loop c topic (ds : list (Z * msg * menv)) st st' :
  Forall (λ x, head (m_key x.1.2) ≠ Some ReorgType ∧ head (m_key x.1.2) ≠ Some ReorgCompleteType) ds → kc_run c true topic ds st = Ok st' →
  mp_run c (data_inputs ds) (kc_mp st) = Ok (kc_mp st') ∧ kc_wg st' = kc_wg st.
Proof.
  intros Hds. revert st. induction Hds as [|[[now m] e] ds [H1 H2] Hds IH]; intros st H.
  { by injection H as <-. }
  unfold kc_run in H. cbn [foldM fst snd] in H, H1, H2. rewrite data_inputs_cons. unfold mp_run. rewrite foldM_app. cbn [fst snd].
  unfold kc_message in H. destruct (m_key m) as [|t k] eqn:Ek; cbn [head] in H1, H2.
  { cbn [mbind outcome_bind] in H. rewrite decide_False by (unfold data_message; rewrite Ek; naive_solver). cbn [foldM mbind outcome_bind]. by apply IH. }
  rewrite (bool_decide_eq_false_2 (t = ReorgType)) in H by congruence. rewrite (bool_decide_eq_false_2 (t = ReorgCompleteType)) in H by congruence.
  destruct (bool_decide_reflect (t = PingType)) as [->|Hp].
  { cbn [mbind outcome_bind fst] in H. rewrite decide_False by (unfold data_message; rewrite Ek; cbn; naive_solver). cbn [foldM mbind outcome_bind].
    by apply IH in H. }
  rewrite decide_True; [|exists t; rewrite Ek; split; [done|]; split; [congruence|]; split; [done|congruence]].
  cbn [foldM mp_step]. destruct (process c e (kc_mp st) m) as [[s er]| |]; cbn [mbind outcome_bind fst] in H |- *; try discriminate H.
  by apply (IH (KC s (kc_wg st) (kc_pt st))) in H.
Qed.
Lemma reorg_topic_read c topic st ms n h ds st' : hash_ok h → in_int32 n → (0 ≤ kc_wg st)%Z → reorg_feed ms n h ds →
  kc_run c true topic ms st = Ok st' →
  kc_wg st' = kc_wg st ∧ ∃ m e st1, process c e (kc_mp st) m = Ok (st1, false) ∧ reorg_type m ∧
    mp_out st1 = mp_out (kc_mp st) ++ [EReorg n h] ∧ mp_run c (data_inputs ds) st1 = Ok (kc_mp st').
Proof.
  intros Hh Hn Hwg (x & y & -> & Hx & Hy & Hds) H. destruct x as [[now m] e], y as [[now' m'] e']. cbn [fst snd] in Hx, Hy.
  destruct (reorg_processed c e (kc_mp st) m n h Hh Hn Hx) as (st1 & Hp & Ho & _).
  assert (Hm : kc_message c true topic st now m e = Ok (KC st1 (kc_wg st + 1) (kc_pt st), KNone) ∧ reorg_type m).
  { destruct Hx as [Hk Hv]. unfold kc_message, reorg_type. rewrite Hk, Hp. split; reflexivity. }
  destruct Hm as [Hm Hty]. unfold kc_run in H. cbn [foldM fst snd] in H. rewrite Hm in H. cbn [mbind outcome_bind fst] in H.
  rewrite foldM_app in H. destruct (foldM _ ds _) as [st2| |] eqn:E2; cbn [mbind outcome_bind] in H; try discriminate H.
  destruct (reorg_loop c topic ds _ st2 Hds E2) as [Hrun Hw2]. cbn [kc_mp kc_wg] in Hrun, Hw2.
  assert (Hm' : kc_message c true topic st2 now' m' e' = Ok (KC (kc_mp st2) (kc_wg st2 - 1) (kc_pt st2), KNone)).
  { destruct Hy as [Hk' _]. cbn [reorg_done_msg pm_key get_key] in Hk'. unfold kc_message. rewrite Hk'.
    change (bool_decide (ReorgCompleteType = ReorgType)) with false. change (bool_decide (ReorgCompleteType = PingType)) with false.
    change (bool_decide (ReorgCompleteType = ReorgCompleteType)) with true. cbv iota. by rewrite bool_decide_eq_false_2 by lia. }
  cbn [foldM fst snd] in H. rewrite Hm' in H.
  cbn [mbind outcome_bind fst] in H. injection H as <-. cbn [kc_wg kc_mp]. split; [lia|]. exists m, e, st1. split; [done|].
  done.
Qed.
