(** Corollaries stated as in PropConsumer.v. *)
From Coq Require Import Strings.String.
From Verif Require Import Base Lru LruFacts Types Avro AvroFacts Wire SpecWire WireFacts GoPath PathFacts Producer SpecBlock
  Consumer ConsumerBase ConsumerFacts Assembly Assembly2 Assembly3 SpecCollect CollectFacts StrayFacts ExampleBlock.

Lemma consumer_base c ins st : consumer_run c ins st → base_inv c st.
Proof. intros (last & st0 & Hn & Hr). eapply run_base; [by eapply new_base|exact Hr]. Qed.
Lemma not_reorg m : ¬ reorg_type m → is_reorg m = false.
Proof. intros H. unfold is_reorg. by apply bool_decide_eq_false_2. Qed.
Lemma no_reorgs_plain ins : (∀ m, m ∈ messages ins → ¬ reorg_type m) → Forall plain_input ins.
Proof.
  intros H. apply Forall_forall. intros [m e|n] Hi; [|done]. apply not_reorg, H, elem_of_messages. by exists e.
Qed.

Lemma reassembly_exact mt b c ins st pb :
  wf_block mt b → consumer_run c ins st → Forall input_ok ins → faithful mt b (messages ins) →
  emitted_batch st (ba_hash (bk_args b)) pb → exact mt b (mc_tracked c) pb.
Proof. intros. by eapply reassembly. Qed.
Lemma completes mt b c ins st :
  wf_block mt b → consumer_run c ins st → Forall input_ok ins → faithful mt b (messages ins) →
  (∀ n, requested ins n → (n ≤ ba_num (bk_args b))%Z) →
  (∀ kd, needed mt b (mc_tracked c) kd → delivered (messages ins) kd) →
  ∃ pb, emitted_batch st (ba_hash (bk_args b)) pb.
Proof. intros. by eapply completion. Qed.
Lemma token_covers mt b c ins st pb :
  wf_block mt b → consumer_run c ins st → Forall input_ok ins → faithful mt b (messages ins) →
  emitted_batch st (ba_hash (bk_args b)) pb →
  ∀ kd, needed mt b (mc_tracked c) kd → ∃ m, m ∈ messages ins ∧ m_key m = key_of kd ∧ reread (pb_res pb) m.
Proof. intros H1 H2 H3 H4 H5. eapply (reassembly mt b c H1 ins st pb); done. Qed.
Lemma not_premature mt b c ins st pb :
  wf_block mt b → consumer_run c ins st → Forall input_ok ins → faithful mt b (messages ins) →
  emitted_batch st (ba_hash (bk_args b)) pb → ∀ kd, needed mt b (mc_tracked c) kd → delivered (messages ins) kd.
Proof.
  intros H1 H2 H3 H4 H5 kd Hk. destruct (token_covers mt b c ins st pb H1 H2 H3 H4 H5 kd Hk) as (m & ? & ? & _). by exists m.
Qed.
Lemma emitted_iff_needed mt b c ins st :
  wf_block mt b → consumer_run c ins st → Forall input_ok ins → faithful mt b (messages ins) →
  (∀ n, requested ins n → (n ≤ ba_num (bk_args b))%Z) →
  ((∃ pb, emitted_batch st (ba_hash (bk_args b)) pb) ↔
   (∀ kd, needed mt b (mc_tracked c) kd → delivered (messages ins) kd)).
Proof.
  intros H1 H2 H3 H4 H5. split; [|by apply (completes mt b c)]. intros [pb Hpb]. by eapply not_premature.
Qed.
Lemma nothing_untracked mt b c ins st pb k :
  wf_block mt b → consumer_run c ins st → Forall input_ok ins → faithful mt b (messages ins) →
  emitted_batch st (ba_hash (bk_args b)) pb → k ∈ dom (pb_values pb) ∨ k ∈ pb_deletes pb →
  mc_tracked c (default k (mt k)) = true ∨
  ∃ x id pt, ba_batches (bk_args b) !! x = Some id ∧ mc_tracked c x = true ∧ pt ∈ bk_parts b id ∧
             (k ∈ dom (pt_updates pt) ∨ k ∈ pt_deletes pt).
Proof.
  intros H1 H2 H3 H4 H5 Hk. destruct (reassembly_exact mt b c ins st pb H1 H2 H3 H4 H5) as (_ & _ & _ & _ & Hv & Hd).
  destruct Hk as [[v Hk]%elem_of_dom|Hk].
  - apply Hv in Hk as [? ? Ho Ht|id i pt ? ? (x & Hx & Ht) Hi Hu]; [by left|right].
    exists x, id, pt. split; [done|]. split; [done|]. split; [by eapply elem_of_list_lookup_2|]. left. by apply elem_of_dom; eexists.
  - apply Hd in Hk as [? Ho Ht|id i pt ? (x & Hx & Ht) Hi Hu]; [by left|right].
    exists x, id, pt. split; [done|]. split; [done|]. split; [by eapply elem_of_list_lookup_2|]. by right.
Qed.
Lemma reread_completes mt b c ins st pb ins2 st2 :
  wf_block mt b → consumer_run c ins st → Forall input_ok ins → faithful mt b (messages ins) →
  emitted_batch st (ba_hash (bk_args b)) pb →
  consumer_run c ins2 st2 → Forall input_ok ins2 → faithful mt b (messages ins2) →
  (∀ n, requested ins2 n → (n ≤ ba_num (bk_args b))%Z) →
  (∀ m, m ∈ messages ins → reread (pb_res pb) m → m ∈ messages ins2) →
  ∃ pb2, emitted_batch st2 (ba_hash (bk_args b)) pb2 ∧
    pb_num pb2 = pb_num pb ∧ pb_weight pb2 = pb_weight pb ∧ pb_parent pb2 = pb_parent pb ∧
    (pb_values pb2 : gmap bytes bytes) = pb_values pb ∧ pb_deletes pb2 = pb_deletes pb.
Proof.
  intros H1 H2 H3 H4 H5 G2 G3 G4 G5 Hre.
  destruct (completes mt b c ins2 st2 H1 G2 G3 G4 G5) as [pb2 Hpb2].
  { intros kd Hk. destruct (token_covers mt b c ins st pb H1 H2 H3 H4 H5 kd Hk) as (m & Hm & Hkm & Hr).
    exists m. split; [|done]. by apply Hre. }
  exists pb2. split; [done|].
  destruct (reassembly_exact mt b c ins st pb H1 H2 H3 H4 H5) as (A1 & A2 & A3 & _ & A4 & A5).
  destruct (reassembly_exact mt b c ins2 st2 pb2 H1 G2 G3 G4 Hpb2) as (B1 & B2 & B3 & _ & B4 & B5).
  split; [congruence|]. split; [congruence|]. split; [congruence|]. split.
  - apply map_eq. intros k. apply option_eq. intros v. by rewrite A4, B4.
  - apply set_eq. intros k. by rewrite A5, B5.
Qed.

Lemma emitted_once c ins0 st i st1 ins st2 o1 pb1 o2 mid pb2 post :
  consumer_run c ins0 st →
  mp_step c st i = Ok st1 → mp_out st1 = mp_out st ++ o1 → EBatch pb1 ∈ o1 →
  (∀ m, m ∈ messages ins → ¬ reorg_type m) → mp_run c ins st1 = Ok st2 → mp_out st2 = mp_out st1 ++ o2 →
  o2 = mid ++ EBatch pb2 :: post → pb_hash pb2 = pb_hash pb1 →
  ∃ hs, NoDup hs ∧ length hs = Z.to_nat (2 * mc_thr c) ∧ pb_hash pb1 ∉ hs ∧
        ∀ h, h ∈ hs → ∃ pb, EBatch pb ∈ mid ∧ pb_hash pb = h.
Proof.
  intros Hr%consumer_base ? ? ? Hp%no_reorgs_plain ? ? ? ?. by eapply once_per_window.
Qed.
(** After an emission the block is completed, so a second emission needs a fresh block. *)
Lemma one_per_message c ins0 st m e st1 err o :
  consumer_run c ins0 st → process c e st m = Ok (st1, err) → mp_out st1 = mp_out st ++ o →
  ¬ reorg_type m → ∀ pb pb', EBatch pb ∈ o → EBatch pb' ∈ o → pb = pb'.
Proof.
  intros Hb%consumer_base E Ho Hnr pb pb' H1 H2.
  pose proof (process_frame _ _ _ _ _ _ Hb E) as ((o' & Oo & Fo) & _).
  assert (o' = o) as -> by (rewrite Oo in Ho; by simplify_list_eq).
  apply process_prims in E; [|apply Hb]. rewrite (not_reorg _ Hnr) in E.
  destruct (prims_window _ _ _ _ _ Hb E) as (o' & Oo' & K & C & F).
  assert (o' = o) as -> by (rewrite Oo' in Ho; by simplify_list_eq).
  rewrite Forall_forall in Fo.
  assert (Hw : ∀ l1 p1 l2 p2 l3, o = l1 ++ EBatch p1 :: l2 ++ EBatch p2 :: l3 → False).
  { intros l1 p1 l2 p2 l3 Eo.
    assert (Hall : ∀ p, EBatch p ∈ o → pb_hash p = msg_hash m) by (intros p Hp; exact (Fo _ Hp)).
    specialize (F (l1 ++ EBatch p1 :: l2) p2 l3). rewrite <- app_assoc in F. specialize (F Eo).
    apply F. destruct (bi_cap _ _ Hb) as [_ Hc0].
    rewrite (Hall p2) by (rewrite Eo; apply elem_of_app; right; apply elem_of_cons; right; apply elem_of_app; right; apply elem_of_list_here).
    assert (He : ∃ r, emitted (l1 ++ EBatch p1 :: l2) = msg_hash m :: r).
    { destruct (emitted (l1 ++ EBatch p1 :: l2)) as [|h r] eqn:Ee.
      - exfalso. assert (pb_hash p1 ∈ emitted (l1 ++ EBatch p1 :: l2)) as Hin.
        { apply elem_of_emitted. exists p1. split; [apply elem_of_app; right; apply elem_of_list_here|done]. }
        rewrite Ee in Hin. by apply elem_of_nil in Hin.
      - assert (h ∈ emitted (l1 ++ EBatch p1 :: l2)) as (p & Hp & <-)%elem_of_emitted by (rewrite Ee; apply elem_of_list_here).
        exists r. f_equal. apply Hall. rewrite Eo. clear -Hp.
        rewrite elem_of_app, elem_of_cons in Hp. rewrite elem_of_app, elem_of_cons, elem_of_app. tauto. }
    destruct He as [r ->]. destruct (lru_cap (mp_done st)) as [|n]; [lia|]. cbn. apply elem_of_list_here. }
  apply elem_of_list_split in H1 as (a & b & ->). apply elem_of_app in H2 as [H2|[H2|H2]%elem_of_cons].
  - exfalso. apply elem_of_list_split in H2 as (a1 & a2 & ->). apply (Hw a1 pb' a2 pb b). by rewrite <- app_assoc.
  - by simplify_eq.
  - exfalso. apply elem_of_list_split in H2 as (a1 & a2 & ->). by apply (Hw a pb a1 pb' a2).
Qed.

Lemma no_contamination c ins0 st m e st' err h :
  consumer_run c ins0 st → process c e st m = Ok (st', err) → hash_ok h → about h m →
  (∃ o, mp_out st' = mp_out st ++ o ∧
        Forall (λ ev, match ev with EWaiter x _ _ _ => x = h | EBatch pb => pb_hash pb = h | EReorg _ x => x = h end) o) ∧
  ∀ h', h' ≠ h →
    mp_queue st' !! h' = mp_queue st !! h' ∧
    (mp_pend st' !! h' = mp_pend st !! h' ∨
     mp_pend st' !! h' = None ∧
     ∃ pb n, mp_pend st !! h' = Some pb ∧ (pb_num pb < n)%Z ∧ (n ∈ mp_evict st ∨ ∃ k, n ∈ me_evict e k)).
Proof.
  intros Hb%consumer_base E Hh Ha. apply about_hash in Ha; [|done].
  destruct (process_frame _ _ _ _ _ _ Hb E) as ((o & Oo & Fo) & Q & P & _). rewrite Ha in *. split.
  - exists o. split; [done|]. eapply Forall_impl; [exact Fo|]. by intros [].
  - intros h' Hne. split; [by apply Q|]. by apply P.
Qed.

Lemma old_dropped c ins0 st m e st' err h pb n :
  consumer_run c ins0 st → n ∈ mp_evict st → mp_pend st !! h = Some pb → (pb_num pb < n)%Z →
  ¬ reorg_type m → process c e st m = Ok (st', err) →
  discarded h st' ∧ ∃ o, mp_out st' = mp_out st ++ o ∧ Forall (λ ev, event_hash ev ≠ h) o.
Proof. intros Hb%consumer_base ? ? ? ?%not_reorg ?. by eapply evict_applied. Qed.
Lemma stays_dropped c ins0 st ins st' h :
  consumer_run c ins0 st → discarded h st → (∀ m, m ∈ messages ins → ¬ reorg_type m) → mp_run c ins st = Ok st' →
  discarded h st' ∧ ∃ o, mp_out st' = mp_out st ++ o ∧ Forall (λ ev, event_hash ev ≠ h) o.
Proof. intros Hb%consumer_base ? ?%no_reorgs_plain ?. by eapply run_discarded. Qed.
Lemma request_recorded st n : length (mp_evict st) < 100 → n ∈ mp_evict (evict_older_than st n).
Proof.
  intros H. unfold evict_older_than, evict_cap. rewrite bool_decide_eq_true_2 by done. cbn.
  apply elem_of_app. right. by apply elem_of_list_singleton.
Qed.

Lemma first_match prefixes frp cs r :
  Forall plain cs → cs ≠ [] → dec_prefix prefixes frp (join_slash cs) = Ok r →
  let candidates := join_slash cs :: map (λ i, join_slash (take i cs) ++ [slash]) (rev (seq 1 (length cs))) in
  match r with
  | Some m => ∃ k v pre post, candidates = pre ++ k :: post ∧
                (∀ q w, q ∈ pre → prefixes !! q = Some w → (w ≤ 0)%Z) ∧
                prefixes !! k = Some v ∧ (0 < v)%Z ∧ m = <[k := (v - 1)%Z]> prefixes
  | None => ∀ q w, q ∈ candidates → prefixes !! q = Some w → (w ≤ 0)%Z
  end.
Proof.
  intros Hp Hne H. apply dec_prefix_result in H. rewrite lookup_keys_plain in H by done. intros cand.
  assert (Hh : ∀ l, Forall (λ c, ¬ hit prefixes c) l → ∀ q w, q ∈ l → prefixes !! q = Some w → (w ≤ 0)%Z).
  { intros l Hl q w Hq Hw. rewrite Forall_forall in Hl. specialize (Hl q Hq). destruct (decide (w ≤ 0)%Z); [done|].
    exfalso. apply Hl. exists w. split; [done|lia]. }
  destruct r as [m|]; [|by apply Hh].
  destruct H as (k & v & pre & post & E & F & H). exists k, v, pre, post. split; [done|]. split; [by apply Hh|done].
Qed.
Lemma absolute_hangs : ∃ p, ∀ fuel, dec_loop fuel ∅ false p = Hang.
Proof. exists [slash]. intros fuel. by apply dec_loop_root. Qed.

Lemma harmless c ins0 st m e h kd :
  consumer_run c ins0 st → mp_evict st = [] → settled st →
  useless st h kd → kind_hash kd = h → kind_ok kd → m_key m = key_of kd →
  ∃ st' err, process c e st m = Ok (st', err) ∧
    mp_out st' = mp_out st ∧ mp_queue st' = mp_queue st ∧ mp_done st' = mp_done st ∧ mp_old st' = mp_old st ∧
    ∀ h', same_pending (mp_pend st !! h') (mp_pend st' !! h').
Proof. intros Hb%consumer_base ? Hs ? ? ? ?. eapply useless_harmless; try done. intros pb. apply Hs. Qed.
Lemma runs_settled c ins last st0 st : mp_new c last = Ok st0 → error_free c ins st0 st → settled st.
Proof.
  intros Hn Hr. eapply (error_free_settled c ins st0 st); [by eapply new_base| |done].
  unfold mp_new in Hn. case_bool_decide; [|done]. simplify_eq. intros h pb. cbn. by rewrite lookup_empty.
Qed.

(** * Counterexamples *)
Lemma run_emits c ms h :
  match run_new c ms with
  | Ok st => match first_batch (mp_out st) with Some pb => bool_decide (pb_hash pb = h) | None => false end
  | _ => false
  end = true → ∃ st pb, run_new c ms = Ok st ∧ emitted_batch st h pb.
Proof.
  destruct (run_new c ms) as [st| |]; try done. destruct (first_batch (mp_out st)) as [pb|] eqn:E; [|done].
  intros H%bool_decide_eq_true. exists st, pb. split; [done|]. split; [by apply first_batch_elem|done].
Qed.
Lemma empty_values_refuted : ∃ mt b c ins st pb kd,
  consumer_run c ins st ∧ Forall input_ok ins ∧ Forall (copy_of mt b) (messages ins) ∧
  emitted_batch st (ba_hash (bk_args b)) pb ∧ needed mt b (mc_tracked c) kd ∧ ¬ delivered (messages ins) kd.
Proof.
  destruct (run_emits ex_all ex2_deliveries 1%N) as (st & pb & Hr & He); [by vm_compute|].
  exists ex_mt, ex2_block, ex_all, (ex_inputs ex2_deliveries), st, pb, (KUpdate 1 (str "s/b"%string)).
  split; [by apply run_new_run|]. split; [apply ex_inputs_ok|]. rewrite ex_messages. split; [exact ex2_copies|].
  split; [exact He|]. split.
  - apply (NUpdate ex_mt ex2_block (λ _, true) (str "s/b"%string) (str "s/"%string)); [|done|done]. by apply elem_of_dom; eexists.
  - intros (m & Hm & Hk). unfold ex2_deliveries in Hm. rewrite !elem_of_cons in Hm.
    destruct Hm as [->|[->|[->|Hm]]]; [discriminate Hk..|]. by apply elem_of_nil in Hm.
Qed.

Definition ex_bad : msg := ex_msg 3 (KSubHead 1 9) [].
Definition ex_few : list msg := [ex_m_header 0; ex_m_update 1; ex_m_delete 2; ex_m_update 4].
Lemma malformed_refuted : ∃ mt b c ms bad st pb kd,
  wf_block mt b ∧ Forall (copy_of mt b) ms ∧ m_key bad = key_of (KSubHead (ba_hash (bk_args b)) 9) ∧ decode_int (m_val bad) = None ∧
  run_new c (take 3 ms ++ bad :: drop 3 ms) = Ok st ∧ emitted_batch st (ba_hash (bk_args b)) pb ∧
  needed mt b (mc_tracked c) kd ∧ ¬ delivered ms kd.
Proof.
  destruct (run_emits ex_all (take 3 ex_few ++ ex_bad :: drop 3 ex_few) 1%N) as (st & pb & Hr & He); [by vm_compute|].
  exists ex_mt, ex_block, ex_all, ex_few, ex_bad, st, pb, (KSubMsg 1 9 0).
  split; [exact ex_wf|]. split.
  { unfold ex_few. rewrite !Forall_cons.
    pose proof (ex_copies 0) as H0. pose proof (ex_copies 1) as H1. pose proof (ex_copies 2) as H2. pose proof (ex_copies 4) as H4.
    rewrite !Forall_cons in H0, H1, H2, H4. split; [apply H0|]. split; [apply H1|]. split; [apply H2|]. split; [apply H4|]. by apply Forall_nil. }
  split; [done|]. split; [done|]. split; [done|]. split; [done|]. split.
  - apply (NSubMsg ex_mt ex_block (λ _, true) 9 0); [|vm_compute; lia].
    exists (str "x/"%string). split; [vm_compute; reflexivity|reflexivity].
  - intros (m & Hm & Hk). unfold ex_few in Hm. rewrite !elem_of_cons in Hm.
    destruct Hm as [->|[->|[->|[->|Hm]]]]; [discriminate Hk..|]. by apply elem_of_nil in Hm.
Qed.
