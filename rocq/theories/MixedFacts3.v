(** C72: one consumer with Kafka and websocket upstreams. *)
From Verif Require Import Base Lru LruFacts Types Avro Wire SpecWire GoPath Producer SpecBlock Consumer SpecCollect CollectFacts CollectFacts2 SpecToken
  Websocket SpecWebsocket WebsocketFacts WebsocketFacts2 WebsocketFacts3 WebsocketFacts4
  Ordering SpecChain OrderingBase OrderingFacts OrderingPanic System SpecSystem SystemFacts SystemFacts2 WsSystem SpecWsSystem WsSystemFacts WsSystemFacts2
  MixedSystem SpecMixed MixedFacts MixedFacts2.

Record xcore (c : mp_config) (cfg : config) (evs : list wevent) (y : xsys) : Prop := XC {
  xc_mp : mixed_run c (x_calls y) (x_mp y);
  xc_ins : Forall input_ok (inputs_of (x_calls y));
  xc_omp : ∃ s0, new_omp cfg = Ok s0 ∧ omp_run s0 (x_seen y) = Ok (x_omp y);
  xc_ord : orders_ok (x_seen y);
  xc_con : consumed (x_taken y) (mp_out (x_mp y));
  xc_req : ∀ n, requested (inputs_of (x_calls y)) n → EvEvict n ∈ o_out (x_omp y);
  xc_whole : ∀ pb, pb ∈ wholes (x_calls y) ↔ WComplete pb ∈ evs;
  xc_seen : (∀ n h, WReorg n h ∉ evs) → x_seen y = x_taken y
}.
Lemma mixed_snoc c xs st x st' : mixed_run c xs st → call_step c st x = Ok st' → mixed_run c (xs ++ [x]) st'.
Proof.
  intros (last & st0 & Hn & Hr) Hs. exists last, st0. split; [done|].
  unfold calls_run in *. rewrite foldM_app, Hr. cbn [mbind outcome_bind foldM]. by rewrite Hs.
Qed.
Lemma xcore_event c cfg evs y ev : xcore c cfg evs y → xcore c cfg (evs ++ [ev]) (x_event y ev).
Proof.
  intros [H1 H2 (s0 & H3 & H3') H4 H5 H6 H7 H8]. destruct ev as [|n h|pb]; cbn [x_event].
  - split; try done; [eauto| |].
    + intros pb. rewrite H7, elem_of_app, elem_of_list_singleton. split; [by left|]. intros [?|?]; [done|discriminate].
    + intros Hn. apply H8. intros n h Hin. apply (Hn n h), elem_of_app. by left.
  - split; cbn; try done.
    + exists s0. split; [done|]. eapply omp_run_app; [exact H3'|reflexivity].
    + apply Forall_app. split; [done|]. apply Forall_singleton. exact id_order_ok.
    + intros m Hm. assert (Hr : omp_run (x_omp y) [(id_order, InReorg n h)] = Ok (handle_reorg (x_omp y) n h)) by reflexivity.
      eapply elem_of_prefix; [by apply H6|apply (run_grows _ _ _ Hr)].
    + intros pb. rewrite H7, elem_of_app, elem_of_list_singleton. split; [by left|]. intros [?|?]; [done|discriminate].
    + intros Hn. exfalso. apply (Hn n h), elem_of_app. right. by apply elem_of_list_singleton.
  - assert (Hs : call_step c (x_mp y) (CWhole pb) = Ok (process_complete (x_mp y) pb)) by done.
    split; cbn; rewrite ?inputs_app, ?app_nil_r; cbn; rewrite ?app_nil_r; try done.
    + by eapply mixed_snoc.
    + eauto.
    + eapply consumed_mono; [|exact H5]. eapply call_out; [by eapply mixed_base|exact Hs].
    + intros pb'. rewrite wholes_app, elem_of_app, H7, elem_of_app. cbn. rewrite !elem_of_list_singleton. split; (intros [?|?]; [by left|right]; congruence).
    + intros Hn. apply H8. intros n h Hin. apply (Hn n h), elem_of_app. by left.
Qed.
Lemma xcore_events c cfg es : ∀ evs y, xcore c cfg evs y → xcore c cfg (evs ++ es) (foldl x_event y es).
Proof.
  induction es as [|ev es IH]; intros evs y H; [by rewrite app_nil_r|]. cbn [foldl].
  replace (evs ++ ev :: es) with ((evs ++ [ev]) ++ es) by (by rewrite <- app_assoc). by apply IH, xcore_event.
Qed.
Lemma x_events_conns es : ∀ y, x_conns (foldl x_event y es) = x_conns y.
Proof. induction es as [|ev es IH]; intros y; [done|]. cbn. rewrite IH. by destruct ev. Qed.

Record x_inv (c : mp_config) (cfg : config) (y : xsys) : Prop := XI {
  xi_conns : Forall (conn_inv cfg) (x_conns y);
  xi_core : ∃ evs, xcore c cfg evs y ∧ ∀ ev, ev ∈ evs ↔ ∃ k, k ∈ x_conns y ∧ ev ∈ c_out (k_c k)
}.
Lemma x_inv_start c cfg y : x_start c cfg y → x_inv c cfg y.
Proof.
  destruct y as [ks st s cs l l']. intros (H1 & H2 & H3 & H4 & H5 & H6 & H7). cbn in *. subst cs l l'.
  split; cbn.
  - eapply Forall_impl; [exact H4|]. intros k ->. apply conn_inv_new.
  - exists []. split.
    + split; cbn; try done.
      * exists (cfg_last_num cfg), st. done.
      * eauto.
      * constructor.
      * split; apply prefix_nil.
      * intros n [H%elem_of_nil|(m & e & k & H%elem_of_nil & _)]; done.
      * intros pb. by rewrite !elem_of_nil.
    + intros ev. split; [by intros ?%elem_of_nil|]. intros (k & Hk & Hev).
      eapply Forall_forall in H4; [|exact Hk]. subst k. by apply elem_of_nil in Hev.
Qed.
Lemma x_inv_step c cfg y y' : x_inv c cfg y → x_step c y y' → x_inv c cfg y'.
Proof.
  intros Hi Hs. destruct Hs as [ks st s cs l l' i k Hk|ks st s cs l l' i k o f Hk Ho
    |ks st s cs l l' m e st' err lx s' He Hp Ho Hr Hc Hq|ks st s cs l l' n Hn|ks st s cs l l' i s' Ho Hs Hc];
    destruct Hi as [H1 (evs & H2 & H3)]; cbn [x_conns x_mp x_omp x_taken] in *.
  - assert (Hki : conn_inv cfg k) by (eapply Forall_lookup_1; [exact H1|exact Hk]).
    split; cbn; [apply Forall_update; [done|by apply conn_inv_again]|]. exists evs. split; [by destruct H2|].
    intros ev. rewrite H3. split.
    + intros (x & Hx & Hev). destruct (elem_of_update_old _ _ _ (conn_again k) _ Hk Hx) as [->|Hx'].
      * exists (conn_again k). split; [by eapply elem_of_update_new|done].
      * exists x. split; [exact Hx'|done].
    + intros (x & Hx & Hev). destruct (elem_of_update _ _ _ _ _ Hk Hx) as [->|Hx'].
      * exists k. split; [by eapply elem_of_list_lookup_2|done].
      * by exists x.
  - assert (Hki : conn_inv cfg k) by (eapply Forall_lookup_1; [exact H1|exact Hk]).
    assert (Hki' := conn_inv_frame cfg o k f Ho Hki). assert (Ha := conn_events_app o k f).
    set (k' := conn_frame o k f) in *. set (es := conn_events k k') in *.
    split; [rewrite x_events_conns; cbn; by apply Forall_update|]. exists (evs ++ es). split; [apply xcore_events; by destruct H2|].
    rewrite x_events_conns. cbn. intros ev. rewrite elem_of_app, H3. split.
    + intros [(x & Hx & Hev)|Hev].
      * destruct (elem_of_update_old _ _ _ k' _ Hk Hx) as [->|Hx'].
        -- exists k'. split; [by eapply elem_of_update_new|]. rewrite Ha. apply elem_of_app. by left.
        -- exists x. split; [exact Hx'|done].
      * exists k'. split; [by eapply elem_of_update_new|]. rewrite Ha. apply elem_of_app. by right.
    + intros (x & Hx & Hev). destruct (elem_of_update _ _ _ _ _ Hk Hx) as [->|Hx'].
      * rewrite Ha in Hev. apply elem_of_app in Hev as [Hev|Hev]; [left|by right].
        exists k. split; [by eapply elem_of_list_lookup_2|done].
      * left. by exists x.
  - split; cbn; [done|]. exists evs. split; [|done]. destruct H2 as [G1 G2 (s0 & G3 & G3') G4 G5 G6 G7 G8]; cbn in *.
    assert (Hst : call_step c st (CIn (IMsg m e)) = Ok st') by (cbn; by rewrite Hp).
    split; cbn; rewrite ?inputs_app, ?wholes_app; cbn; rewrite ?app_nil_r; try done.
    + by eapply mixed_snoc.
    + apply Forall_app. split; [done|by apply Forall_singleton].
    + exists s0. split; [done|]. by eapply omp_run_app.
    + by apply Forall_app.
    + assert (Hg := run_grows _ _ _ Hr).
      intros n [Hn|[Hn|(m' & e' & k & [= <- <-] & Hn)]]%requested_snoc; [|done|by eapply Hq].
      eapply elem_of_prefix; [by apply G6|exact Hg].
    + intros Hn. by rewrite (G8 Hn).
  - split; cbn; [done|]. exists evs. split; [|done]. destruct H2 as [G1 G2 (s0 & G3 & G3') G4 G5 G6 G7 G8]; cbn in *.
    assert (Hst : call_step c st (CIn (IEvict n)) = Ok (evict_older_than st n)) by done.
    split; cbn; rewrite ?inputs_app, ?wholes_app; cbn; rewrite ?app_nil_r; try done.
    + by eapply mixed_snoc.
    + apply Forall_app. split; [done|by apply Forall_singleton].
    + eauto.
    + eapply consumed_mono; [|exact G5]. eapply call_out; [by eapply mixed_base|exact Hst].
    + intros n' [Hn'|[[= <-]|(m' & e' & k & [=] & _)]]%requested_snoc; [by apply G6|done].
  - split; cbn; [done|]. exists evs. split; [|done]. destruct H2 as [G1 G2 (s0 & G3 & G3') G4 G5 G6 G7 G8]; cbn in *.
    assert (Hr : omp_run s [i] = Ok s') by (unfold omp_run; cbn; by rewrite Hs).
    split; cbn; try done.
    + exists s0. split; [done|]. by eapply omp_run_app.
    + apply Forall_app; split; [done|by apply Forall_singleton].
    + intros n Hn. eapply elem_of_prefix; [by apply G6|]. apply (run_grows _ _ _ Hr).
    + intros Hn. by rewrite (G8 Hn).
Qed.
Lemma x_run_inv c cfg y : x_run c cfg y → x_inv c cfg y.
Proof.
  intros (y0 & H0 & Hr). apply x_inv_start in H0. revert H0. induction Hr as [|x y z Hxy _ IH]; [done|].
  intros Hx. apply IH. by eapply x_inv_step.
Qed.

Section mixed.
  Context (mt : bytes → option bytes) (base : hash) (num : Z) (w : N) (old new : list block) (c : mp_config) (cfg : config)
    (css : list (list wcall)).
  Let bs := old ++ new.
  Context (Hc : chain_from base num w bs) (Hnd : NoDup (base :: map bk_hash bs)) (Hwf : ∀ b, b ∈ bs → wf_block mt b)
    (Hl : cfg_last_hash cfg = end_hash base old) (Hw : cfg_last_weight cfg = end_weight w old)
    (Hz : cfg_last_hash cfg ≠ zero_hash)
    (Hwl : ∀ b, b ∈ bs → (0 ≤ ba_num (bk_args b))%Z ∧
       ∀ h, cfg_whitelist cfg !! ba_num (bk_args b) = Some h → h = bk_hash b)
    (Hcss : ∀ cs, cs ∈ css → publishes (map bk_args bs) cs).
  Context (y : xsys) (Hrun : x_run c cfg y).
  Context (Hms : only_from mt bs (messages (inputs_of (x_calls y))))
    (Hk : ∀ k, k ∈ x_conns y → ∃ cs rest, cs ∈ css ∧ delivers cs k rest).
  Let R (b : block) (pb : pending_batch) : Prop := exact mt b (mc_tracked c) pb ∨ ∃ cs, cs ∈ css ∧ submitted cs (bk_args b) pb.

  Lemma R_headed b pb : R b pb → headed b pb.
  Proof. intros [H|(cs & _ & [H1 H2 H3 H4 _ _ _])]; [by eapply exact_headed|done]. Qed.
  Lemma x_whole pb : pb ∈ wholes (x_calls y) → ∃ i b cs, bs !! i = Some b ∧ cs ∈ css ∧ submitted cs (bk_args b) pb.
  Proof.
    intros Hpb. destruct (x_run_inv _ _ _ Hrun) as [X1 (evs & X2 & X3)].
    apply (xc_whole _ _ _ _ X2), X3 in Hpb as (k & Hin & Hpb).
    destruct (Hk k Hin) as (cs & rest & Hcs & Hd). destruct (Hcss cs Hcs) as [P1 P2 P3 P4].
    assert (Hci : conn_inv cfg k) by (eapply Forall_forall in X1; [exact X1|exact Hin]). destruct Hci as [C1 C2].
    assert (Hpb' : pb ∈ blocks_out (sessions0 cfg (life k))) by (apply elem_completes; by rewrite <- C1).
    destruct (delivers_from cs P1 P2 cfg k rest pb C2 Hd Hpb') as (a & [Ha _] & Hsub).
    apply P4, elem_of_list_fmap in Ha as (b & -> & Hb). apply elem_of_list_lookup in Hb as [i Hi]. by exists i, b, cs.
  Qed.
  Lemma x_noreorg (evs : list wevent) n h : (∀ ev, ev ∈ evs ↔ ∃ k, k ∈ x_conns y ∧ ev ∈ c_out (k_c k)) → WReorg n h ∉ evs.
  Proof.
    intros X3 Hin. destruct (x_run_inv _ _ _ Hrun) as [X1 _]. apply X3 in Hin as (k & Hin & Hev).
    destruct (Hk k Hin) as (cs & rest & Hcs & Hd). destruct (Hcss cs Hcs) as [P1 P2 P3 P4].
    assert (Hci : conn_inv cfg k) by (eapply Forall_forall in X1; [exact X1|exact Hin]). destruct Hci as [C1 C2].
    rewrite C1 in Hev. apply reorg_sessions in Hev as (ds & Hds & Hit).
    exact (delivers_quiet cs k rest P3 Hd ds n h Hds Hit).
  Qed.
  Lemma x_emitted pb : pb ∈ sent_batches (mp_out (x_mp y)) → ∃ i b, bs !! i = Some b ∧ R b pb.
  Proof.
    intros Hpb%elem_of_sent. destruct (x_run_inv _ _ _ Hrun) as [X1 (evs & X2 & X3)].
    assert (Hwhole : (∃ pb0, pb0 ∈ wholes (x_calls y) ∧ as_given pb pb0) → ∃ i b, bs !! i = Some b ∧ R b pb).
    { intros (pb0 & H0 & Hg). destruct (x_whole pb0 H0) as (i & b & cs & Hi & Hcs & Hsub). exists i, b. split; [done|]. right. exists cs.
      split; [done|]. by eapply submitted_same. }
    destruct (mixed_about _ _ _ (xc_mp _ _ _ _ X2) pb Hpb) as [(m & Hm & Eh)|?]; [|by apply Hwhole].
    destruct (Hms m Hm) as (Hlen & _ & b & Hb & Hab & _). apply about_hash in Hab; [|apply (wf_hash _ _ (Hwf b Hb))].
    destruct (proj1 (elem_of_list_lookup _ _) Hb) as [i Hi].
    destruct (mixed_coll mt b c (Hwf b Hb) _ _ (xc_mp _ _ _ _ X2) (xc_ins _ _ _ _ X2)) as [_ Hx].
    { by eapply from_faithful. }
    destruct (Hx pb Hpb) as [?|?]; [unfold bk_hash in Hab; congruence| |by apply Hwhole]. exists i, b. split; [done|by left].
  Qed.
  Lemma x_taken_chain l s0 : new_omp cfg = Ok s0 → orders_ok l → consumed l (mp_out (x_mp y)) →
    ∃ s k, omp_run s0 l = Ok s ∧ Forall2 R (take k new) (all_added (o_out s)) ∧
      all_removed (o_out s) = [] ∧ k ≤ length new ∧
      (∀ b, new !! k = Some b → bk_hash b ∉ map pb_hash (batches_of l)) ∧
      (∀ b n, new !! k = Some b → EvEvict n ∈ o_out s → (n ≤ ba_num (bk_args b))%Z).
  Proof.
    intros H0 Hord [Hcb Hcr]. destruct (x_run_inv _ _ _ Hrun) as [X1 (evs & X2 & X3)].
    apply (taken_chain base num w old new cfg R); try done.
    - exact R_headed.
    - intros b Hb. apply (wf_num _ _ (Hwf b Hb)).
    - rewrite (mixed_quiet c (x_calls y)) in Hcr; [|apply X2|intros m Hm; by apply Hms]. apply prefix_nil_inv in Hcr.
      unfold no_reorgs, reorgs_of. unfold taken_reorgs in Hcr.
      clear -Hcr. induction l as [|[o [pb|n h]] l IH]; cbn in *; [done|by apply IH|done].
    - intros pb Hpb. apply x_emitted. by eapply elem_of_prefix.
  Qed.
  Lemma mixed_end_to_end :
    all_removed (o_out (x_omp y)) = [] ∧
    (∃ n, Forall2 R (take n new) (all_added (o_out (x_omp y)))) ∧
    ((∀ b, b ∈ new → (∀ kd, needed mt b (mc_tracked c) kd → delivered (messages (inputs_of (x_calls y))) kd) ∨
        ∃ k cs, k ∈ x_conns y ∧ cs ∈ css ∧ delivers cs k [] ∧ all_answered cs (bk_args b)) →
     batches_of (x_taken y) = sent_batches (mp_out (x_mp y)) →
     Forall2 R new (all_added (o_out (x_omp y)))).
  Proof.
    destruct (x_run_inv _ _ _ Hrun) as [X1 (evs & X2 & X3)]. destruct (xc_omp _ _ _ _ X2) as (s0 & H0 & Hr).
    assert (Hsame := xc_seen _ _ _ _ X2 (λ n h, x_noreorg evs n h X3)). assert (Ho := xc_ord _ _ _ _ X2). rewrite Hsame in Hr, Ho.
    destruct (x_taken_chain (x_taken y) s0 H0 Ho (xc_con _ _ _ _ X2)) as (s & k & A1 & A2 & A3 & A4 & A5 & A6).
    assert (s = x_omp y) as -> by congruence.
    split; [done|]. split; [by exists k|]. intros Hall Hdone.
    destruct (new !! k) as [b|] eqn:Hb.
    2: { apply lookup_ge_None in Hb. rewrite take_ge in A2 by done. done. }
    exfalso. assert (Hin : b ∈ new) by (by eapply elem_of_list_lookup_2).
    assert (Hin' : b ∈ bs) by (apply elem_of_app; by right).
    assert (∃ pb, emitted_batch (x_mp y) (bk_hash b) pb) as (pb & Hpb & Eh).
    { destruct (Hall b Hin) as [Hkd|(kk & cs & Hkk & Hcs & Hd & Haa)].
      - eapply (mixed_completes mt b c (Hwf b Hin')); [apply X2|apply X2|by eapply from_faithful| |done].
        intros n Hn. eapply A6; [done|]. by apply (xc_req _ _ _ _ X2).
      - destruct (Hcss cs Hcs) as [P1 P2 P3 P4].
        assert (Hci : conn_inv cfg kk) by (eapply Forall_forall in X1; [exact X1|exact Hkk]). destruct Hci as [C1 C2].
        destruct (delivers_all cs P1 P2 cfg kk (bk_args b) C2 Hd Haa) as (pb0 & Hpb0 & Hsub).
        apply elem_completes in Hpb0. rewrite <- C1 in Hpb0.
        destruct (mixed_sent _ _ _ (xc_mp _ _ _ _ X2) pb0) as (pb & Hpb & Hg).
        { apply (xc_whole _ _ _ _ X2), X3. by exists kk. }
        exists pb. split; [done|]. destruct Hg as (_ & _ & _ & E4 & _). rewrite E4. destruct Hsub as [S1 S2 S3 S4 _ _ _]. done. }
    apply (A5 b eq_refl). apply elem_of_list_fmap. exists pb. split; [done|]. rewrite Hdone. by apply elem_of_sent.
  Qed.
  Lemma mixed_live m e i :
    (only_from mt bs [m] → menv_ok e → ∃ r, process c e (x_mp y) m = Ok r) ∧
    (order_ok i.1 → consumed (x_taken y ++ [i]) (mp_out (x_mp y)) → ∃ s', omp_step (x_omp y) i = Ok s').
  Proof.
    destruct (x_run_inv _ _ _ Hrun) as [X1 (evs & X2 & X3)]. split.
    - intros Hm He. destruct (Hm m) as (Hlen & _ & b & Hb & Hab & Hcf); [by apply elem_of_list_singleton|].
      eapply (mixed_total mt b c (Hwf b Hb)); [apply X2|apply X2|by eapply from_faithful|done|done|exact Hab].
    - intros Ho Hcons. destruct (xc_omp _ _ _ _ X2) as (s0 & H0 & Hr).
      assert (Hsame := xc_seen _ _ _ _ X2 (λ n h, x_noreorg evs n h X3)). assert (Ho' := xc_ord _ _ _ _ X2). rewrite Hsame in Hr, Ho'.
      destruct (x_taken_chain (x_taken y ++ [i]) s0 H0) as (s & k & A1 & _); try done.
      + apply Forall_app. split; [done|by apply Forall_singleton].
      + unfold omp_run in A1, Hr. rewrite foldM_app, Hr in A1. cbn in A1. destruct (omp_step (x_omp y) i) as [s'| |]; try discriminate. eauto.
  Qed.
End mixed.
