(** C57: the theorems. *)
From Verif Require Import Base Lru LruFacts Types Avro Wire GoPath Producer SpecBlock Consumer SpecToken
  Websocket SpecWebsocket WebsocketFacts WebsocketFacts2 WebsocketFacts3 WebsocketFacts4 WebsocketFacts5
  Ordering SpecChain OrderingBase OrderingFacts OrderingPanic System SpecSystem SystemFacts SystemFacts2 WsSystem SpecWsSystem WsSystemFacts.

(** * Chains of headers as chains of blocks *)
Definition blk (x : hdr) : block := Block (BA (hd_num x) (hd_hash x) (hd_parent x) (hd_weight x) ∅ ∅ ∅) (λ _, []).
Lemma linked_chain l : ∀ p n w, linked p n w l → chain_from p n w (map blk l).
Proof. induction l as [|x l IH]; intros p n w; [done|]. intros (H1 & H2 & H3 & H4 & H5). cbn. split_and!; try done. by apply IH. Qed.
Lemma map_blk_hash l : map bk_hash (map blk l) = map hd_hash l.
Proof. rewrite map_map. done. Qed.
Lemma end_hash_blk base l : end_hash base (map blk l) = last_hash base l.
Proof. unfold end_hash, last_hash. change (map blk l) with (blk <$> l). rewrite fmap_last. by destruct (last l). Qed.
Lemma end_weight_blk w l : end_weight w (map blk l) = last_weight w l.
Proof. unfold end_weight, last_weight. change (map blk l) with (blk <$> l). rewrite fmap_last. by destruct (last l). Qed.

Definition heads (x : hdr) (pb : pending_batch) : Prop :=
  pb_num pb = hd_num x ∧ pb_weight pb = hd_weight x ∧ pb_parent pb = hd_parent x ∧ pb_hash pb = hd_hash x.

Section ordered.
  Context {X : Type} (hd : X → hdr) (R : X → pending_batch → Prop) (HR : ∀ x pb, R x pb → heads (hd x) pb).
  Context (cfg : config) (base : hash) (num : Z) (w : N) (old new : list X).
  Context (Hs : started cfg base num w (map hd old) (map hd new)).

  Let R' (b : block) (pb : pending_batch) : Prop := ∃ x, x ∈ old ++ new ∧ b = blk (hd x) ∧ R x pb.

  Lemma hd_inj x x' : x ∈ old ++ new → x' ∈ old ++ new → hd_hash (hd x) = hd_hash (hd x') → x = x'.
  Proof.
    intros [i Hi]%elem_of_list_lookup [j Hj]%elem_of_list_lookup E.
    assert (Hnd := sd_nodup _ _ _ _ _ _ Hs). apply NoDup_cons in Hnd as [_ Hnd]. rewrite <- map_app, map_map in Hnd.
    assert (i = j) as ->; [|congruence].
    eapply NoDup_lookup; [exact Hnd| |]; rewrite map_at; [by rewrite Hi|]. rewrite Hj. cbn. by rewrite E.
  Qed.

  Lemma ordered_chain l s0 : new_omp cfg = Ok s0 → orders_ok l → no_reorgs l →
    (∀ pb, pb ∈ batches_of l → ∃ x, x ∈ old ++ new ∧ R x pb) →
    ∃ s k, omp_run s0 l = Ok s ∧ Forall2 R (take k new) (all_added (o_out s)) ∧
      all_removed (o_out s) = [] ∧ k ≤ length new ∧
      (∀ x, new !! k = Some x → hd_hash (hd x) ∉ map pb_hash (batches_of l)).
  Proof.
    intros H0 Hord Hnr Hfrom. destruct Hs as [D1 D2 D3 D4 D5 D6]. rewrite <- map_app in *.
    destruct (taken_chain base num w (map (λ x, blk (hd x)) old) (map (λ x, blk (hd x)) new) cfg R') with (l := l) (s0 := s0)
      as (s & k & A1 & A2 & A3 & A4 & A5 & _); try done.
    - intros b pb (x & _ & -> & H%HR). exact H.
    - rewrite <- map_app. apply linked_chain in D1. by rewrite map_map in D1.
    - rewrite <- map_app, map_map. rewrite map_map in D2. exact D2.
    - intros b. rewrite <- map_app. intros (x & -> & Hx)%elem_of_list_fmap. cbn.
      destruct (D6 (hd x)) as [H _]; [by apply elem_of_list_fmap_1|]. unfold in_int64. lia.
    - rewrite D3, <- end_hash_blk, map_map. done.
    - rewrite D4, <- end_weight_blk, map_map. done.
    - intros b. rewrite <- map_app. intros (x & -> & Hx)%elem_of_list_fmap. cbn.
      destruct (D6 (hd x)) as [H H']; [by apply elem_of_list_fmap_1|]. split; [lia|exact H'].
    - intros pb Hpb. destruct (Hfrom pb Hpb) as (x & Hx & HRx). rewrite <- map_app.
      destruct (proj1 (elem_of_list_lookup _ _) Hx) as [i Hi]. exists i, (blk (hd x)). split; [by rewrite map_at, Hi|]. by exists x.
    - exists s, k. split; [done|]. rewrite map_length in A4. split; [|split; [done|split; [done|]]].
      + apply Forall2_same_length_lookup_2.
        * apply Forall2_length in A2. rewrite take_length, map_length in A2. by rewrite take_length.
        * intros j x pb Hx Hpb. eapply Forall2_lookup_r in A2 as (b & Hb & x' & Hx' & -> & HRx); [|exact Hpb].
          assert (Hj : j < k). { apply lookup_lt_Some in Hx. rewrite take_length in Hx. lia. }
          rewrite lookup_take in Hx by done. rewrite lookup_take in Hb by done. rewrite map_at, Hx in Hb. injection Hb as _ Hh _ _.
          assert (x = x') as ->; [|done]. apply hd_inj; [apply elem_of_app; right; by eapply elem_of_list_lookup_2|done|done].
      + intros x Hx. specialize (A5 (blk (hd x))). rewrite map_at, Hx in A5. by apply A5.
  Qed.
End ordered.

(** * What was sent came from the connections *)
Lemma Forall2_in_l {A B} (R : A → B → Prop) l l' x : Forall2 R l l' → x ∈ l → ∃ y, y ∈ l' ∧ R x y.
Proof.
  intros H Hx. apply elem_of_list_lookup in Hx as [i Hi]. eapply Forall2_lookup_l in H as (y & Hy & HR); [|exact Hi].
  exists y. split; [by eapply elem_of_list_lookup_2|done].
Qed.
Lemma Forall2_in_r {A B} (R : A → B → Prop) l l' y : Forall2 R l l' → y ∈ l' → ∃ x, x ∈ l ∧ R x y.
Proof.
  intros H Hx. apply elem_of_list_lookup in Hx as [i Hi]. eapply Forall2_lookup_r in H as (x & Hy & HR); [|exact Hi].
  exists x. split; [by eapply elem_of_list_lookup_2|done].
Qed.
Lemma elem_completes l pb : pb ∈ completes_of l ↔ WComplete pb ∈ l.
Proof.
  unfold completes_of. rewrite elem_of_list_omap. split.
  - intros ([| |] & H & [= <-]). done.
  - intros H. by exists (WComplete pb).
Qed.

Record ws_view (cfg : config) (y : wsys) : Prop := WV {
  wv_omp : ∃ s0, new_omp cfg = Ok s0 ∧ omp_run s0 (w_taken y) = Ok (w_omp y);
  wv_ord : orders_ok (w_taken y);
  wv_prefix : batches_of (w_taken y) `prefix_of` sent_batches (mp_out (w_mp y));
  wv_from : ∀ pb, pb ∈ sent_batches (mp_out (w_mp y)) → ∃ k pb0, k ∈ w_conns y ∧ pb0 ∈ blocks_out (sessions0 cfg (life k)) ∧ same_data pb pb0;
  wv_quiet : (∀ k, k ∈ w_conns y → no_reorg_item k) → no_reorgs (w_taken y);
  wv_conn : ∀ k, k ∈ w_conns y → Forall SpecWebsocket.orders_ok (life k) ∧ k_c k = sessions0 cfg (life k)
}.
(** Every block completed by a connection was handed over. *)
Definition all_sent (cfg : config) (y : wsys) : Prop :=
  ∀ k pb0, k ∈ w_conns y → pb0 ∈ blocks_out (sessions0 cfg (life k)) → ∃ pb, pb ∈ sent_batches (mp_out (w_mp y)) ∧ same_data pb pb0.
Lemma ws_run_sent c cfg y : ws_run c cfg y → all_sent cfg y.
Proof.
  intros Hr%ws_run_inv. destruct Hr as [H1 (evs & [G1 G2 G3 G4 G5 G6 G7] & H3)].
  assert (Hk : ∀ k, k ∈ w_conns y → conn_inv cfg k) by (by apply Forall_forall).
  intros k pb0 Hin Hpb0. apply elem_completes in Hpb0. rewrite <- (ci_c _ _ (Hk k Hin)) in Hpb0.
  assert (Hev : WComplete pb0 ∈ evs) by (apply H3; by exists k). apply elem_completes in Hev.
  by apply (Forall2_in_r _ _ _ _ G4).
Qed.
Lemma ws_run_view c cfg y : ws_run c cfg y → ws_view cfg y.
Proof.
  intros Hr%ws_run_inv. destruct Hr as [H1 (evs & [G1 G2 G3 G4 G5 G6 G7] & H3)].
  assert (Hk : ∀ k, k ∈ w_conns y → conn_inv cfg k) by (by apply Forall_forall).
  split; try done.
  - intros pb Hpb. destruct (Forall2_in_l _ _ _ _ G4 Hpb) as (pb0 & Hpb0%elem_completes & Hsd).
    apply H3 in Hpb0 as (k & Hin & Hev). exists k, pb0. split; [done|]. split; [|done].
    apply elem_completes. by rewrite <- (ci_c _ _ (Hk k Hin)).
  - intros Hq. unfold no_reorgs, reorgs_of.
    assert (Hno : ∀ o n h, (o, InReorg n h) ∉ w_taken y).
    { intros o n h Hin. apply G5, H3 in Hin as (k & Hin & Hev). rewrite (ci_c _ _ (Hk k Hin)) in Hev.
      apply reorg_sessions in Hev as (ds & Hds & Hit). by apply (Hq k Hin ds n h). }
    clear -Hno. induction (w_taken y) as [|[o [pb|n h]] l IH]; [done| |].
    + cbn. apply IH. intros o' n h Hin. apply (Hno o' n h). by apply elem_of_list_further.
    + exfalso. apply (Hno o n h), elem_of_list_here.
  - intros k Hin. destruct (Hk k Hin). done.
Qed.

(** * Any number of connections that hand over blocks of a chain *)
Section chain.
  Context {X : Type} (hd : X → hdr) (R : X → pending_batch → Prop) (HR : ∀ x pb, R x pb → heads (hd x) pb).
  Context (HS : ∀ x pb pb0, same_data pb pb0 → R x pb0 → R x pb).
  Context (cfg : config) (base : hash) (num : Z) (w : N) (old new : list X).
  Context (Hs : started cfg base num w (map hd old) (map hd new)).
  Context (y : wsys) (Hv : ws_view cfg y).
  Context (Hq : ∀ k, k ∈ w_conns y → no_reorg_item k).
  Context (Hfrom : ∀ k pb, k ∈ w_conns y → pb ∈ blocks_out (sessions0 cfg (life k)) → ∃ x, x ∈ old ++ new ∧ R x pb).

  Lemma ws_chain_taken l s0 : new_omp cfg = Ok s0 → orders_ok l → no_reorgs l →
    batches_of l `prefix_of` sent_batches (mp_out (w_mp y)) →
    ∃ s k, omp_run s0 l = Ok s ∧ Forall2 R (take k new) (all_added (o_out s)) ∧
      all_removed (o_out s) = [] ∧ k ≤ length new ∧
      (∀ x, new !! k = Some x → hd_hash (hd x) ∉ map pb_hash (batches_of l)).
  Proof.
    intros H0 Ho Hnr Hp.
    apply (ordered_chain hd R HR cfg base num w old new Hs l s0 H0 Ho Hnr).
    intros pb Hpb. apply (elem_of_prefix _ _ _ Hpb) in Hp. destruct (wv_from _ _ Hv pb Hp) as (k & pb0 & Hk & Hpb0 & Hsd).
    destruct (Hfrom k pb0 Hk Hpb0) as (x & Hx & HRx). exists x. split; [done|]. by eapply HS.
  Qed.

  Lemma ws_chain :
    all_removed (o_out (w_omp y)) = [] ∧
    (∃ k, Forall2 R (take k new) (all_added (o_out (w_omp y)))) ∧
    (all_sent cfg y → ∀ n, (∀ x, x ∈ take n new → ∃ k pb, k ∈ w_conns y ∧ pb ∈ blocks_out (sessions0 cfg (life k)) ∧ R x pb) →
     batches_of (w_taken y) = sent_batches (mp_out (w_mp y)) →
     ∃ k, n `min` length new ≤ k ∧ Forall2 R (take k new) (all_added (o_out (w_omp y)))).
  Proof.
    destruct (wv_omp _ _ Hv) as (s0 & H0 & Hr).
    destruct (ws_chain_taken (w_taken y) s0 H0 (wv_ord _ _ Hv) (wv_quiet _ _ Hv Hq) (wv_prefix _ _ Hv))
      as (s & k & A1 & A2 & A3 & A4 & A5).
    assert (s = w_omp y) as -> by congruence. split; [done|]. split; [by exists k|]. intros Hsent n Hall Hdone.
    exists k. split; [|done]. destruct (decide (n `min` length new ≤ k)) as [|Hlt]; [done|]. exfalso.
    destruct (lookup_lt_is_Some_2 new k) as [x Hx]; [lia|].
    destruct (Hall x) as (kk & pb0 & Hk & Hpb0 & HRx).
    { apply (elem_of_list_lookup_2 _ k). rewrite lookup_take by lia. done. }
    destruct (Hsent kk pb0 Hk Hpb0) as (pb & Hpb & Hsd).
    apply (A5 x Hx). apply elem_of_list_fmap. exists pb. rewrite Hdone. split; [|done].
    assert (Hh := HR _ _ (HS _ _ _ Hsd HRx)). symmetry. apply Hh.
  Qed.

  Lemma ws_chain_live o pb : order_ok o →
    batches_of (w_taken y ++ [(o, InBatch pb)]) `prefix_of` sent_batches (mp_out (w_mp y)) →
    ∃ s', omp_step (w_omp y) (o, InBatch pb) = Ok s'.
  Proof.
    intros Ho Hp. destruct (wv_omp _ _ Hv) as (s0 & H0 & Hr).
    destruct (ws_chain_taken (w_taken y ++ [(o, InBatch pb)]) s0 H0) as (s & k & A1 & _).
    - apply Forall_app. split; [apply Hv|]. by apply Forall_singleton.
    - assert (Hnr := wv_quiet _ _ Hv Hq). unfold no_reorgs, reorgs_of in *. rewrite omap_app, Hnr. done.
    - done.
    - unfold omp_run in A1, Hr. rewrite foldM_app, Hr in A1. cbn [mbind outcome_bind foldM] in A1.
      destruct (omp_step (w_omp y) (o, InBatch pb)) as [s'| |]; try discriminate. eauto.
  Qed.
End chain.

(** * From the calls on a producer *)
Lemma blocks_out_mono ds st : ∃ l, blocks_out (wsc_run st ds) = blocks_out st ++ l.
Proof.
  revert st. induction ds as [|d ds IH]; intros st; [exists []; by rewrite app_nil_r|]. cbn.
  destruct (IH (wsc_step d.1 st d.2)) as (l & E). change (foldl (λ st d, wsc_step d.1 st d.2) (wsc_step d.1 st d.2) ds) with (wsc_run (wsc_step d.1 st d.2) ds).
  rewrite E. destruct (WebsocketFacts3.step_out d.1 st d.2) as [->|(pb & ->)]; [by exists l|]. exists (pb :: l). by rewrite <- app_assoc.
Qed.
Lemma submitted_same cs a pb pb0 : same_data pb pb0 → submitted cs a pb0 → submitted cs a pb.
Proof. intros (E1 & E2 & E3 & E4 & E5 & E6) [H1 H2 H3 H4 H5 H6 H7]. split; rewrite ?E1, ?E2, ?E3, ?E4, ?E5, ?E6; done. Qed.
Lemma submitted_heads cs a pb : submitted cs a pb → heads (args_hdr a) pb.
Proof. intros [H1 H2 H3 H4 _ _ _]. done. Qed.
Lemma done_same x pb pb0 : same_data pb pb0 → block_done x pb0 → block_done x pb.
Proof. intros (E1 & E2 & E3 & E4 & E5 & E6) [H1 H2 H3 H4 H5 H6 H7]. split; rewrite ?E1, ?E2, ?E3, ?E4, ?E5, ?E6; done. Qed.
Lemma done_heads x pb : block_done x pb → heads (wb_hdr x) pb.
Proof. intros [H1 H2 H3 H4 _ _ _]. done. Qed.

Section submitted.
  Context (cs : list wcall) (Hwf : calls_wf cs) (Hu : Forall utf8_call cs).

  Lemma delivers_from cfg k rest pb : Forall SpecWebsocket.orders_ok (life k) → delivers cs k rest →
    pb ∈ blocks_out (sessions0 cfg (life k)) → ∃ a, all_answered cs a ∧ submitted cs a pb.
  Proof.
    intros Ho [Ed Hd] Hpb. unfold life in *. rewrite Ed in *. cbn [app] in *. apply (proj1 (Forall_singleton _ _)) in Ho.
    unfold sessions0 in Hpb. cbn in Hpb. set (st0 := wsc_new (cfg_last_num cfg) (cfg_last_hash cfg)) in *.
    change (pb ∈ blocks_out (wsc_run (wsc_connect st0) (k_cur k))) in Hpb.
    set (ds := k_cur k ++ ((λ i, (λ x, x, i)) <$> rest)).
    assert (Hi : items ds = items (k_cur k) ++ rest).
    { unfold ds, items. rewrite fmap_app, <- list_fmap_compose. f_equal. by rewrite list_fmap_id. }
    destruct (WebsocketFacts4.end_to_end cs ds st0 Hwf Hu) as (new & E & A1 & A2).
    { apply Forall_app. split; [done|]. apply Forall_forall. intros d (i & -> & _)%elem_of_list_fmap. done. }
    { by rewrite Hi. }
    assert (Hin : pb ∈ new).
    { unfold ds, wsc_run in E. rewrite foldl_app in E.
      destruct (blocks_out_mono ((λ i, (λ x, x, i)) <$> rest) (wsc_run (wsc_connect st0) (k_cur k))) as (l & El).
      unfold wsc_run in El, Hpb. rewrite El in E. assert (X : pb ∈ blocks_out st0 ++ new) by (rewrite <- E; apply elem_of_app; by left).
      apply elem_of_app in X as [X|X]; [by apply elem_of_nil in X|done]. }
    destruct (A2 pb Hin) as (a & Ha & Eh). exists a. split; [done|]. destruct (A1 a Ha) as (pb' & F & Hsub).
    assert (X : pb ∈ filter (λ x, pb_hash x = ba_hash a) new) by (apply elem_of_list_filter; done).
    rewrite F in X. by apply elem_of_list_singleton in X as ->.
  Qed.
  Lemma delivers_all cfg k a : Forall SpecWebsocket.orders_ok (life k) → delivers cs k [] → all_answered cs a →
    ∃ pb, pb ∈ blocks_out (sessions0 cfg (life k)) ∧ submitted cs a pb.
  Proof.
    intros Ho [Ed Hd] Ha. unfold life in *. rewrite Ed in *. cbn [app] in *. apply (proj1 (Forall_singleton _ _)) in Ho.
    rewrite app_nil_r in Hd.
    destruct (WebsocketFacts4.end_to_end cs (k_cur k) (wsc_new (cfg_last_num cfg) (cfg_last_hash cfg)) Hwf Hu Ho Hd) as (new & E & A1 & A2).
    destruct (A1 a Ha) as (pb & F & Hsub). exists pb. split; [|done].
    unfold sessions0. cbn. change (pb ∈ blocks_out (wsc_run (wsc_connect (wsc_new (cfg_last_num cfg) (cfg_last_hash cfg))) (k_cur k))).
    rewrite E. apply elem_of_app. right. apply (proj1 (elem_of_list_filter (λ x, pb_hash x = ba_hash a) new pb)). rewrite F.
    apply elem_of_list_here.
  Qed.
  Lemma delivers_quiet k rest : (∀ n h, WReorgCall n h ∉ cs) → delivers cs k rest → no_reorg_item k.
  Proof.
    intros Hq [Ed Hd] ds n h Hds Hin. unfold life in Hds. rewrite Ed in Hds. apply elem_of_list_singleton in Hds as ->.
    assert (X : IReorg n h ∈ json_item <$> p_sent (wsp_run cs)) by (rewrite <- Hd; apply elem_of_app; by left).
    apply elem_of_list_fmap in X as (i & E & Hi). assert (i = IReorg n h) as -> by (by destruct i).
    clear -Hq Hi. induction cs as [|c l IH] using rev_ind; [by apply elem_of_nil in Hi|]. rewrite WebsocketFacts4.run_snoc in Hi.
    assert (Hl : IReorg n h ∉ p_sent (wsp_run l)). { intros H. apply IH; [|done]. intros n' h' Hc. apply (Hq n' h'), elem_of_app. by left. }
    destruct c as [od a|id d u|n' h']; cbn in Hi.
    - apply elem_of_app in Hi as [Hi|Hi%elem_of_list_singleton]; [done|discriminate Hi].
    - unfold wsp_send in Hi. destruct (p_expect (wsp_run l) !! id); cbn in Hi; [|done].
      apply elem_of_app in Hi as [Hi|Hi%elem_of_list_singleton]; [done|discriminate Hi].
    - apply (Hq n' h'), elem_of_app. right. apply elem_of_list_here.
  Qed.
End submitted.

Section replicas.
  Context (css : list (list wcall)) (cfg : config) (base : hash) (num : Z) (w : N) (old new : list block_args).
  Context (Hcss : ∀ cs, cs ∈ css → publishes (old ++ new) cs).
  Context (Hs : started cfg base num w (map args_hdr old) (map args_hdr new)).
  Context (y : wsys) (Hv : ws_view cfg y).
  Context (Hk : ∀ k, k ∈ w_conns y → ∃ cs rest, cs ∈ css ∧ delivers cs k rest).
  Let R (a : block_args) (pb : pending_batch) : Prop := ∃ cs, cs ∈ css ∧ submitted cs a pb.

  Lemma R_heads a pb : R a pb → heads (args_hdr a) pb.
  Proof. intros (cs & _ & H). by eapply submitted_heads. Qed.
  Lemma R_same a pb pb0 : same_data pb pb0 → R a pb0 → R a pb.
  Proof. intros Hsd (cs & Hin & H). exists cs. split; [done|]. by eapply submitted_same. Qed.
  Lemma R_quiet k : k ∈ w_conns y → no_reorg_item k.
  Proof. intros Hin. destruct (Hk k Hin) as (cs & rest & Hcs & Hd). destruct (Hcss cs Hcs) as [P1 P2 P3 P4]. by eapply delivers_quiet. Qed.
  Lemma R_from k pb : k ∈ w_conns y → pb ∈ blocks_out (sessions0 cfg (life k)) → ∃ a, a ∈ old ++ new ∧ R a pb.
  Proof.
    intros Hin Hpb. destruct (Hk k Hin) as (cs & rest & Hcs & Hd). destruct (Hcss cs Hcs) as [P1 P2 P3 P4].
    destruct (delivers_from cs P1 P2 cfg k rest pb (proj1 (wv_conn _ _ Hv k Hin)) Hd Hpb) as (a & [Ha _] & Hsub).
    exists a. split; [by apply P4|]. by exists cs.
  Qed.

  Lemma view_end_to_end :
    all_removed (o_out (w_omp y)) = [] ∧
    (∃ n, Forall2 R (take n new) (all_added (o_out (w_omp y)))) ∧
    (all_sent cfg y → (∀ a, a ∈ new → ∃ k cs, k ∈ w_conns y ∧ cs ∈ css ∧ delivers cs k [] ∧ all_answered cs a) →
     batches_of (w_taken y) = sent_batches (mp_out (w_mp y)) →
     Forall2 R new (all_added (o_out (w_omp y)))) ∧
    (∀ o pb, order_ok o → batches_of (w_taken y ++ [(o, InBatch pb)]) `prefix_of` sent_batches (mp_out (w_mp y)) →
     ∃ s', omp_step (w_omp y) (o, InBatch pb) = Ok s').
  Proof.
    destruct (ws_chain args_hdr R R_heads R_same cfg base num w old new Hs y Hv R_quiet R_from) as (A1 & A2 & A3).
    split; [done|]. split; [done|]. split.
    - intros Hsent Hall Hdone. destruct (A3 Hsent (length new)) as (n & Hn & HF); [|done|].
      + rewrite take_ge by done. intros a Ha. destruct (Hall a Ha) as (k & cs & Hin & Hcs & Hd & Haa).
        destruct (Hcss cs Hcs) as [P1 P2 P3 P4].
        destruct (delivers_all cs P1 P2 cfg k a (proj1 (wv_conn _ _ Hv k Hin)) Hd Haa) as (pb & Hpb & Hsub).
        exists k, pb. split; [done|]. split; [done|]. by exists cs.
      + rewrite take_ge in HF by lia. done.
    - intros o pb. apply (ws_chain_live args_hdr R R_heads R_same cfg base num w old new Hs y Hv R_quiet R_from).
  Qed.
End replicas.

(** * Reconnecting *)
Section reconnect.
  Context (cfg : config) (num : Z) (chain : list wblock).
  Let n0 := cfg_last_num cfg.
  Let h0 := cfg_last_hash cfg.
  Context (Hs : started cfg h0 num (cfg_last_weight cfg) [] (map wb_hdr chain)).
  Context (y : wsys) (Hv : ws_view cfg y).
  Context (Hq : ∀ k, k ∈ w_conns y → no_reorg_item k).
  Context (Hk : ∀ k, k ∈ w_conns y → sessions_ok chain n0 h0 (wsc_new n0 h0) (life k)).

  Lemma chain_nodup : NoDup (wb_hash <$> chain) ∧ h0 ∉ wb_hash <$> chain.
  Proof.
    assert (Hnd := sd_nodup _ _ _ _ _ _ Hs). cbn [app] in Hnd. rewrite map_map in Hnd.
    apply NoDup_cons in Hnd as [H1 H2]. split; [exact H2|exact H1].
  Qed.
  Lemma conn_prefix k : k ∈ w_conns y →
    ∃ n, n ≤ length chain ∧ resume_at chain n0 h0 (k_c k) n ∧ Forall2 block_done (take n chain) (blocks_out (sessions0 cfg (life k))).
  Proof.
    intros Hin. destruct chain_nodup as [N Hh].
    destruct (sessions_prefix chain n0 h0 N Hh (life k) (wsc_new n0 h0) 0) as (n & _ & X1 & X2 & X3);
      [lia|by left|constructor|by apply Hk|].
    exists n. split; [done|]. split; [|exact X3]. destruct (wv_conn _ _ Hv k Hin) as [_ ->]. exact X2.
  Qed.
  Lemma reconnect_from k pb : k ∈ w_conns y → pb ∈ blocks_out (sessions0 cfg (life k)) → ∃ x, x ∈ [] ++ chain ∧ block_done x pb.
  Proof.
    intros Hin Hpb. destruct (conn_prefix k Hin) as (n & _ & _ & HF). destruct (Forall2_in_r _ _ _ _ HF Hpb) as (x & Hx & Hd).
    exists x. split; [|done]. cbn. rewrite <- (take_drop n chain). apply elem_of_app. by left.
  Qed.
  Lemma view_reconnect :
    all_removed (o_out (w_omp y)) = [] ∧
    (∃ m, Forall2 block_done (take m chain) (all_added (o_out (w_omp y)))) ∧
    (all_sent cfg y → batches_of (w_taken y) = sent_batches (mp_out (w_mp y)) → ∀ k, k ∈ w_conns y →
     ∃ n m, resume_at chain n0 h0 (k_c k) n ∧ n ≤ m ∧ n ≤ length chain ∧ Forall2 block_done (take m chain) (all_added (o_out (w_omp y)))) ∧
    (all_sent cfg y → batches_of (w_taken y) = sent_batches (mp_out (w_mp y)) →
     (∃ k n, k ∈ w_conns y ∧ resume_at chain n0 h0 (wsc_sessions (wsc_new n0 h0) (k_done k)) n ∧ caught_up chain n (items (k_cur k))) →
     Forall2 block_done chain (all_added (o_out (w_omp y)))).
  Proof.
    destruct (ws_chain wb_hdr block_done done_heads done_same cfg h0 num (cfg_last_weight cfg) [] chain Hs y Hv Hq reconnect_from) as (A1 & A2 & A3).
    split; [done|]. split; [done|]. split.
    - intros Hsent Hdone k Hin. destruct (conn_prefix k Hin) as (n & Hn & Hr & HF).
      destruct (A3 Hsent n) as (m & Hm & HF'); [|done|].
      + intros x Hx. destruct (Forall2_in_l _ _ _ _ HF Hx) as (pb & Hpb & Hd). by exists k, pb.
      + exists n, m. split; [done|]. split; [lia|]. done.
    - intros Hsent Hdone (k & n & Hin & Hr & groups & HG & E).
      destruct chain_nodup as [N Hh].
      assert (Hok := Hk k Hin). unfold life in Hok. apply sessions_ok_app in Hok as [Hok1 _].
      destruct (sessions_prefix chain n0 h0 N Hh (k_done k) (wsc_new n0 h0) 0) as (n' & _ & X1 & X2 & X3);
        [lia|by left|constructor|done|].
      assert (n' = n) as -> by (by eapply (resume_unique chain n0 h0)).
      destruct (groups_all (drop n chain) groups (wsc_connect (wsc_sessions (wsc_new n0 h0) (k_done k))) (k_cur k) HG E) as (pbs & Eo & Hpbs).
      { destruct (wv_conn _ _ Hv k Hin) as [Ho _]. unfold life in Ho. apply Forall_app in Ho as [_ Ho].
        by apply (proj1 (Forall_singleton _ _)) in Ho. }
      { done. }
      destruct (A3 Hsent (length chain)) as (m & Hm & HF); [|done|].
      + rewrite take_ge by done. intros x Hx. rewrite <- (take_drop n chain) in Hx.
        assert (HF : Forall2 block_done (take n chain ++ drop n chain) (blocks_out (sessions0 cfg (life k)))).
        { unfold sessions0, life. rewrite sessions_snoc. fold n0 h0. rewrite Eo, connect_blocks. by apply Forall2_app. }
        destruct (Forall2_in_l _ _ _ _ HF Hx) as (pb & Hpb & Hd). by exists k, pb.
      + rewrite take_ge in HF by lia. done.
  Qed.
End reconnect.

Lemma ws_end_to_end (css : list (list wcall)) c cfg base num w old new :
  (∀ cs, cs ∈ css → publishes (old ++ new) cs) →
  started cfg base num w (map args_hdr old) (map args_hdr new) →
  ∀ y, ws_run c cfg y →
  (∀ k, k ∈ w_conns y → ∃ cs rest, cs ∈ css ∧ delivers cs k rest) →
  all_removed (o_out (w_omp y)) = [] ∧
  (∃ n, Forall2 (λ a pb, ∃ cs, cs ∈ css ∧ submitted cs a pb) (take n new) (all_added (o_out (w_omp y)))) ∧
  ((∀ a, a ∈ new → ∃ k cs, k ∈ w_conns y ∧ cs ∈ css ∧ delivers cs k [] ∧ all_answered cs a) →
   batches_of (w_taken y) = sent_batches (mp_out (w_mp y)) →
   Forall2 (λ a pb, ∃ cs, cs ∈ css ∧ submitted cs a pb) new (all_added (o_out (w_omp y)))) ∧
  (∀ o pb, order_ok o → batches_of (w_taken y ++ [(o, InBatch pb)]) `prefix_of` sent_batches (mp_out (w_mp y)) →
   ∃ s', omp_step (w_omp y) (o, InBatch pb) = Ok s').
Proof.
  intros H1 H2 y Hr H3. destruct (view_end_to_end css cfg base num w old new H1 H2 y (ws_run_view _ _ _ Hr) H3) as (A1 & A2 & A3 & A4).
  split; [done|]. split; [done|]. split; [|done]. apply A3. by eapply ws_run_sent.
Qed.
Lemma ws_reconnect c cfg num chain :
  started cfg (cfg_last_hash cfg) num (cfg_last_weight cfg) [] (map wb_hdr chain) →
  ∀ y, ws_run c cfg y →
  (∀ k, k ∈ w_conns y → no_reorg_item k) →
  (∀ k, k ∈ w_conns y → sessions_ok chain (cfg_last_num cfg) (cfg_last_hash cfg) (wsc_new (cfg_last_num cfg) (cfg_last_hash cfg)) (life k)) →
  all_removed (o_out (w_omp y)) = [] ∧
  (∃ m, Forall2 block_done (take m chain) (all_added (o_out (w_omp y)))) ∧
  (batches_of (w_taken y) = sent_batches (mp_out (w_mp y)) → ∀ k, k ∈ w_conns y →
   ∃ n m, resume_at chain (cfg_last_num cfg) (cfg_last_hash cfg) (k_c k) n ∧ n ≤ m ∧ n ≤ length chain ∧
     Forall2 block_done (take m chain) (all_added (o_out (w_omp y)))) ∧
  (batches_of (w_taken y) = sent_batches (mp_out (w_mp y)) →
   (∃ k n, k ∈ w_conns y ∧
      resume_at chain (cfg_last_num cfg) (cfg_last_hash cfg) (wsc_sessions (wsc_new (cfg_last_num cfg) (cfg_last_hash cfg)) (k_done k)) n ∧
      caught_up chain n (items (k_cur k))) →
   Forall2 block_done chain (all_added (o_out (w_omp y)))).
Proof.
  intros H1 y Hr H2 H3. destruct (view_reconnect cfg num chain H1 y (ws_run_view _ _ _ Hr) H2 H3) as (A1 & A2 & A3 & A4).
  assert (Hs := ws_run_sent _ _ _ Hr). split; [done|]. split; [done|]. split; [by apply A3|by apply A4].
Qed.
