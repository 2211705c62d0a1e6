(** C69: proofs about simultaneous upstreams. *)
From Verif Require Import Base Lru LruFacts Types Avro Wire GoPath Producer SpecBlock Consumer SpecToken
  Websocket SpecWebsocket WebsocketFacts WebsocketFacts2 WebsocketFacts3 WebsocketFacts4 WebsocketFacts5
  Ordering SpecChain OrderingBase OrderingFacts OrderingPanic System SpecSystem SystemFacts SystemFacts2 WsSystem SpecWsSystem
  WsSystemFacts WsSystemFacts2 Upstreams SpecUpstreams.

Definition tagged (i : nat) (evs : list (nat * wevent)) : list wevent :=
  omap (λ e : nat * wevent, if decide (e.1 = i) then Some e.2 else None) evs.
Lemma tagged_snoc_eq i evs ev : tagged i (evs ++ [(i, ev)]) = tagged i evs ++ [ev].
Proof. unfold tagged. rewrite omap_app. cbn. by rewrite decide_True. Qed.
Lemma tagged_snoc_ne i j evs ev : j ≠ i → tagged i (evs ++ [(j, ev)]) = tagged i evs.
Proof. intros H. unfold tagged. rewrite omap_app. cbn. rewrite decide_False by done. by rewrite app_nil_r. Qed.
Lemma elem_tagged i evs ev : ev ∈ tagged i evs ↔ (i, ev) ∈ evs.
Proof.
  unfold tagged. rewrite elem_of_list_omap. split.
  - intros ([j e] & H & E). cbn in E. destruct (decide (j = i)) as [->|]; [|done]. by injection E as ->.
  - intros H. exists (i, ev). split; [done|]. cbn. by rewrite decide_True.
Qed.

(** What the goroutine of a connection still has to do. *)
Definition left_over (st : mp) (c : call) (es : list wevent) : Prop :=
  match c with
  | CNotice n h => es = [WReorg n h]
  | CAnnounce pb => es = [WComplete pb] ∧ pb_wait pb = None
  | CSend pb => ∃ pb0 ch, es = [WComplete pb0] ∧ same_data pb pb0 ∧ pb_wait pb = Some ch ∧
      EWaiter (pb_hash pb) (pb_parent pb) (pb_num pb) ch ∈ mp_out st
  | CWriting _ => False
  | _ => es = []
  end.
Lemma left_mono st st' c es : (∀ ev, ev ∈ mp_out st → ev ∈ mp_out st') → left_over st c es → left_over st' c es.
Proof. intros H. destruct c; try done. intros (pb0 & ch & H1 & H2 & H3 & H4). exists pb0, ch. eauto. Qed.
Lemma left_short st c es : left_over st c es → length es ≤ 1.
Proof. destruct c; cbn; try (intros ->; cbn; lia); [by intros [-> _]| |done]. by intros (? & ? & -> & _). Qed.

Record finv (cfg : config) (s : fsys) (evs : list (nat * wevent)) : Prop := FI {
  fi_conns : Forall (λ k, conn_inv cfg (fc_conn k)) (f_conns s);
  fi_msg : f_msg s = None;
  fi_pend : mp_pend (f_mp s) = ∅;
  fi_core : core cfg (map snd evs) (f_mp s) (f_omp s) (f_taken s);
  fi_left : ∀ i k, f_conns s !! i = Some k → ∃ es, left_over (f_mp s) (fc_call k) es ∧ c_out (k_c (fc_conn k)) = tagged i evs ++ es;
  fi_tags : ∀ i ev, (i, ev) ∈ evs → is_Some (f_conns s !! i)
}.

Lemma finv_start c cfg s : fstart c cfg s → finv cfg s [].
Proof.
  destruct s as [ks st om l msg]. intros (H1 & H2 & H3 & H4 & H5 & H6). cbn in *. subst l msg.
  assert (Hn : mp_out st = [] ∧ mp_pend st = ∅).
  { revert H2. unfold mp_new. case_bool_decide; [|discriminate]. by intros [= <-]. }
  destruct Hn as [Hn Hp]. split; cbn; [|done|done| | |].
  - eapply Forall_impl; [exact H4|]. intros k ->. apply conn_inv_new.
  - split; rewrite ?Hn; cbn; try done.
    * eauto.
    * by apply Forall_nil.
    * by intros ??? ?%elem_of_nil.
    * intros pb o1 o2 H. by destruct o1.
    * split; [constructor|]. by intros ? ?%elem_of_nil.
  - intros i k Hk. exists []. assert (k = FC (conn_new cfg) CIdle) as -> by (eapply (proj1 (Forall_lookup _ _) H4); exact Hk). done.
  - by intros ?? ?%elem_of_nil.
Qed.

(** Only the output and the counter of channels matter. *)
Lemma core_same cfg evs st st' s l : mp_out st' = mp_out st → mp_chan st' = mp_chan st → core cfg evs st s l → core cfg evs st' s l.
Proof. intros E1 E2 [H1 H2 H3 H4 H5 H6 H7]. split; rewrite ?E1, ?E2; done. Qed.
Lemma core_announce cfg evs st s l h p n :
  core cfg evs st s l → core cfg evs (emit_event (new_chan st) (EWaiter h p n (mp_chan st))) s l.
Proof.
  intros [H1 H2 H3 H4 H5 H6 [H7 H8]]. split; try done; cbn.
  - rewrite sent_app. cbn. by rewrite app_nil_r.
  - rewrite sent_app. cbn. by rewrite app_nil_r.
  - intros pb o1 o2 E. destruct o2 as [|x o2 _] using rev_ind.
    + apply app_inj_tail in E as [_ E]. discriminate E.
    + rewrite app_comm_cons, app_assoc in E. apply app_inj_tail in E as [E _]. by eapply H6.
  - rewrite omap_app. cbn. split.
    + apply NoDup_app. split; [done|]. split; [|apply NoDup_singleton].
      intros ch Hch ->%elem_of_list_singleton. apply H8 in Hch. lia.
    + intros ch [H| ->%elem_of_list_singleton]%elem_of_app; [apply H8 in H; lia|lia].
Qed.
Lemma core_send cfg evs st s l pb pb0 ch :
  same_data pb pb0 → pb_wait pb = Some ch → EWaiter (pb_hash pb) (pb_parent pb) (pb_num pb) ch ∈ mp_out st →
  core cfg evs st s l → core cfg (evs ++ [WComplete pb0]) (emit_event st (EBatch pb)) s l.
Proof.
  intros Hd Hc Hin [H1 H2 H3 H4 H5 H6 [H7 H8]]. split; try done; cbn.
  - rewrite sent_app. by apply prefix_app_r.
  - rewrite sent_app. unfold completes_of. rewrite omap_app. cbn. apply Forall2_app; [done|]. apply Forall2_cons_2; [done|apply Forall2_nil_2].
  - intros o n h H. apply elem_of_app. left. by eapply H5.
  - intros pb' o1 o2 E. destruct o2 as [|x o2 _] using rev_ind.
    + apply app_inj_tail in E as [<- [= <-]]. by exists ch.
    + rewrite app_comm_cons, app_assoc in E. apply app_inj_tail in E as [E _]. by eapply H6.
  - rewrite omap_app. cbn. by rewrite app_nil_r.
Qed.
Lemma core_notice cfg evs st s l n h :
  core cfg evs st s l → core cfg (evs ++ [WReorg n h]) st (handle_reorg s n h) (l ++ [(id_order, InReorg n h)]).
Proof. intros H. by apply (core_event cfg evs (Ws [] st s l) (WReorg n h)). Qed.
Lemma core_ready cfg evs st s l : core cfg evs st s l → core cfg (evs ++ [WReady]) st s l.
Proof. intros H. by apply (core_event cfg evs (Ws [] st s l) WReady). Qed.

(** A change of connection [i] and of the output. *)
Lemma left_update (ks : list fconn) i k k' st st' evs evs' :
  ks !! i = Some k →
  (∀ ev, ev ∈ mp_out st → ev ∈ mp_out st') →
  (∀ j, j ≠ i → tagged j evs' = tagged j evs) →
  (∃ es, left_over st' (fc_call k') es ∧ c_out (k_c (fc_conn k')) = tagged i evs' ++ es) →
  (∀ j k, ks !! j = Some k → ∃ es, left_over st (fc_call k) es ∧ c_out (k_c (fc_conn k)) = tagged j evs ++ es) →
  ∀ j k, <[i := k']> ks !! j = Some k → ∃ es, left_over st' (fc_call k) es ∧ c_out (k_c (fc_conn k)) = tagged j evs' ++ es.
Proof.
  intros Hi Hm Ht Hn Ho j x Hj. destruct (decide (i = j)) as [<-|Hne].
  - rewrite list_lookup_insert in Hj by (by eapply lookup_lt_Some). injection Hj as <-. done.
  - rewrite list_lookup_insert_ne in Hj by done. destruct (Ho j x Hj) as (es & H1 & H2). exists es.
    split; [by eapply left_mono|]. by rewrite Ht.
Qed.
Lemma tags_update (ks : list fconn) i k k' (evs : list (nat * wevent)) es : ks !! i = Some k →
  (∀ j ev, (j, ev) ∈ evs → is_Some (ks !! j)) →
  ∀ j ev, (j, ev) ∈ evs ++ ((λ e, (i, e)) <$> es) → is_Some (<[i := k']> ks !! j).
Proof.
  intros Hi H j ev Hin. apply lookup_lt_is_Some. rewrite insert_length. apply lookup_lt_is_Some.
  apply elem_of_app in Hin as [Hin|Hin]; [by eapply H|]. apply elem_of_list_fmap in Hin as (e & [= -> _] & _). by rewrite Hi.
Qed.

Lemma finv_step c cfg s evs a s' : finv cfg s evs → fact_ok a → fact_ws a → fstep c a s = Some (Some s') →
  ∃ evs', finv cfg s' evs'.
Proof.
  intros Hi Hok Hws E. destruct Hi as [H1 H2 H3 H4 H5 H6]. destruct s as [ks st om l msg]. cbn [f_conns f_mp f_omp f_taken f_msg] in *. subst msg.
  destruct a as [i|i o f|i|o|m e|]; cbn [fstep f_conns f_mp f_omp f_taken f_msg] in E; try done.
  - destruct (ks !! i) as [[k cl]|] eqn:Ek; [|done]. destruct cl; try done. injection E as <-.
    assert (Hki : conn_inv cfg k) by (apply (proj1 (Forall_lookup _ _) H1 i _ Ek)).
    exists evs. split; cbn; try done.
    + apply Forall_update; [done|]. by apply conn_inv_again.
    + eapply left_update; [exact Ek|done|done| |exact H5]. destruct (H5 i _ Ek) as (es & Hl & Hes). exists es. by split.
    + intros j ev Hin. destruct (tags_update ks i (FC k CIdle) (FC (conn_again k) CIdle) evs [] Ek H6 j ev) as [x Hx]; [cbn; by rewrite app_nil_r|by exists x].
  - destruct (ks !! i) as [[k cl]|] eqn:Ek; [|done]. destruct cl; try done. injection E as <-. cbn in Hok.
    assert (Hki : conn_inv cfg k) by (apply (proj1 (Forall_lookup _ _) H1 i _ Ek)).
    assert (Hki' := conn_inv_frame cfg o k f Hok Hki). assert (Ha := conn_events_app o k f).
    set (k' := conn_frame o k f) in *. set (es := conn_events k k') in *.
    assert (Hw : ∀ pb, WComplete pb ∈ es → pb_wait pb = None).
    { intros pb Hpb. destruct (nowait_sessions (cfg_last_num cfg) (cfg_last_hash cfg) (life k')) as [_ Hn]. apply Hn.
      change (WComplete pb ∈ c_out (sessions0 cfg (life k'))). rewrite <- (ci_c _ _ Hki'), Ha. apply elem_of_app. by right. }
    assert (Hlen : length es ≤ 1).
    { unfold k', conn_frame in Ha. destruct (ws_read (k_note k) f) as [note [it|]]; cbn in Ha.
      - destruct (events_app o (k_c k) it) as (es' & E' & Hl). rewrite E' in Ha. by apply app_inv_head in Ha as <-.
      - rewrite <- (app_nil_r (c_out (k_c k))) in Ha at 1. apply app_inv_head in Ha as <-. cbn. lia. }
    destruct (H5 i _ Ek) as (es0 & Hl0 & Hes0). cbn in Hl0. subst es0. cbn in Hes0. rewrite app_nil_r in Hes0.
    assert (Hgo : (es = [] ∨ (∃ n h, es = [WReorg n h]) ∨ ∃ pb, es = [WComplete pb]) ∨ es = [WReady]).
    { clearbody es. clear -Hlen. destruct es as [|[|n h|pb] [|? ?]]; cbn in Hlen; try lia.
      - left. by left.
      - by right.
      - left. right. left. by exists n, h.
      - left. right. right. by exists pb. }
    destruct Hgo as [Hgo|Hgo].
    + exists evs. split; cbn; try done.
      * apply Forall_update; [done|]. done.
      * eapply left_update; [exact Ek|done|done| |exact H5]. exists es. cbn. split; [|by rewrite Ha, Hes0].
        destruct Hgo as [Hg|[(n & h & Hg)|(pb & Hg)]]; rewrite Hg in *; cbn; [done|done|]. split; [done|]. apply Hw, elem_of_list_here.
      * intros j ev Hin. destruct (tags_update ks i (FC k CIdle) (FC k' (call_of es)) evs [] Ek H6 j ev) as [x Hx]; [cbn; by rewrite app_nil_r|by exists x].
    + exists (evs ++ [(i, WReady)]). split; cbn; try done.
      * apply Forall_update; [done|]. done.
      * rewrite map_app. by apply core_ready.
      * eapply left_update; [exact Ek|done| | |exact H5].
        -- intros j Hj. by apply tagged_snoc_ne.
        -- exists []. rewrite Hgo. cbn. split; [done|]. rewrite Ha, Hes0, Hgo, tagged_snoc_eq. by rewrite app_nil_r.
      * by apply (tags_update ks i (FC k CIdle) _ evs [WReady]).
  - destruct (ks !! i) as [[k cl]|] eqn:Ek; [|done].
    assert (Ht : ∀ c', ∀ j ev, (j, ev) ∈ evs → is_Some (<[i := FC k c']> ks !! j)).
    { intros c' j ev Hin. destruct (tags_update ks i (FC k cl) (FC k c') evs [] Ek H6 j ev) as [x Hx]; [cbn; by rewrite app_nil_r|by exists x]. }
    assert (Hc : ∀ c', Forall (λ k, conn_inv cfg (fc_conn k)) (<[i := FC k c']> ks)).
    { intros c'. apply Forall_update; [done|]. apply (proj1 (Forall_lookup _ _) H1 i _ Ek). }
    destruct (H5 i _ Ek) as (es & Hl & Hes). cbn [fc_call fc_conn] in Hl, Hes.
    destruct cl as [|n h|pb|pb|pb|pb|pb|pb]; try done; cbn [call_step fc_call f_mp f_conns f_omp f_taken f_msg fc_conn] in E; cbn [left_over] in Hl.
    + injection E as <-. subst es. exists (evs ++ [(i, WReorg n h)]). split; cbn; try done.
      * rewrite map_app. by apply core_notice.
      * eapply left_update; [exact Ek|done| | |exact H5].
        -- intros j Hj. by apply tagged_snoc_ne.
        -- exists []. cbn. split; [done|]. by rewrite tagged_snoc_eq, app_nil_r.
      * by apply (tags_update ks i (FC k (CNotice n h)) _ evs [WReorg n h]).
    + destruct Hl as [-> Hw]. unfold open_chan in E. rewrite Hw in E. injection E as <-. exists evs. split; cbn; try done.
      * by apply core_announce.
      * eapply left_update; [exact Ek| |done| |exact H5].
        -- cbn. intros ev Hev. apply elem_of_app. by left.
        -- exists [WComplete pb]. cbn. split; [|done]. exists pb, (mp_chan st). split; [done|]. split; [done|]. split; [done|].
           apply elem_of_app. right. apply elem_of_list_here.
      * apply Ht.
    + destruct Hl as (pb0 & ch & -> & Hd & Hw & Hin). injection E as <-. exists (evs ++ [(i, WComplete pb0)]). split; cbn; try done.
      * rewrite map_app. by eapply core_send.
      * eapply left_update; [exact Ek| | | |exact H5].
        -- cbn. intros ev Hev. apply elem_of_app. by left.
        -- intros j Hj. by apply tagged_snoc_ne.
        -- exists []. cbn. split; [done|]. by rewrite tagged_snoc_eq, app_nil_r.
      * by apply (tags_update ks i (FC k (CSend pb)) _ evs [WComplete pb0]).
    + injection E as <-. exists evs. split; cbn; try done; [by eapply core_same; [| |exact H4]| |apply Ht].
      eapply left_update; [exact Ek|done|done| |exact H5]. exists es. by split.
    + injection E as <-. exists evs. split; cbn; try done; [by eapply core_same; [| |exact H4]| |apply Ht].
      eapply left_update; [exact Ek|done|done| |exact H5]. exists es. by split.
    + rewrite bool_decide_eq_true_2 in E by done. injection E as <-. exists evs. split; cbn; try done; [|apply Ht].
      eapply left_update; [exact Ek|done|done| |exact H5]. exists es. by split.
  - destruct (sent_batches (mp_out st) !! length (batches_of l)) as [pb|] eqn:Ep; [|done].
    destruct (omp_step om (o, InBatch pb)) as [om'| |] eqn:Es; [|done|done]. injection E as <-. exists evs. split; cbn; try done.
    destruct H4 as [(s0 & G0 & Gr) G2 G3 G4 G5 G6 G7]. split; try done.
    + exists s0. split; [done|]. eapply omp_run_app; [exact Gr|]. unfold omp_run. change (omp_step om (o, InBatch pb) ≫= foldM omp_step [] = Ok om'). by rewrite Es.
    + apply Forall_app. split; [done|]. by apply Forall_singleton.
    + destruct G3 as (r & Er). rewrite Er in Ep |- *. unfold batches_of. rewrite omap_app. cbn. fold (batches_of l).
      rewrite lookup_app_r, Nat.sub_diag in Ep by done. destruct r as [|x r]; [done|]. cbn in Ep. injection Ep as ->.
      exists r. by rewrite <- app_assoc.
    + intros o' n h [H|H%elem_of_list_singleton]%elem_of_app; [by eapply G5|discriminate H].
Qed.
Lemma finv_run c cfg s0 l s : fstart c cfg s0 → frun c s0 l s → Forall fact_ws l → ∃ evs, finv cfg s evs.
Proof.
  intros H0 Hr Hw. induction Hr as [s|s l s1 a s2 Hr IH Hok E]; [exists []; by eapply finv_start|].
  apply Forall_app in Hw as [Hw Ha]. apply (proj1 (Forall_singleton _ _)) in Ha.
  destruct (IH H0 Hw) as [evs Hi]. by eapply finv_step.
Qed.

(** * As a state of the coarser model *)
Definition coarse (s : fsys) : wsys := Ws (upstreams s) (f_mp s) (f_omp s) (f_taken s).
Lemma elem_upstreams s k : k ∈ upstreams s → ∃ i x, f_conns s !! i = Some x ∧ fc_conn x = k.
Proof. intros H. apply elem_of_list_fmap in H as (x & -> & Hx). apply elem_of_list_lookup in Hx as [i Hi]. by exists i, x. Qed.
Lemma finv_view cfg s evs : finv cfg s evs → ws_view cfg (coarse s).
Proof.
  intros [H1 H2 H3 [G1 G2 G3 G4 G5 G6 G7] H5 H6].
  assert (Hk : ∀ k, k ∈ upstreams s → conn_inv cfg k).
  { intros k (i & x & Hx & <-)%elem_upstreams. apply (proj1 (Forall_lookup _ _) H1 i _ Hx). }
  assert (Hev : ∀ ev, ev ∈ map snd evs → ∃ k, k ∈ upstreams s ∧ ev ∈ c_out (k_c k)).
  { intros ev ([i e] & -> & Hin)%elem_of_list_fmap. destruct (H6 i e Hin) as [x Hx]. exists (fc_conn x).
    split; [apply elem_of_list_fmap; exists x; split; [done|]; by eapply elem_of_list_lookup_2|].
    destruct (H5 i x Hx) as (es & _ & ->). apply elem_of_app. left. by apply elem_tagged. }
  split; cbn; try done.
  - intros pb Hpb. destruct (Forall2_in_l _ _ _ _ G4 Hpb) as (pb0 & Hpb0%elem_completes & Hsd).
    destruct (Hev _ Hpb0) as (k & Hin & Hc). exists k, pb0. split; [done|]. split; [|done].
    apply elem_completes. by rewrite <- (ci_c _ _ (Hk k Hin)).
  - intros Hq. unfold no_reorgs, reorgs_of.
    assert (Hno : ∀ o n h, (o, InReorg n h) ∉ f_taken s).
    { intros o n h Hin. apply G5, Hev in Hin as (k & Hin & Hc). rewrite (ci_c _ _ (Hk k Hin)) in Hc.
      apply reorg_sessions in Hc as (ds & Hds & Hit). by apply (Hq k Hin ds n h). }
    clear -Hno. induction (f_taken s) as [|[o [pb|n h]] l IH]; [done| |].
    + cbn. apply IH. intros o' n h Hin. apply (Hno o' n h). by apply elem_of_list_further.
    + exfalso. apply (Hno o n h), elem_of_list_here.
  - intros k Hin. destruct (Hk k Hin). done.
Qed.
Lemma finv_sent cfg s evs : finv cfg s evs → all_idle s → all_sent cfg (coarse s).
Proof.
  intros [H1 H2 H3 [G1 G2 G3 G4 G5 G6 G7] H5 H6] Hidle k pb0 Hin Hpb0. cbn in *.
  apply elem_upstreams in Hin as (i & x & Hx & <-).
  apply elem_completes in Hpb0. destruct (proj1 (Forall_lookup _ _) H1 i _ Hx) as [Ec _]. cbn in Ec. rewrite <- Ec in Hpb0.
  destruct (H5 i x Hx) as (es & Hl & E). rewrite (Hidle x) in Hl by (by eapply elem_of_list_lookup_2). cbn in Hl. subst es.
  rewrite E, app_nil_r in Hpb0. apply elem_tagged in Hpb0.
  apply (Forall2_in_r _ _ _ _ G4), elem_completes, elem_of_list_fmap. by exists (i, WComplete pb0).
Qed.

Lemma tagged_order i evs : ∀ A, Forall2 same_data A (completes_of (map snd evs)) →
  ∃ l, l `sublist_of` A ∧ Forall2 same_data l (completes_of (tagged i evs)).
Proof.
  induction evs as [|[j ev] evs IH]; intros A H.
  - apply Forall2_nil_inv_r in H as ->. exists []. split; [done|apply Forall2_nil_2].
  - assert (Hskip : completes_of (map snd ((j, ev) :: evs)) = match ev with WComplete pb => pb :: completes_of (map snd evs) | _ => completes_of (map snd evs) end).
    { by destruct ev. }
    assert (Ht : tagged i ((j, ev) :: evs) = if decide (j = i) then ev :: tagged i evs else tagged i evs).
    { unfold tagged. cbn. by destruct (decide (j = i)). }
    rewrite Hskip in H. rewrite Ht. clear Hskip Ht. destruct ev as [|n h|pb].
    + destruct (IH A H) as (l & H1 & H2). exists l. split; [done|]. by destruct (decide (j = i)).
    + destruct (IH A H) as (l & H1 & H2). exists l. split; [done|]. by destruct (decide (j = i)).
    + apply Forall2_cons_inv_r in H as (a & A' & Ha & HA & ->). destruct (IH A' HA) as (l & H1 & H2).
      destruct (decide (j = i)); [|exists l; split; [by apply sublist_cons|done]].
      exists (a :: l). split; [by apply sublist_skip|]. by apply Forall2_cons_2.
Qed.

Section run.
  Context (c : mp_config) (cfg : config) (s0 : fsys) (l : list fact) (s : fsys).
  Context (H0 : fstart c cfg s0) (Hr : frun c s0 l s) (Hw : Forall fact_ws l).

  Lemma fine_announced :
    (∀ pb, EBatch pb ∈ mp_out (f_mp s) → ∃ ch, pb_wait pb = Some ch ∧
       before (mp_out (f_mp s)) (EWaiter (pb_hash pb) (pb_parent pb) (pb_num pb) ch) (EBatch pb)) ∧
    NoDup (omap channel (mp_out (f_mp s))).
  Proof using H0 Hr Hw.
    destruct (finv_run _ _ _ _ _ H0 Hr Hw) as [evs [_ _ _ [_ _ _ _ _ H6 [H7 _]] _ _]]. split; [|done].
    intros pb [o1 [o2 E]]%elem_of_list_split. destruct (H6 pb o1 o2 E) as (ch & Hc & _). exists ch. split; [done|].
    intros o1' o2' E'. destruct (H6 pb o1' o2' E') as (ch' & Hc' & Hin). congruence.
  Qed.

  Lemma fine_order i k : f_conns s !! i = Some k →
    ∃ done rest, blocks_out (k_c (fc_conn k)) = done ++ rest ∧ length rest ≤ 1 ∧ (fc_call k = CIdle → rest = []) ∧ handed_over s done.
  Proof using H0 Hr Hw.
    intros Hk. destruct (finv_run _ _ _ _ _ H0 Hr Hw) as [evs [H1 H2 H3 [G1 G2 G3 G4 G5 G6 G7] H5 H6]].
    destruct (H5 i k Hk) as (es & Hl & E). exists (completes_of (tagged i evs)), (completes_of es). split.
    { unfold blocks_out. rewrite E, omap_app. done. }
    split.
    { assert (length es ≤ 1) by (by eapply left_short). destruct es as [|[] [|]]; cbn in *; lia. }
    split; [intros Hi; rewrite Hi in Hl; cbn in Hl; by subst es|].
    destruct (tagged_order i evs _ G4) as (l' & S1 & S2). by exists l'.
  Qed.

  Lemma fine_no_crash a : fact_ok a → fact_ws a → (∀ o, a ≠ FTake o) → fstep c a s ≠ Some None.
  Proof using H0 Hr Hw.
    intros Hok Ha Ht. destruct (finv_run _ _ _ _ _ H0 Hr Hw) as [evs [H1 H2 H3 _ H5 H6]].
    destruct a as [i|i o f|i|o|m e|]; cbn [fstep]; try done.
    - destruct (f_conns s !! i) as [[k []]|]; done.
    - destruct (f_conns s !! i) as [[k []]|]; done.
    - destruct (f_conns s !! i) as [[k cl]|] eqn:Ek; [|done]. destruct cl; try done; cbn [call_step fc_call].
      + destruct (open_chan (f_mp s) pb). done.
      + by rewrite bool_decide_eq_true_2.
    - by destruct (Ht o).
  Qed.

  Lemma fine_take o pb : sent_batches (mp_out (f_mp s)) !! length (batches_of (f_taken s)) = Some pb →
    batches_of (f_taken s ++ [(o, InBatch pb)]) `prefix_of` sent_batches (mp_out (f_mp s)).
  Proof using H0 Hr Hw.
    destruct (finv_run _ _ _ _ _ H0 Hr Hw) as [evs [_ _ _ [_ _ [r Er] _ _ _ _] _ _]]. intros Ep. rewrite Er in Ep |- *.
    unfold batches_of. rewrite omap_app. cbn. fold (batches_of (f_taken s)).
    rewrite lookup_app_r, Nat.sub_diag in Ep by done. destruct r as [|x r]; [done|]. cbn in Ep. injection Ep as ->.
    exists r. by rewrite <- app_assoc.
  Qed.

  Lemma fine_end_to_end (css : list (list wcall)) base num w old new :
    (∀ cs, cs ∈ css → publishes (old ++ new) cs) →
    started cfg base num w (map args_hdr old) (map args_hdr new) →
    (∀ k, k ∈ upstreams s → ∃ cs rest, cs ∈ css ∧ delivers cs k rest) →
    all_removed (o_out (f_omp s)) = [] ∧
    (∃ n, Forall2 (λ a pb, ∃ cs, cs ∈ css ∧ submitted cs a pb) (take n new) (all_added (o_out (f_omp s)))) ∧
    ((∀ a, a ∈ new → ∃ k cs, k ∈ upstreams s ∧ cs ∈ css ∧ delivers cs k [] ∧ all_answered cs a) →
     all_idle s → all_taken s →
     Forall2 (λ a pb, ∃ cs, cs ∈ css ∧ submitted cs a pb) new (all_added (o_out (f_omp s)))) ∧
    (∀ o, order_ok o → fstep c (FTake o) s ≠ Some None).
  Proof using H0 Hr Hw.
    intros P1 P2 P3. destruct (finv_run _ _ _ _ _ H0 Hr Hw) as [evs Hi].
    destruct (view_end_to_end css cfg base num w old new P1 P2 (coarse s) (finv_view _ _ _ Hi) P3) as (A1 & A2 & A3 & A4).
    split; [done|]. split; [done|]. split.
    - intros Ha Hidle Ht. apply A3; [by eapply finv_sent|done|done].
    - intros o Ho. cbn [fstep]. destruct (_ !! _) as [pb|] eqn:Ep; [|done].
      destruct (A4 o pb Ho (fine_take o pb Ep)) as [s' Es]. change (w_omp (coarse s)) with (f_omp s) in Es. by rewrite Es.
  Qed.
  Lemma fine_reconnect num chain :
    started cfg (cfg_last_hash cfg) num (cfg_last_weight cfg) [] (map wb_hdr chain) →
    (∀ k, k ∈ upstreams s → no_reorg_item k) →
    (∀ k, k ∈ upstreams s → sessions_ok chain (cfg_last_num cfg) (cfg_last_hash cfg) (wsc_new (cfg_last_num cfg) (cfg_last_hash cfg)) (life k)) →
    all_removed (o_out (f_omp s)) = [] ∧
    (∃ m, Forall2 block_done (take m chain) (all_added (o_out (f_omp s)))) ∧
    (all_idle s → all_taken s → ∀ k, k ∈ upstreams s →
     ∃ n m, resume_at chain (cfg_last_num cfg) (cfg_last_hash cfg) (k_c k) n ∧ n ≤ m ∧ n ≤ length chain ∧
       Forall2 block_done (take m chain) (all_added (o_out (f_omp s)))) ∧
    (all_idle s → all_taken s →
     (∃ k n, k ∈ upstreams s ∧
        resume_at chain (cfg_last_num cfg) (cfg_last_hash cfg) (wsc_sessions (wsc_new (cfg_last_num cfg) (cfg_last_hash cfg)) (k_done k)) n ∧
        caught_up chain n (items (k_cur k))) →
     Forall2 block_done chain (all_added (o_out (f_omp s)))).
  Proof using H0 Hr Hw.
    intros P1 P2 P3. destruct (finv_run _ _ _ _ _ H0 Hr Hw) as [evs Hi].
    destruct (view_reconnect cfg num chain P1 (coarse s) (finv_view _ _ _ Hi) P2 P3) as (A1 & A2 & A3 & A4).
    split; [done|]. split; [done|]. split; intros Hidle; [apply A3|apply A4]; by eapply finv_sent.
  Qed.
End run.

(** A call that is not disturbed is the one of the coarser model. *)
Lemma undisturbed c s i k pb : f_conns s !! i = Some (FC k (CAnnounce pb)) → mp_pend (f_mp s) = ∅ →
  frun c s (replicate 5 (FCall i)) (FS (<[i := FC k CIdle]> (f_conns s)) (process_complete (f_mp s) pb) (f_omp s) (f_taken s) (f_msg s)).
Proof.
  intros Hk Hp. destruct s as [ks st om l msg]. cbn in Hk, Hp. cbn [f_conns f_mp f_omp f_taken f_msg].
  assert (Hlt : i < length ks) by (by eapply lookup_lt_Some).
  assert (Hq : delete (pb_hash pb) (mp_pend st) = mp_pend st) by (rewrite Hp; apply delete_empty).
  unfold process_complete. destruct (pb_wait pb) as [ch|] eqn:Ew.
  - eapply (frun_snoc _ _ (replicate 4 (FCall i))); [|done|].
    { eapply (frun_snoc _ _ (replicate 3 (FCall i))); [|done|].
      { eapply (frun_snoc _ _ (replicate 2 (FCall i))); [|done|].
        { eapply (frun_snoc _ _ (replicate 1 (FCall i))); [|done|].
          { eapply (frun_snoc _ _ []); [constructor|done|]. cbn. rewrite Hk. cbn. unfold open_chan. rewrite Ew. cbn. reflexivity. }
          cbn. rewrite list_lookup_insert by done. cbn. rewrite list_insert_insert. reflexivity. }
        cbn. rewrite list_lookup_insert by done. cbn. rewrite list_insert_insert. reflexivity. }
      cbn. rewrite list_lookup_insert by done. cbn. rewrite list_insert_insert. reflexivity. }
    cbn. rewrite list_lookup_insert by done. cbn. rewrite list_insert_insert. rewrite bool_decide_eq_true_2 by done.
    rewrite Ew. cbn. rewrite Hq. unfold add_done, set_last_num, emit_event. cbn. by rewrite <- app_assoc.
  - eapply (frun_snoc _ _ (replicate 4 (FCall i))); [|done|].
    { eapply (frun_snoc _ _ (replicate 3 (FCall i))); [|done|].
      { eapply (frun_snoc _ _ (replicate 2 (FCall i))); [|done|].
        { eapply (frun_snoc _ _ (replicate 1 (FCall i))); [|done|].
          { eapply (frun_snoc _ _ []); [constructor|done|]. cbn. rewrite Hk. cbn. unfold open_chan. rewrite Ew. cbn. reflexivity. }
          cbn. rewrite list_lookup_insert by done. cbn. rewrite list_insert_insert. reflexivity. }
        cbn. rewrite list_lookup_insert by done. cbn. rewrite list_insert_insert. reflexivity. }
      cbn. rewrite list_lookup_insert by done. cbn. rewrite list_insert_insert. reflexivity. }
    cbn. rewrite list_lookup_insert by done. cbn. rewrite list_insert_insert. rewrite bool_decide_eq_true_2 by done.
    cbn. rewrite Hq. unfold add_done, set_last_num, emit_event, new_chan. cbn. by rewrite <- app_assoc.
Qed.
