(** The waiter with the two kinds of consumers; how often a block is announced. *)
From Verif Require Import Base Lru LruFacts Types Avro Wire SpecWire GoPath Producer SpecBlock Consumer ConsumerBase ConsumerFacts
  SpecCollect CollectFacts CollectFacts2 Ordering SpecChain OrderingBase OrderingFrom System SpecSystem SystemFacts SystemFacts2
  SpecToken TokenFacts WsSystem WsSystemFacts Waiter SpecWaiter WaiterFacts WaiterFacts2 WaiterFacts3 WaiterFacts4 WaitSystem SpecWaitSystem WaitSystemFacts.

(** * Consumers of messages *)
Lemma sys_reach c cfg y y' : sys_run c cfg y → sys_step c y y' → sys_run c cfg y'.
Proof. intros (y0 & H0 & Hr) Hs. exists y0. split; [done|]. by eapply rtc_r. Qed.
Lemma sys_out_grows c cfg y y' : sys_run c cfg y → sys_step c y y' → sys_out y `prefix_of` sys_out y'.
Proof.
  intros Hv%sys_run_inv Hs. pose proof (consumer_base _ _ _ (sv_mp _ _ _ Hv)) as Hb. unfold sys_out.
  destruct Hs as [st s ins l m e st' err lx s' He Hp Ho Hr Hc Hq|st s ins l n Hn|st s ins l i s' Ho Hs Hc]; cbn in *.
  - apply process_frame in Hp as ((o & -> & _) & _); [|done]. by apply prefix_app_r.
  - destruct (evict_older_spec st n) as (_ & _ & _ & _ & -> & _). done.
  - done.
Qed.
Lemma sys_upd_grows c y y' : sys_step c y y' → sys_upd y `prefix_of` sys_upd y'.
Proof.
  intros Hs. unfold sys_upd.
  destruct Hs as [st s ins l m e st' err lx s' He Hp Ho Hr Hc Hq|st s ins l n Hn|st s ins l i s' Ho Hs Hc]; cbn in *.
  - by apply run_grows in Hr.
  - done.
  - apply (run_grows s [i]). unfold omp_run. cbn [foldM]. by rewrite Hs.
Qed.
Lemma sys_from c cfg y pb : sys_run c cfg y → pb ∈ all_added (sys_upd y) ∨ pb ∈ all_removed (sys_upd y) → EBatch pb ∈ sys_out y.
Proof.
  intros Hv%sys_run_inv Hpb. destruct (sv_omp _ _ _ Hv) as (s0 & H0 & Hr). apply elem_of_sent.
  eapply elem_of_prefix; [by eapply delivered_received|]. apply (sv_con _ _ _ Hv).
Qed.
Lemma sys_announced c cfg y : sys_run c cfg y →
  (∀ pb, EBatch pb ∈ sys_out y → ∃ ch, pb_wait pb = Some ch ∧
     before (sys_out y) (EWaiter (pb_hash pb) (pb_parent pb) (pb_num pb) ch) (EBatch pb)) ∧
  NoDup (omap channel (sys_out y)).
Proof. intros Hv%sys_run_inv. eapply announced_first, Hv. Qed.

(** * Consumers of websocket notifications *)
Lemma ws_reach c cfg y y' : ws_run c cfg y → ws_step y y' → ws_run c cfg y'.
Proof. intros (y0 & H0 & Hr) Hs. exists y0. split; [done|]. by eapply rtc_r. Qed.
Lemma ws_events_grow es : ∀ y, ws_out y `prefix_of` ws_out (foldl ws_event y es) ∧ ws_upd y `prefix_of` ws_upd (foldl ws_event y es).
Proof.
  induction es as [|ev es IH]; intros y; [done|]. cbn [foldl]. destruct (IH (ws_event y ev)) as [H1 H2].
  assert (ws_out y `prefix_of` ws_out (ws_event y ev) ∧ ws_upd y `prefix_of` ws_upd (ws_event y ev)) as [G1 G2]; [|split; by etrans].
  destruct ev as [|n h|pb]; cbn; unfold ws_out, ws_upd; cbn.
  - done.
  - split; [done|]. by apply prefix_app_r.
  - split; [|done]. unfold process_complete. destruct (pb_wait pb); cbn; by apply prefix_app_r.
Qed.
Lemma ws_grows y y' : ws_step y y' → ws_out y `prefix_of` ws_out y' ∧ ws_upd y `prefix_of` ws_upd y'.
Proof.
  destruct 1 as [ks st s l i k Hk|ks st s l i k o f Hk Ho|ks st s l o pb s' Ho Hs Hp].
  - done.
  - apply (ws_events_grow _ (Ws (<[i := conn_frame o k f]> ks) st s l)).
  - split; [done|]. apply (run_grows s [(o, InBatch pb)]). unfold omp_run. cbn [foldM]. by rewrite Hs.
Qed.
Lemma ws_from c cfg y pb : ws_run c cfg y → pb ∈ all_added (ws_upd y) ∨ pb ∈ all_removed (ws_upd y) → EBatch pb ∈ ws_out y.
Proof.
  intros Hv%ws_run_inv Hpb. destruct (wi_core _ _ Hv) as (evs & Hc & _). destruct (co_omp _ _ _ _ _ Hc) as (s0 & H0 & Hr). apply elem_of_sent.
  eapply elem_of_prefix; [by eapply delivered_received|]. apply (co_prefix _ _ _ _ _ Hc).
Qed.
(** * Facts about both *)
Lemma sys_success c cfg j w q k : sys_joint c cfg j →
  wrun (j_tr j) w_init = Ok w → w_qs w !! q = Some (QDone k Success) →
  ∃ pb, pb ∈ j_done j ∧ (pb ∈ all_added (sys_upd (j_y j)) ∨ pb ∈ all_removed (sys_upd (j_y j))) ∧
    match k with KHash h => pb_hash pb = h | KNum n => pb_num pb = n end.
Proof.
  intros Hj. eapply (joint_success (sys_step c) sys_out sys_upd (sys_run c cfg)); [|..|exact Hj].
  - apply sys_reach.
  - apply sys_out_grows.
  - intros y y' _. apply sys_upd_grows.
  - apply sys_from.
  - apply sys_announced.
Qed.
Lemma ws_success c cfg j w q k : ws_joint c cfg j →
  wrun (j_tr j) w_init = Ok w → w_qs w !! q = Some (QDone k Success) →
  ∃ pb, pb ∈ j_done j ∧ (pb ∈ all_added (ws_upd (j_y j)) ∨ pb ∈ all_removed (ws_upd (j_y j))) ∧
    match k with KHash h => pb_hash pb = h | KNum n => pb_num pb = n end.
Proof.
  intros Hj. eapply (joint_success ws_step ws_out ws_upd (ws_run c cfg)); [|..|exact Hj].
  - apply ws_reach.
  - intros y y' _ H. by apply ws_grows.
  - intros y y' _ H. by apply ws_grows.
  - apply ws_from.
  - apply ws_announced.
Qed.

Lemma sys_answered c cfg j w pb : sys_joint c cfg j → pb ∈ j_done j →
  (∀ p n ch p' n' ch', EWaiter (pb_hash pb) p n ch ∈ sys_out (j_y j) → EWaiter (pb_hash pb) p' n' ch' ∈ sys_out (j_y j) → ch' = ch) →
  wrun (j_tr j) w_init = Ok w → settled_wait (j_tr j) (j_done j) w pb.
Proof.
  intros Hj. eapply (joint_answered (sys_step c) sys_out sys_upd (sys_run c cfg)); [|..|exact Hj].
  - apply sys_reach.
  - apply sys_out_grows.
  - intros y y' _. apply sys_upd_grows.
  - apply sys_from.
  - apply sys_announced.
Qed.
Lemma ws_answered c cfg j w pb : ws_joint c cfg j → pb ∈ j_done j →
  (∀ p n ch p' n' ch', EWaiter (pb_hash pb) p n ch ∈ ws_out (j_y j) → EWaiter (pb_hash pb) p' n' ch' ∈ ws_out (j_y j) → ch' = ch) →
  wrun (j_tr j) w_init = Ok w → settled_wait (j_tr j) (j_done j) w pb.
Proof.
  intros Hj. eapply (joint_answered ws_step ws_out ws_upd (ws_run c cfg)); [|..|exact Hj].
  - apply ws_reach.
  - intros y y' _ H. by apply ws_grows.
  - intros y y' _ H. by apply ws_grows.
  - apply ws_from.
  - apply ws_announced.
Qed.
Lemma sys_joint_reach c cfg j : sys_joint c cfg j → sys_run c cfg (j_y j).
Proof.
  intros Hj. eapply (ji_reach sys_out sys_upd (sys_run c cfg)), (joint_run_inv (sys_step c)); [|..|exact Hj].
  - apply sys_reach.
  - apply sys_out_grows.
  - intros y y' _. apply sys_upd_grows.
Qed.
Lemma sys_joint_total c cfg j : sys_joint c cfg j → ∃ w, wrun (j_tr j) w_init = Ok w.
Proof.
  intros Hj. eapply (joint_total (sys_step c) sys_out sys_upd (sys_run c cfg)); [|..|exact Hj].
  - apply sys_reach.
  - apply sys_out_grows.
  - intros y y' _. apply sys_upd_grows.
Qed.
Lemma ws_joint_total c cfg j : ws_joint c cfg j → ∃ w, wrun (j_tr j) w_init = Ok w.
Proof.
  intros Hj. eapply (joint_total ws_step ws_out ws_upd (ws_run c cfg)); [|..|exact Hj].
  - apply ws_reach.
  - intros y y' _ H. by apply ws_grows.
  - intros y y' _ H. by apply ws_grows.
Qed.

(** * How often a block is announced *)
(** Every announcement made is of a block still pending, dropped, or emitted since. *)
Record told (c : mp_config) (st : mp) : Prop := Told {
  to_keys : lru_keys (mp_done st) = take (Z.to_nat (2 * mc_thr c)) (emitted (mp_out st));
  to_left : ∀ pre h p k ch mid, mp_out st = pre ++ EWaiter h p k ch :: mid →
    is_Some (mp_pend st !! h) ∨ h ∈ mp_old st ∨ h ∈ emitted mid;
  to_apart : apart (Z.to_nat (2 * mc_thr c)) (mp_out st)
}.
Lemma told_same c st st' : told c st → mp_done st' = mp_done st → mp_out st' = mp_out st →
  (∀ h, is_Some (mp_pend st !! h) → is_Some (mp_pend st' !! h) ∨ h ∈ mp_old st') →
  (∀ h, h ∈ mp_old st → h ∈ mp_old st') → told c st'.
Proof.
  intros [H1 H2 H3] E1 E2 F1 F2. split; rewrite ?E1, ?E2; [done| |done].
  intros pre h p k ch mid E. destruct (H2 _ _ _ _ _ _ E) as [H|[H|H]]; [|right; left; by apply F2|by right; right].
  destruct (F1 _ H); [by left|by right; left].
Qed.
Lemma snoc_split {A} (l : list A) x pre y post : l ++ [x] = pre ++ y :: post →
  (pre = l ∧ y = x ∧ post = []) ∨ ∃ post', post = post' ++ [x] ∧ l = pre ++ y :: post'.
Proof.
  destruct post as [|z post _] using rev_ind; intros E.
  - apply app_inj_tail in E as [-> ->]. by left.
  - right. rewrite app_comm_cons, app_assoc in E. apply app_inj_tail in E as [-> ->]. by exists post.
Qed.
Lemma prim_told c e h st st' : base_inv c st → prim c e false h st st' → told c st → told c st'.
Proof.
  intros Hb Hp Ht. pose proof (bi_wf _ _ Hb) as Hw. destruct (bi_cap _ _ Hb) as [Hcap Hc0].
  destruct Hp as [st|st m|st Hr|st n Hr Hd Ho|st pb p n H1 H2 H3 H4|st m H1 H2 H3 H4|st pb pb' H1 H2 H3|st pb H1 H2|st|st k n Hn];
    try done; try (apply (told_same c st); [done|done|done|by left|done]).
  - destruct (drain_spec st) as (E1 & E2 & E3 & _ & _ & _ & _ & E8 & E9). apply (told_same c st); try done.
    + intros x [pb Hx]. destruct (decide (evicted (mp_evict st) pb)) as [He|He].
      * right. apply E9. right. by exists pb.
      * left. exists pb. by apply E8.
    + intros x Hx. apply E9. by left.
  - destruct (upd_res_spec st m) as (E1 & E2 & E3 & E4 & E5 & _). apply (told_same c st); try done; intros x; rewrite ?E1, ?E3; [by left|done].
  - destruct Ht as [T1 T2 T3]. split; cbn [open_batch mp_done mp_out mp_pend mp_old].
    + rewrite emitted_app. done.
    + intros pre h' p' k ch mid E. apply snoc_split in E as [(_ & E & ->)|(mid' & -> & E)].
      * injection E as -> _ _ _. left. rewrite lookup_insert. eauto.
      * destruct (T2 _ _ _ _ _ _ E) as [H|[H|H]].
        -- left. destruct (decide (h = h')) as [->|Hne]; [rewrite lookup_insert; eauto|by rewrite lookup_insert_ne].
        -- by right; left.
        -- right; right. rewrite emitted_app. done.
    + intros pre h' p1 k1 ch1 mid p2 k2 ch2 post E.
      rewrite app_comm_cons, app_assoc in E. apply snoc_split in E as [(E & E' & ->)|(post' & -> & E)].
      * injection E' as -> _ _ _. symmetry in E. destruct (T2 _ _ _ _ _ _ E) as [[? H]|[H|H]]; [congruence|done|].
        rewrite T1, E, emitted_app in H3. set (cap := Z.to_nat (2 * mc_thr c)) in *.
        change (EWaiter h p1 k1 ch1 :: mid) with ([EWaiter h p1 k1 ch1] ++ mid) in H3. rewrite emitted_app in H3. cbn [emitted omap list_omap rev app] in H3.
        assert (Hlen : cap ≤ length (emitted mid)).
        { destruct (decide (cap ≤ length (emitted mid))) as [|Hlt]; [done|]. exfalso. apply H3.
          rewrite <- app_assoc. rewrite take_app_ge by lia. apply elem_of_app. by left. }
        rewrite <- app_assoc, take_app_le in H3 by done. exists (take cap (emitted mid)).
        split; [|split; [by rewrite take_length_le|split; [done|]]].
        -- pose proof (lwf_nodup _ Hw) as Hnd. rewrite T1, E, emitted_app in Hnd.
           change (EWaiter h p1 k1 ch1 :: mid) with ([EWaiter h p1 k1 ch1] ++ mid) in Hnd. rewrite emitted_app in Hnd.
           rewrite <- app_assoc, take_app_le in Hnd by done. done.
        -- intros x Hx. apply elem_of_emitted. apply elem_of_take in Hx as (i & Hi & _). by eapply elem_of_list_lookup_2.
      * rewrite <- app_assoc in E. cbn in E. by eapply T3.
  - apply (told_same c st); try done. intros x Hx. left. cbn. destruct (decide (h = x)) as [->|Hne]; [rewrite lookup_insert; eauto|by rewrite lookup_insert_ne].
  - destruct Ht as [T1 T2 T3]. destruct (bi_pend _ _ Hb _ _ H1) as (Hh & Ho & Hd). destruct Hw as [_ Hl].
    split; cbn [emit mp_done mp_out mp_pend mp_old].
    + rewrite lru_add_fresh by done. rewrite Hcap, T1, emitted_app. cbn [emitted omap list_omap rev app]. rewrite Hh.
      change (h :: take (Z.to_nat (2 * mc_thr c)) (emitted (mp_out st))) with ([h] ++ take (Z.to_nat (2 * mc_thr c)) (emitted (mp_out st))).
      by rewrite take_app_take.
    + intros pre h' p' k ch mid E. apply snoc_split in E as [(_ & E & ->)|(mid' & -> & E)]; [discriminate E|].
      rewrite emitted_app. destruct (decide (h' = h)) as [->|Hne].
      * right; right. cbn. rewrite Hh. left.
      * destruct (T2 _ _ _ _ _ _ E) as [H|[H|H]]; [left; by rewrite lookup_delete_ne|by right; left|].
        right; right. apply elem_of_app. by right.
    + intros pre h' p1 k1 ch1 mid p2 k2 ch2 post E.
      rewrite app_comm_cons, app_assoc in E. apply snoc_split in E as [(E & E' & ->)|(post' & -> & E)]; [discriminate E'|].
      rewrite <- app_assoc in E. cbn in E. by eapply T3.
  - destruct (evict_older_spec st n) as (E1 & E2 & E3 & E4 & E5 & _). apply (told_same c st); try done; intros x; rewrite ?E1, ?E3; [by left|done].
Qed.
Lemma prims_told c e h st st' : base_inv c st → rtc (prim c e false h) st st' → told c st → told c st'.
Proof.
  intros Hb. induction 1 as [x|x y z Hxy _ IH]; [done|]. intros Ht. apply IH; [by eapply prim_base|by eapply prim_told].
Qed.
Lemma run_told c ins st : consumer_run c ins st → (∀ m, m ∈ messages ins → ¬ reorg_type m) → told c st.
Proof.
  intros (last & st0 & Hn & Hr) Hp%no_reorgs_plain. assert (Hb0 := new_base _ _ _ Hn).
  assert (Ht0 : told c st0).
  { revert Hn. unfold mp_new. case_bool_decide; [|discriminate]. intros [= <-]. split; cbn.
    - by rewrite take_nil.
    - intros pre h p k ch mid E. by destruct pre.
    - intros pre h p k ch mid p' k' ch' post E. by destruct pre. }
  clear Hn. revert st0 Hb0 Ht0 Hr. induction ins as [|i ins IH]; intros st0 Hb0 Ht0.
  - by intros [= <-].
  - apply Forall_cons in Hp as [Hi Hp]. unfold mp_run. cbn [foldM].
    destruct (mp_step c st0 i) as [s| |] eqn:E; cbn; try discriminate. intros Hr.
    apply (IH Hp s); [by eapply step_base| |done]. destruct i as [m e|n]; cbn in *.
    + destruct (process c e st0 m) as [[s' er]| |] eqn:Ep; cbn in E; try discriminate. injection E as <-.
      apply process_prims in Ep; [|apply Hb0]. rewrite Hi in Ep. by eapply prims_told.
    + injection E as <-. destruct (evict_older_spec st0 n) as (E1 & E2 & E3 & E4 & E5 & _).
      apply (told_same c st0); try done; intros x; rewrite ?E1, ?E3; [by left|done].
Qed.
Lemma announced_apart c ins st : consumer_run c ins st → (∀ m, m ∈ messages ins → ¬ reorg_type m) →
  apart (Z.to_nat (2 * mc_thr c)) (mp_out st).
Proof. intros Hr Hp. apply (to_apart c), (run_told c ins); done. Qed.

(** A block is announced once if no more blocks than the cache of completed ones holds exist. *)
Lemma apart_once n o (hs : list hash) h : apart n o → (∀ pb, EBatch pb ∈ o → pb_hash pb ∈ hs) → h ∈ hs → length hs ≤ n →
  ∀ p k ch p' k' ch', NoDup (omap channel o) → EWaiter h p k ch ∈ o → EWaiter h p' k' ch' ∈ o → ch' = ch.
Proof.
  intros Ha Hall Hh Hlen p k ch p' k' ch' Hnd H1 H2. destruct (decide (ch' = ch)) as [|Hne]; [done|]. exfalso.
  assert (Hno : ∀ pre p k ch mid p' k' ch' post, o = pre ++ EWaiter h p k ch :: mid ++ EWaiter h p' k' ch' :: post → False).
  { intros pre q1 k1 c1 mid q2 k2 c2 post E. destruct (Ha _ _ _ _ _ _ _ _ _ _ E) as (l & L1 & L2 & L3 & L4).
    assert (Hsub : h :: l ⊆+ hs).
    { apply NoDup_submseteq; [by apply NoDup_cons|]. intros x [->|Hx]%elem_of_cons; [done|]. destruct (L4 _ Hx) as (pb & Hpb & <-).
      apply Hall. rewrite E. apply elem_of_app. right. apply elem_of_cons. right. apply elem_of_app. by left. }
    apply submseteq_length in Hsub. cbn in Hsub. lia. }
  apply elem_of_list_split in H1 as (a & b & ->). apply elem_of_app in H2 as [H2|[H2|H2]%elem_of_cons].
  - apply elem_of_list_split in H2 as (a1 & a2 & ->). eapply (Hno a1 p' k' ch' a2 p k ch b). by rewrite <- app_assoc.
  - injection H2 as _ _ ->. done.
  - apply elem_of_list_split in H2 as (a1 & a2 & ->). by eapply (Hno a p k ch a1 p' k' ch' a2).
Qed.

(** * A published chain, waited for *)
Lemma chain_answered mt base num w old new c cfg :
  let bs := old ++ new in
  chain_from base num w bs → NoDup (base :: map bk_hash bs) → (∀ b, b ∈ bs → wf_block mt b) →
  cfg_last_hash cfg = end_hash base old → cfg_last_weight cfg = end_weight w old → cfg_last_hash cfg ≠ zero_hash →
  (∀ b, b ∈ bs → (0 ≤ ba_num (bk_args b))%Z ∧
     ∀ h, cfg_whitelist cfg !! ba_num (bk_args b) = Some h → h = bk_hash b) →
  (Z.of_nat (length bs) ≤ 2 * mc_thr c)%Z →
  ∀ j, sys_joint c cfg j → only_from mt bs (messages (y_ins (j_y j))) →
  (∀ b kd, b ∈ new → needed mt b (mc_tracked c) kd → delivered (messages (y_ins (j_y j))) kd) →
  batches_of (y_taken (j_y j)) = sent_batches (mp_out (y_mp (j_y j))) →
  (∀ pb, pb ∈ all_added (o_out (y_omp (j_y j))) → pb ∈ j_done j) →
  ∃ ws, wrun (j_tr j) w_init = Ok ws ∧
  ∀ b, b ∈ new → ∃ pb, pb ∈ all_added (o_out (y_omp (j_y j))) ∧ exact mt b (mc_tracked c) pb ∧
    settled_wait (j_tr j) (j_done j) ws pb.
Proof.
  intros bs Hc Hnd Hwf Hl Hw Hz Hwl Hlen j Hj Hms Hall Hdone Hcalled.
  destruct (sys_joint_total _ _ _ Hj) as [ws Hws]. exists ws. split; [done|]. intros b Hb.
  assert (Hrun := sys_joint_reach _ _ _ Hj). assert (Hv := sys_run_inv _ _ _ Hrun).
  destruct (end_to_end mt base num w old new c cfg Hc Hnd Hwf Hl Hw Hz Hwl (j_y j) Hrun Hms) as (_ & _ & H3).
  specialize (H3 Hall Hdone). apply elem_of_list_lookup in Hb as [i Hi].
  destruct (Forall2_lookup_l _ _ _ _ _ H3 Hi) as (pb & Hpb & Hex). exists pb.
  assert (Hin : pb ∈ all_added (o_out (y_omp (j_y j)))) by (by eapply elem_of_list_lookup_2).
  split; [done|]. split; [done|]. eapply sys_answered; [exact Hj|by apply Hcalled| |done].
  intros p n ch p' n' ch'. apply (apart_once (Z.to_nat (2 * mc_thr c)) _ (map bk_hash bs)).
  - eapply announced_apart; [apply Hv|]. intros m Hm. by apply Hms.
  - intros pb' Hpb'%elem_of_sent. destruct (emitted_from mt base old new c Hnd Hwf (y_ins (j_y j)) (y_mp (j_y j)) pb') as (i' & b' & Hi' & He'); [apply Hv|apply Hv|done|done|].
    apply elem_of_list_fmap. exists b'. split; [|by eapply elem_of_list_lookup_2]. by apply exact_headed in He' as (_ & _ & _ & ?).
  - apply elem_of_list_fmap. exists b. split; [by apply exact_headed in Hex as (_ & _ & _ & ?)|].
    apply elem_of_app. right. by eapply elem_of_list_lookup_2.
  - rewrite map_length. lia.
  - eapply sys_announced. exact Hrun.
Qed.

(** * Joint executions from executions of the consumer *)
Lemma joint_lift {Y} (step : Y → Y → Prop) out upd (reach : Y → Prop) y y' tr d :
  (∀ y y', reach y → step y y' → reach y') → (∀ y y', reach y → step y y' → out y `prefix_of` out y') →
  reach y → rtc step y y' → rtc (joint_step step out upd) (Joint y tr d) (Joint y' (tr ++ announcements (drop (length (out y)) (out y'))) d).
Proof.
  intros Hreach Hout Hy Hr. assert (∀ y y', reach y → rtc step y y' → out y `prefix_of` out y') as Hpre.
  { clear -Hreach Hout. intros y y' Hy Hr. induction Hr as [|y y1 y' Hs Hr IH]; [done|]. etrans; [by eapply Hout|]. apply IH. by eapply Hreach. }
  revert tr Hy. induction Hr as [y|y y1 y' Hs Hr IH]; intros tr Hy.
  - rewrite drop_all. cbn. rewrite app_nil_r. done.
  - eapply rtc_l; [by apply JConsumer|]. assert (Hy1 : reach y1) by (by eapply Hreach).
    specialize (IH (tr ++ announcements (drop (length (out y)) (out y1))) Hy1).
    assert (announcements (drop (length (out y)) (out y')) =
      announcements (drop (length (out y)) (out y1)) ++ announcements (drop (length (out y1)) (out y'))) as ->.
    { destruct (Hout _ _ Hy Hs) as [a Ea]. destruct (Hpre _ _ Hy1 Hr) as [b Eb].
      rewrite <- announcements_app. f_equal. rewrite Eb, drop_app, Ea, <- app_assoc, !drop_app. done. }
    by rewrite app_assoc.
Qed.
Lemma joint_internal {Y} (step : Y → Y → Prop) out upd y tr d l : Forall internal l →
  rtc (joint_step step out upd) (Joint y tr d) (Joint y (tr ++ l) d).
Proof.
  intros H. revert tr. induction H as [|a l Ha _ IH]; intros tr; [by rewrite app_nil_r|].
  eapply rtc_l; [by apply JWaiter|]. specialize (IH (tr ++ [a])). by rewrite <- app_assoc in IH.
Qed.
Lemma sys_truthful c cfg j : sys_joint c cfg j → ∃ w, wrun (j_tr j) w_init = Ok w ∧
  ∀ q k, w_qs w !! q = Some (QDone k Success) →
  ∃ pb, pb ∈ j_done j ∧ (pb ∈ all_added (sys_upd (j_y j)) ∨ pb ∈ all_removed (sys_upd (j_y j))) ∧
    match k with KHash h => pb_hash pb = h | KNum n => pb_num pb = n end.
Proof. intros Hj. destruct (sys_joint_total _ _ _ Hj) as [w Hw]. exists w. split; [done|]. intros q k. by apply (sys_success c cfg). Qed.
Lemma ws_truthful c cfg j : ws_joint c cfg j → ∃ w, wrun (j_tr j) w_init = Ok w ∧
  ∀ q k, w_qs w !! q = Some (QDone k Success) →
  ∃ pb, pb ∈ j_done j ∧ (pb ∈ all_added (ws_upd (j_y j)) ∨ pb ∈ all_removed (ws_upd (j_y j))) ∧
    match k with KHash h => pb_hash pb = h | KNum n => pb_num pb = n end.
Proof. intros Hj. destruct (ws_joint_total _ _ _ Hj) as [w Hw]. exists w. split; [done|]. intros q k. by apply (ws_success c cfg). Qed.
