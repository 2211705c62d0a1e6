(** C57: blocks through websocket connections and the ordering layer. *)
From Verif Require Import Base Lru LruFacts Types Avro Wire GoPath Producer SpecBlock Consumer SpecToken
  Websocket SpecWebsocket WebsocketFacts WebsocketFacts2 WebsocketFacts3 WebsocketFacts4 WebsocketFacts5
  Ordering SpecChain OrderingBase OrderingFacts OrderingPanic System SpecSystem SystemFacts SystemFacts2 WsSystem SpecWsSystem.

(** * Connections *)
Definition sessions0 (cfg : config) (l : list (list delivery)) : wsc := wsc_sessions (wsc_new (cfg_last_num cfg) (cfg_last_hash cfg)) l.

Record conn_inv (cfg : config) (k : conn) : Prop := CI {
  ci_c : k_c k = sessions0 cfg (life k);
  ci_ord : Forall SpecWebsocket.orders_ok (life k)
}.
Lemma conn_inv_new cfg : conn_inv cfg (conn_new cfg).
Proof. split; [done|]. by apply Forall_singleton, Forall_nil. Qed.
Lemma sessions_snoc st l ds : wsc_sessions st (l ++ [ds]) = wsc_run (wsc_connect (wsc_sessions st l)) ds.
Proof. unfold wsc_sessions. by rewrite foldl_app. Qed.
Lemma conn_inv_again cfg k : conn_inv cfg k → conn_inv cfg (conn_again k).
Proof.
  intros [H1 H2]. split.
  - cbn. unfold sessions0, life at 1. cbn [k_done k_cur conn_again]. rewrite sessions_snoc. cbn [wsc_run foldl]. by rewrite H1.
  - unfold life at 1. cbn. apply Forall_app. split; [done|]. by apply Forall_singleton, Forall_nil.
Qed.
Lemma conn_inv_frame cfg o k f : (∀ x, o x ≡ₚ x) → conn_inv cfg k → conn_inv cfg (conn_frame o k f).
Proof.
  intros Ho [H1 H2]. unfold conn_frame. destruct (ws_read (k_note k) f) as [note [i|]]; [|by split].
  split; cbn.
  - rewrite H1. unfold sessions0, life. cbn [k_done k_cur]. rewrite !sessions_snoc. unfold wsc_run. by rewrite foldl_app.
  - unfold life in *. cbn. apply Forall_app in H2 as [H2 H3]. apply Forall_app. split; [done|].
    apply Forall_singleton. apply (proj1 (Forall_singleton _ _)) in H3. apply Forall_app. split; [done|]. by apply Forall_singleton.
Qed.

Lemma events_app o st i : ∃ es, c_out (wsc_step o st i) = c_out st ++ es ∧ length es ≤ 1.
Proof.
  destruct i as [|n h|b|s|]; cbn [wsc_step].
  - destruct (c_ready st); [exists []; by rewrite app_nil_r; cbn; auto with lia|]. exists [WReady]. cbn. split; [done|lia].
  - exists [WReorg n h]. cbn. split; [done|lia].
  - destruct (foldl announce _ _) as [[pb subs] wait]. case_decide.
    + exists [WComplete pb]. cbn. split; [done|lia].
    + exists []. cbn. rewrite app_nil_r. split; [done|lia].
  - destruct (c_batches st !! ts_hash s) as [pb|]; [case_decide|].
    + exists [WComplete (merge_sub pb s)]. cbn. split; [done|lia].
    + exists []. cbn. rewrite app_nil_r. split; [done|lia].
    + exists []. cbn. rewrite app_nil_r. split; [done|lia].
  - exists []. cbn. rewrite app_nil_r. split; [done|lia].
Qed.
Lemma conn_events_app o k f : c_out (k_c (conn_frame o k f)) = c_out (k_c k) ++ conn_events k (conn_frame o k f).
Proof.
  unfold conn_events, conn_frame. destruct (ws_read (k_note k) f) as [note [i|]]; cbn.
  - destruct (events_app o (k_c k) i) as (es & -> & _). by rewrite drop_app.
  - by rewrite drop_all, app_nil_r.
Qed.

(** What a list of messages makes the consumer do. *)
Definition nowait (st : wsc) : Prop :=
  (∀ h pb, c_batches st !! h = Some pb → pb_wait pb = None) ∧ (∀ pb, WComplete pb ∈ c_out st → pb_wait pb = None).
Lemma announce_wait ids : ∀ pb subs wait pb' subs' wait',
  foldl announce (pb, subs, wait) ids = (pb', subs', wait') → pb_wait pb = None → pb_wait pb' = None.
Proof.
  induction ids as [|id ids IH]; intros pb subs wait pb' subs' wait'; cbn; [by intros [= <- _ _]|].
  destruct (subs !! id) as [s|]; intros H Hw; (eapply IH; [exact H|]); done.
Qed.
Lemma nowait_step o st i : nowait st → nowait (wsc_step o st i).
Proof.
  intros [H1 H2]. destruct i as [|n h|b|s|]; cbn [wsc_step].
  - destruct (c_ready st); [by split|]. split; [exact H1|]. cbn. intros pb [H|H%elem_of_list_singleton]%elem_of_app; [by apply H2|discriminate H].
  - split; [exact H1|]. cbn. intros pb [H|H%elem_of_list_singleton]%elem_of_app; [by apply H2|discriminate H].
  - destruct (foldl announce _ _) as [[pb subs] wait] eqn:E. apply announce_wait in E; [|done]. case_decide.
    + split; [exact H1|]. cbn. intros pb' [H'|H'%elem_of_list_singleton]%elem_of_app; [by apply H2|by injection H' as ->].
    + split; [|exact H2]. cbn. intros h' pb' [[_ <-]|[_ H']]%lookup_insert_Some; [done|by eapply H1].
  - destruct (c_batches st !! ts_hash s) as [pb|] eqn:E; [case_decide|by split].
    + split; cbn; [intros h' pb' [_ H']%lookup_delete_Some; by eapply H1|].
      intros pb' [H'|H'%elem_of_list_singleton]%elem_of_app; [by apply H2|]. injection H' as ->. cbn. by eapply H1.
    + split; [|exact H2]. cbn. intros h' pb' [[_ <-]|[_ H']]%lookup_insert_Some; [cbn; by eapply H1|by eapply H1].
  - by split.
Qed.
Lemma nowait_run ds st : nowait st → nowait (wsc_run st ds).
Proof. revert st. induction ds as [|d ds IH]; intros st H; [done|]. cbn. by apply IH, nowait_step. Qed.
Lemma nowait_sessions n h l : nowait (wsc_sessions (wsc_new n h) l).
Proof.
  induction l as [|ds l IH] using rev_ind.
  - split; cbn; [intros ??; by rewrite lookup_empty|by intros ? ?%elem_of_nil].
  - rewrite sessions_snoc. apply nowait_run. destruct IH as [_ H2]. split; [cbn; intros ??; by rewrite lookup_empty|exact H2].
Qed.

Lemma reorg_step o st i n h : WReorg n h ∈ c_out (wsc_step o st i) → WReorg n h ∈ c_out st ∨ i = IReorg n h.
Proof.
  destruct i as [|n' h'|b|s|]; cbn [wsc_step].
  - destruct (c_ready st); [by left|]. cbn. intros [H|H%elem_of_list_singleton]%elem_of_app; [by left|discriminate H].
  - cbn. intros [H|H%elem_of_list_singleton]%elem_of_app; [by left|]. right. by injection H as -> ->.
  - destruct (foldl announce _ _) as [[pb subs] wait]. case_decide; cbn; [|by left].
    intros [H'|H'%elem_of_list_singleton]%elem_of_app; [by left|discriminate H'].
  - destruct (c_batches st !! ts_hash s) as [pb|]; [case_decide|by left]; cbn; [|by left].
    intros [H'|H'%elem_of_list_singleton]%elem_of_app; [by left|discriminate H'].
  - by left.
Qed.
Lemma reorg_run ds n h : ∀ st, WReorg n h ∈ c_out (wsc_run st ds) → WReorg n h ∈ c_out st ∨ IReorg n h ∈ items ds.
Proof.
  induction ds as [|d ds IH]; intros st; [by left|]. cbn. intros [H|H]%IH.
  - apply reorg_step in H as [H|H]; [by left|]. right. rewrite H. apply elem_of_list_here.
  - right. by apply elem_of_list_further.
Qed.
Lemma reorg_sessions a b l n h : WReorg n h ∈ c_out (wsc_sessions (wsc_new a b) l) → ∃ ds, ds ∈ l ∧ IReorg n h ∈ items ds.
Proof.
  induction l as [|ds l IH] using rev_ind; [by intros ?%elem_of_nil|]. rewrite sessions_snoc.
  intros [H|H]%reorg_run.
  - destruct (IH H) as (d & H1 & H2). exists d. split; [apply elem_of_app; by left|done].
  - exists ds. split; [apply elem_of_app; right; apply elem_of_list_here|done].
Qed.

(** * The message processor and the ordering layer, driven by the events of the connections *)
Definition same_data (pb pb0 : pending_batch) : Prop :=
  pb_num pb = pb_num pb0 ∧ pb_weight pb = pb_weight pb0 ∧ pb_parent pb = pb_parent pb0 ∧ pb_hash pb = pb_hash pb0 ∧
  pb_values pb = pb_values pb0 ∧ pb_deletes pb = pb_deletes pb0.
Definition completes_of (l : list wevent) : list pending_batch :=
  omap (λ e, match e with WComplete pb => Some pb | _ => None end) l.

Definition told_first (o : list mp_event) : Prop :=
  ∀ pb o1 o2, o = o1 ++ EBatch pb :: o2 →
    ∃ ch, pb_wait pb = Some ch ∧ EWaiter (pb_hash pb) (pb_parent pb) (pb_num pb) ch ∈ o1.

Record core (cfg : config) (evs : list wevent) (st : mp) (s : omp) (l : list (order * omp_input)) : Prop := Core {
  co_omp : ∃ s0, new_omp cfg = Ok s0 ∧ omp_run s0 l = Ok s;
  co_ord : orders_ok l;
  co_prefix : batches_of l `prefix_of` sent_batches (mp_out st);
  co_sent : Forall2 same_data (sent_batches (mp_out st)) (completes_of evs);
  co_reorg : ∀ o n h, (o, InReorg n h) ∈ l → WReorg n h ∈ evs;
  co_told : told_first (mp_out st);
  co_chan : NoDup (omap channel (mp_out st)) ∧ ∀ ch, ch ∈ omap channel (mp_out st) → (ch < mp_chan st)%N
}.

Definition with_wait (pb : pending_batch) (ch : N) : pending_batch :=
  PB (pb_num pb) (pb_weight pb) (pb_parent pb) (pb_hash pb) (pb_values pb) (pb_deletes pb) (pb_res pb)
     (pb_resdef pb) (pb_prefixes pb) (pb_batches pb) (pb_pbatches pb) (pb_pmsgs pb) (Some ch) (pb_frp pb).
Lemma process_complete_out st pb : pb_wait pb = None →
  mp_out (process_complete st pb) =
    mp_out st ++ [EWaiter (pb_hash pb) (pb_parent pb) (pb_num pb) (mp_chan st); EBatch (with_wait pb (mp_chan st))] ∧
  mp_chan (process_complete st pb) = (mp_chan st + 1)%N.
Proof. intros H. unfold process_complete. by rewrite H. Qed.

Lemma core_event cfg evs y ev : (∀ pb, ev = WComplete pb → pb_wait pb = None) →
  core cfg evs (w_mp y) (w_omp y) (w_taken y) →
  core cfg (evs ++ [ev]) (w_mp (ws_event y ev)) (w_omp (ws_event y ev)) (w_taken (ws_event y ev)).
Proof.
  intros Hw [H1 H2 H3 H4 H5 H6 [H7 H8]]. destruct ev as [|n h|pb]; cbn [ws_event w_mp w_omp w_taken].
  - split; try done.
    + unfold completes_of. rewrite omap_app. cbn. by rewrite app_nil_r.
    + intros o n h H. apply elem_of_app. left. by eapply H5.
  - destruct H1 as (s0 & H0 & Hr). split; try done.
    + exists s0. split; [done|]. by eapply omp_run_app.
    + apply Forall_app. split; [done|]. apply Forall_singleton. exact id_order_ok.
    + rewrite batches_of_app. cbn. by rewrite app_nil_r.
    + unfold completes_of. rewrite omap_app. cbn. by rewrite app_nil_r.
    + intros o n' h' [H|H%elem_of_list_singleton]%elem_of_app; apply elem_of_app; [left; by eapply H5|right].
      injection H as _ -> ->. apply elem_of_list_here.
  - destruct (process_complete_out (w_mp y) pb (Hw pb eq_refl)) as [E1 E2]. split; rewrite ?E1, ?E2; try done.
    + rewrite sent_app. by apply prefix_app_r.
    + rewrite sent_app. unfold completes_of. rewrite omap_app. cbn. apply Forall2_app; [done|]. by repeat constructor.
    + intros o n h H. apply elem_of_app. left. by eapply H5.
    + intros pb' o1 o2 E.
      change [EWaiter (pb_hash pb) (pb_parent pb) (pb_num pb) (mp_chan (w_mp y)); EBatch (with_wait pb (mp_chan (w_mp y)))]
        with ([EWaiter (pb_hash pb) (pb_parent pb) (pb_num pb) (mp_chan (w_mp y))] ++ [EBatch (with_wait pb (mp_chan (w_mp y)))]) in E.
      destruct o2 as [|x o2 _] using rev_ind.
      * rewrite app_assoc in E. apply app_inj_tail in E as [<- [= <-]]. exists (mp_chan (w_mp y)). split; [done|].
        apply elem_of_app. right. apply elem_of_list_here.
      * rewrite app_comm_cons, !app_assoc in E. apply app_inj_tail in E as [E _].
        destruct o2 as [|x2 o2 _] using rev_ind.
        -- apply app_inj_tail in E as [_ E]. discriminate E.
        -- rewrite app_comm_cons, app_assoc in E. apply app_inj_tail in E as [E _]. by eapply H6.
    + rewrite omap_app. cbn. split.
      * apply NoDup_app. split; [done|]. split; [|apply NoDup_singleton].
        intros ch Hch ->%elem_of_list_singleton. apply H8 in Hch. lia.
      * intros ch [H| ->%elem_of_list_singleton]%elem_of_app; [apply H8 in H; lia|lia].
Qed.
Lemma core_events cfg es : ∀ evs y, (∀ pb, WComplete pb ∈ es → pb_wait pb = None) →
  core cfg evs (w_mp y) (w_omp y) (w_taken y) →
  core cfg (evs ++ es) (w_mp (foldl ws_event y es)) (w_omp (foldl ws_event y es)) (w_taken (foldl ws_event y es)).
Proof.
  induction es as [|ev es IH]; intros evs y Hw H; [by rewrite app_nil_r|]. cbn [foldl].
  replace (evs ++ ev :: es) with ((evs ++ [ev]) ++ es) by (by rewrite <- app_assoc).
  apply IH; [intros pb Hpb; apply Hw; by apply elem_of_list_further|].
  apply core_event; [|done]. intros pb ->. apply Hw, elem_of_list_here.
Qed.
Lemma events_conns es : ∀ y, w_conns (foldl ws_event y es) = w_conns y.
Proof. induction es as [|ev es IH]; intros y; [done|]. cbn. rewrite IH. by destruct ev. Qed.

Record ws_inv (cfg : config) (y : wsys) : Prop := WI {
  wi_conns : Forall (conn_inv cfg) (w_conns y);
  wi_core : ∃ evs, core cfg evs (w_mp y) (w_omp y) (w_taken y) ∧
    ∀ ev, ev ∈ evs ↔ ∃ k, k ∈ w_conns y ∧ ev ∈ c_out (k_c k)
}.

Lemma ws_inv_start c cfg y : ws_start c cfg y → ws_inv cfg y.
Proof.
  destruct y as [ks st s l]. intros (H1 & H2 & H3 & H4 & H5). cbn in *. subst l.
  assert (Hn : mp_out st = []).
  { revert H2. unfold mp_new. case_bool_decide; [|discriminate]. by intros [= <-]. }
  split; cbn.
  - eapply Forall_impl; [exact H4|]. intros k ->. apply conn_inv_new.
  - exists []. split.
    + split; rewrite ?Hn; cbn; try done.
      * eauto.
      * by apply Forall_nil.
      * by intros ??? ?%elem_of_nil.
      * intros pb o1 o2 H. by destruct o1.
      * split; [constructor|]. by intros ? ?%elem_of_nil.
    + intros ev. split; [by intros ?%elem_of_nil|]. intros (k & Hk & Hev).
      eapply Forall_forall in H4; [|exact Hk]. subst k. by apply elem_of_nil in Hev.
Qed.

Lemma elem_of_update {A} (l : list A) i x y z : l !! i = Some x → z ∈ <[i := y]> l → z = y ∨ z ∈ l.
Proof.
  intros Hi Hz. apply elem_of_list_lookup in Hz as [j Hj]. destruct (decide (i = j)) as [->|Hne].
  - left. rewrite list_lookup_insert in Hj by (by eapply lookup_lt_Some). by injection Hj.
  - right. rewrite list_lookup_insert_ne in Hj by done. by eapply elem_of_list_lookup_2.
Qed.
Lemma elem_of_update_new {A} (l : list A) i x y : l !! i = Some x → y ∈ <[i := y]> l.
Proof. intros Hi. eapply elem_of_list_lookup_2, list_lookup_insert, lookup_lt_Some, Hi. Qed.
Lemma elem_of_update_old {A} (l : list A) i x y z : l !! i = Some x → z ∈ l → z = x ∨ z ∈ <[i := y]> l.
Proof.
  intros Hi Hz. apply elem_of_list_lookup in Hz as [j Hj]. destruct (decide (i = j)) as [->|Hne].
  - left. congruence.
  - right. apply (elem_of_list_lookup_2 _ j). by rewrite list_lookup_insert_ne.
Qed.
Lemma Forall_update {A} (P : A → Prop) (l : list A) i y : Forall P l → P y → Forall P (<[i := y]> l).
Proof. intros. by apply Forall_insert. Qed.

Lemma ws_inv_step cfg y y' : ws_inv cfg y → ws_step y y' → ws_inv cfg y'.
Proof.
  intros Hi Hs. destruct Hs as [ks st s l i k Hk|ks st s l i k o f Hk Ho|ks st s l o pb s' Ho Hs Hp];
    destruct Hi as [H1 (evs & H2 & H3)]; cbn [w_conns w_mp w_omp w_taken] in *.
  - assert (Hki : conn_inv cfg k) by (eapply Forall_lookup_1; [exact H1|exact Hk]).
    split; cbn; [apply Forall_update; [done|by apply conn_inv_again]|]. exists evs. split; [done|].
    intros ev. rewrite H3. split.
    + intros (x & Hx & Hev). destruct (elem_of_update_old _ _ _ (conn_again k) _ Hk Hx) as [->|Hx'].
      * exists (conn_again k). split; [by eapply elem_of_update_new|done].
      * exists x. split; [exact Hx'|done].
    + intros (x & Hx & Hev). destruct (elem_of_update _ _ _ _ _ Hk Hx) as [->|Hx'].
      * exists k. split; [by eapply elem_of_list_lookup_2|done].
      * by exists x.
  - assert (Hki : conn_inv cfg k) by (eapply Forall_lookup_1; [exact H1|exact Hk]).
    assert (Hki' := conn_inv_frame cfg o k f Ho Hki). assert (Ha := conn_events_app o k f).
    set (k' := conn_frame o k f) in *. set (es := conn_events k k') in *.
    assert (Hw : ∀ pb, WComplete pb ∈ es → pb_wait pb = None).
    { intros pb Hpb. destruct (nowait_sessions (cfg_last_num cfg) (cfg_last_hash cfg) (life k')) as [_ Hn]. apply Hn.
      change (WComplete pb ∈ c_out (sessions0 cfg (life k'))). rewrite <- (ci_c _ _ Hki'), Ha. apply elem_of_app. by right. }
    split; [rewrite events_conns; cbn; by apply Forall_update|]. exists (evs ++ es). split; [by apply core_events|].
    rewrite events_conns. cbn. intros ev. rewrite elem_of_app, H3. split.
    + intros [(x & Hx & Hev)|Hev].
      * destruct (elem_of_update_old _ _ _ k' _ Hk Hx) as [->|Hx'].
        -- exists k'. split; [by eapply elem_of_update_new|]. rewrite Ha. apply elem_of_app. by left.
        -- exists x. split; [exact Hx'|done].
      * exists k'. split; [by eapply elem_of_update_new|]. rewrite Ha. apply elem_of_app. by right.
    + intros (x & Hx & Hev). destruct (elem_of_update _ _ _ _ _ Hk Hx) as [->|Hx'].
      * rewrite Ha in Hev. apply elem_of_app in Hev as [Hev|Hev]; [left|by right].
        exists k. split; [by eapply elem_of_list_lookup_2|done].
      * left. by exists x.
  - split; cbn; [done|]. exists evs. split; [|done]. destruct H2 as [(s0 & H0 & Hr) G2 G3 G4 G5 G6 G7]. split; try done.
    + exists s0. split; [done|]. eapply omp_run_app; [exact Hr|]. unfold omp_run. change (omp_step s (o, InBatch pb) ≫= foldM omp_step [] = Ok s'). by rewrite Hs.
    + apply Forall_app. split; [done|]. by apply Forall_singleton.
    + intros o' n h [H|H%elem_of_list_singleton]%elem_of_app; [by eapply G5|discriminate H].
Qed.
Lemma ws_run_inv c cfg y : ws_run c cfg y → ws_inv cfg y.
Proof.
  intros (y0 & H0 & Hr). apply ws_inv_start in H0. revert H0. induction Hr as [|x y z Hxy _ IH]; [done|].
  intros Hx. apply IH. by eapply ws_inv_step.
Qed.

Lemma ws_announced c cfg y : ws_run c cfg y →
  (∀ pb, EBatch pb ∈ mp_out (w_mp y) → ∃ ch, pb_wait pb = Some ch ∧
     before (mp_out (w_mp y)) (EWaiter (pb_hash pb) (pb_parent pb) (pb_num pb) ch) (EBatch pb)) ∧
  NoDup (omap channel (mp_out (w_mp y))).
Proof.
  intros Hr%ws_run_inv. destruct Hr as [_ (evs & [_ _ _ _ _ H6 [H7 _]] & _)]. split; [|done].
  intros pb [o1 [o2 E]]%elem_of_list_split. destruct (H6 pb o1 o2 E) as (ch & Hc & _). exists ch. split; [done|].
  intros o1' o2' E'. destruct (H6 pb o1' o2' E') as (ch' & Hc' & Hin). congruence.
Qed.

(** * The frames of a connection *)
Lemma meant_snoc fs f : meant (fs ++ [f]) = match f with FNote i => Some i | FForeign => None | _ => meant fs end.
Proof.
  unfold meant. rewrite omap_app. destruct f; cbn; rewrite ?last_snoc, ?app_nil_r; done.
Qed.
Lemma processed_snoc fs f : processed (fs ++ [f]) =
  processed fs ++ match f with FNote i => [i] | FGarbled => option_list (meant fs) | _ => [] end.
Proof.
  unfold processed. rewrite app_length. cbn [length]. rewrite Nat.add_1_r, seq_S, omap_app. f_equal.
  - assert (∀ (l : list nat), (∀ n, n ∈ l → n < length fs) →
      omap (λ n, match (fs ++ [f]) !! n with Some (FNote _) | Some FGarbled => meant (take (S n) (fs ++ [f])) | _ => None end) l =
      omap (λ n, match fs !! n with Some (FNote _) | Some FGarbled => meant (take (S n) fs) | _ => None end) l) as H.
    { induction l as [|n l IH]; intros Hl; [done|]. cbn. assert (n < length fs) by (apply Hl; left).
      rewrite lookup_app_l, (take_app_le fs [f] (S n)) by lia. rewrite IH; [done|]. intros m Hm. apply Hl. by right. }
    apply H. intros n Hn%elem_of_seq. lia.
  - cbn. rewrite (list_lookup_middle fs [] f) by done. rewrite (take_ge (fs ++ [f])) by (rewrite app_length; cbn; lia).
    rewrite meant_snoc. destruct f; [done|done|done|]. by destruct (meant fs).
Qed.
Lemma frames_processed k l : k_note k = None → k_cur k = [] →
  items (k_cur (after_frames k l)) = processed (map snd l) ∧ k_note (after_frames k l) = meant (map snd l).
Proof.
  intros Hn Hc. induction l as [|[o f] l [IH1 IH2]] using rev_ind; [cbn; by rewrite Hc, Hn|].
  unfold after_frames in *. rewrite foldl_app, map_app. cbn [foldl map fst snd].
  rewrite processed_snoc, meant_snoc. generalize dependent (foldl (λ k x, conn_frame x.1 k x.2) k l). intros k' IH1 IH2.
  unfold conn_frame. destruct f as [|i| |]; cbn.
  - by rewrite app_nil_r.
  - split; [|done]. rewrite <- IH1. unfold items. by rewrite fmap_app.
  - by rewrite app_nil_r.
  - rewrite IH2. destruct (meant (map snd l)) as [i|]; cbn; [|by rewrite app_nil_r].
    split; [|done]. rewrite <- IH1. unfold items. by rewrite fmap_app.
Qed.
