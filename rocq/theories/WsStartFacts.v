(** C77: subscribing to a websocket upstream. *)
From Verif Require Import Base Types Producer Consumer Websocket SpecWebsocket WebsocketFacts5 WsSystem WsSystemFacts WsStart SpecWsStart.

Lemma h_run_snoc ls : ∀ y l x, h_run y (ls ++ [l]) = Some x →
  ∃ y', h_run y ls = Some (Ok y') ∧ h_step l y' = Some x.
Proof.
  induction ls as [|a ls IH]; intros y l x E; cbn in *.
  - exists y. split; [done|]. by destruct (h_step l y) as [[]|].
  - destruct (h_step a y) as [[y'| |]|]; [by apply IH|by destruct ls|by destruct ls|by destruct ls].
Qed.
Lemma links_snoc ls l : links (ls ++ [l]) = links_step (links ls) l.
Proof. unfold links. by rewrite foldl_app. Qed.

(** * Messages *)
Lemma confirmed_snoc id ms o f : confirmed id (ms ++ [(o, f)]) =
  match confirmed id ms with
  | Some (s, r) => Some (s, r ++ [(o, f)])
  | None => match answered id f with Some s => Some (s, []) | None => None end
  end.
Proof.
  induction ms as [|[o' g] ms IH]; cbn.
  - destruct f as [| |id' []| |]; cbn; try done. by case_bool_decide.
  - destruct g as [| |id' []| |]; cbn; try apply IH. case_bool_decide; [done|apply IH].
Qed.
(** What a message that does not say what it is counts as, after [ms]. *)
Fixpoint before (s : N) (m : option item) (ms : list ((list hash → list hash) * gframe)) : option item :=
  match ms with
  | [] => m
  | (_, f) :: r =>
    match f with
    | GNote s' i => if bool_decide (s' = s) then before s (Some i) r else before s None r
    | GOther => before s None r
    | _ => before s m r
    end
  end.
Lemma notes_app s r : ∀ m ms, notes s m (ms ++ r) = notes s m ms ++ notes s (before s m ms) r.
Proof.
  intros m ms. revert m. induction ms as [|[o f] ms IH]; intros m; [done|]. cbn.
  destruct f; cbn; try apply IH; [destruct m; cbn; [f_equal|]; apply IH|destruct m; cbn; [f_equal|]; apply IH|].
  case_bool_decide; cbn; [f_equal|]; apply IH.
Qed.
Lemma before_app s r : ∀ m ms, before s m (ms ++ r) = before s (before s m ms) r.
Proof.
  intros m ms. revert m. induction ms as [|[o f] ms IH]; intros m; [done|]. cbn.
  destruct f; cbn; try apply IH. case_bool_decide; apply IH.
Qed.
Lemma frame_notes s f : ∀ g o k, taken_for (Some s) f = Ok g →
  k_cur (conn_frame o k g) = k_cur k ++ notes s (k_note k) [(o, f)] ∧
  k_note (conn_frame o k g) = before s (k_note k) [(o, f)] ∧ k_done (conn_frame o k g) = k_done k.
Proof.
  intros g o k E. destruct f as [| |id r|s' i|]; cbn in E; injection E as <-; unfold conn_frame; cbn.
  - by rewrite app_nil_r.
  - destruct (k_note k); cbn; [done|by rewrite app_nil_r].
  - destruct (k_note k); cbn; [done|by rewrite app_nil_r].
  - case_bool_decide; cbn; [done|by rewrite app_nil_r].
  - by rewrite app_nil_r.
Qed.
Lemma sessions_frame st0 o k f : k_c k = wsc_sessions st0 (life k) → k_c (conn_frame o k f) = wsc_sessions st0 (life (conn_frame o k f)).
Proof.
  intros H. unfold conn_frame. destruct (ws_read (k_note k) f) as [note [i|]]; [|exact H]. cbn.
  rewrite H. unfold life. cbn [k_done k_cur]. rewrite !sessions_snoc. unfold wsc_run. by rewrite foldl_app.
Qed.

(** * Executions *)
Definition over (k : link) : Prop := is_Some (confirmed (n_id k) (n_msgs k)) ∨ n_broke k = true.
Definition phase_ok (y : wst) (ks : list link) : Prop :=
  match h_phase y with
  | PDial => True
  | PShake id => h_up y = true ∧ k_note (h_conn y) = None ∧ ∃ k r, ks = k :: r ∧ n_id k = id ∧ confirmed (n_id k) (n_msgs k) = None
  | PRead None => h_up y = false ∧ ∃ k r, ks = k :: r ∧ n_broke k = true
  | PRead (Some s) => ∃ k r ms, ks = k :: r ∧ confirmed (n_id k) (n_msgs k) = Some (s, ms) ∧ k_note (h_conn y) = before s None ms
  end.
Record h_inv (n : Z) (h : hash) (ls : list wlabel) (y : wst) : Prop := HI {
  hi_phase : phase_ok y (links ls);
  hi_life : life (h_conn y) = [] :: map expected (rev (links ls));
  hi_c : k_c (h_conn y) = wsc_sessions (wsc_new n h) (life (h_conn y));
  hi_asked : h_asked y = map (λ i, reached n h (wsc_sessions (wsc_new n h) (map expected (take i (rev (links ls)))))) (seq 0 (length (links ls)));
  hi_start : (0 < h_tokens y ∨ h_back y = true) ↔ Exists over (links ls)
}.
Lemma offer_pos n : 0 < offer n.
Proof. unfold offer. case_bool_decide; lia. Qed.

Lemma sessions_nil n h l : wsc_sessions (wsc_new n h) ([] :: l) = wsc_sessions (wsc_new n h) l.
Proof. done. Qed.
Lemma asked_snoc n h f (ks : list link) e :
  map (λ i, reached n h (wsc_sessions (wsc_new n h) (map f (take i (rev (e :: ks)))))) (seq 0 (length ks)) =
  map (λ i, reached n h (wsc_sessions (wsc_new n h) (map (A := link) (B := list delivery) f (take i (rev ks))))) (seq 0 (length ks)).
Proof.
  apply map_ext_in. intros i Hi%in_seq. cbn [rev]. rewrite take_app_le; [done|]. rewrite rev_length. lia.
Qed.
(** Changing the latest connection does not change what was asked. *)
Lemma asked_head n h (f : link → list delivery) (ks : list link) e e' :
  map (λ i, reached n h (wsc_sessions (wsc_new n h) (map f (take i (rev (e :: ks)))))) (seq 0 (length (e :: ks))) =
  map (λ i, reached n h (wsc_sessions (wsc_new n h) (map f (take i (rev (e' :: ks)))))) (seq 0 (length (e' :: ks))).
Proof.
  apply map_ext_in. intros i Hi%in_seq. cbn [rev length] in *.
  rewrite !take_app_le; [done|rewrite rev_length; lia|rewrite rev_length; lia].
Qed.

Lemma h_inv_new n h : h_inv n h [] (wst_new n h).
Proof.
  split; [done|done|done|done|]. cbn. split; [intros [?|?]; [lia|done]|]. intros H. by inversion H.
Qed.
Lemma h_inv_step n h ls l y y' : h_inv n h ls y → h_step l y = Some (Ok y') → h_inv n h (ls ++ [l]) y'.
Proof.
  intros [P L C A S] E. destruct l as [|id|o f| |]; cbn [h_step] in E.
  - (* refused *)
    destruct (h_phase y) eqn:Ep; try done. injection E as <-. split; rewrite ?links_snoc; cbn [links_step]; done.
  - (* dialled *)
    destruct (h_phase y) eqn:Ep; try done. injection E as <-.
    split; rewrite ?links_snoc; cbn [links_step h_phase h_up h_conn h_tokens h_back h_asked].
    + unfold phase_ok. cbn. split; [done|]. split; [done|]. eexists _, _. by split.
    + unfold life at 1. cbn [conn_again k_done k_cur]. rewrite L. cbn [rev]. rewrite map_app. done.
    + cbn [conn_again k_c]. unfold life at 1. cbn [conn_again k_done k_cur]. rewrite sessions_snoc, C. done.
    + cbn [length]. rewrite seq_S, map_app. cbn [map]. rewrite A. f_equal.
      * symmetry. apply asked_snoc.
      * f_equal. cbn [rev]. rewrite take_app_alt by (by rewrite rev_length).
        rewrite C, L, sessions_nil. pose proof (sessions_last (map expected (rev (links ls))) n h) as G. cbn zeta in G.
        rewrite G. unfold reached. by destruct (last _).
    + rewrite S. rewrite Exists_cons. split; [by right|]. intros [[[? H]|H]|H]; [done|done|done].
  - (* a message *)
    destruct (h_up y) eqn:Eu; [|done]. destruct (h_phase y) as [|id|sub] eqn:Ep; [done| |].
    + unfold phase_ok in P. rewrite Ep in P. destruct P as (_ & Pn & k & r & Ek & Ei & Ec).
      assert (Ee : expected (link_add (o, f) k) = expected k).
      { unfold expected. cbn [link_add n_id n_msgs]. rewrite confirmed_snoc, Ec. by destruct (answered (n_id k) f). }
      assert (Lf : [] :: map expected (rev (links ls)) = [] :: map expected (rev (link_add (o, f) k :: r))).
      { rewrite Ek. cbn [rev]. rewrite !map_app. cbn [map]. by rewrite Ee. }
      destruct (answered id f) as [s|] eqn:Ea; injection E as <-.
      * split; rewrite ?links_snoc; rewrite ?Ek in *; cbn [links_step h_phase h_up h_conn h_tokens h_back h_asked].
        -- unfold phase_ok. cbn. exists (link_add (o, f) k), r, []. split; [done|]. split; [|done].
           cbn. rewrite confirmed_snoc, Ec, Ei, Ea. done.
        -- rewrite <- Lf. done.
        -- done.
        -- rewrite A. apply asked_head.
        -- rewrite Exists_cons. split; [|intros _; left; apply offer_pos]. intros _. left. left. cbn.
           rewrite confirmed_snoc, Ec, Ei, Ea. by eexists.
      * split; rewrite ?links_snoc; rewrite ?Ek in *; cbn [links_step].
        -- unfold phase_ok. rewrite Ep. split; [done|]. split; [done|]. exists (link_add (o, f) k), r. split; [done|]. split; [done|].
           cbn. by rewrite confirmed_snoc, Ec, Ei, Ea.
        -- rewrite <- Lf. done.
        -- done.
        -- rewrite A. apply asked_head.
        -- rewrite S, !Exists_cons. unfold over. cbn. rewrite confirmed_snoc, Ec, Ei, Ea. done.
    + unfold phase_ok in P. rewrite Ep in P. destruct sub as [s|].
      2: { destruct P as (Pu & _). congruence. }
      destruct P as (k & r & ms & Ek & Ec & En).
      destruct (taken_for (Some s) f) as [g| |] eqn:Et; [|done|done]. injection E as <-.
      destruct (frame_notes s f g o (h_conn y) Et) as (F1 & F2 & F3).
      assert (Ec' : confirmed (n_id (link_add (o, f) k)) (n_msgs (link_add (o, f) k)) = Some (s, ms ++ [(o, f)])).
      { cbn. by rewrite confirmed_snoc, Ec. }
      rewrite Ek in L, A, S. cbn [rev] in L. rewrite map_app in L. cbn [map] in L. unfold life in L.
      change ([] :: map expected (rev r) ++ [expected k]) with (([] :: map expected (rev r)) ++ [expected k]) in L.
      apply app_inj_2 in L as [L1 L2]; [|done]. injection L2 as L2.
      split; rewrite ?links_snoc; rewrite ?Ek; cbn [links_step h_phase h_up h_conn h_tokens h_back h_asked].
      * unfold phase_ok. cbn. exists (link_add (o, f) k), r, (ms ++ [(o, f)]). split; [done|]. split; [done|].
        rewrite F2, En. by rewrite before_app.
      * unfold life. rewrite F1, F3, L1, L2. cbn [rev]. rewrite map_app. cbn [map app]. f_equal. f_equal. f_equal.
        unfold expected. rewrite Ec', Ec, notes_app, En. done.
      * by apply sessions_frame.
      * rewrite A. apply asked_head.
      * rewrite S, !Exists_cons. unfold over at 1 3. rewrite Ec', Ec. cbn. naive_solver.
  - (* a failed read *)
    assert (Lf : ∀ k r, links ls = k :: r → [] :: map expected (rev (links ls)) = [] :: map expected (rev (link_break k :: r))).
    { intros k r ->. cbn [rev]. rewrite !map_app. done. }
    destruct (h_phase y) as [|id|sub] eqn:Ep; [done| |].
    + unfold phase_ok in P. rewrite Ep in P. destruct P as (_ & Pn & k & r & Ek & Ei & Ec). injection E as <-.
      split; rewrite ?links_snoc; rewrite ?Ek; cbn [links_step h_phase h_up h_conn h_tokens h_back h_asked].
      * unfold phase_ok. cbn. split; [done|]. exists (link_break k), r. by split.
      * rewrite <- (Lf k r Ek). done.
      * done.
      * rewrite A, Ek. apply asked_head.
      * rewrite Exists_cons. split; [|intros _; left; apply offer_pos]. intros _. left. by right.
    + assert (∃ k r, links ls = k :: r ∧ over k) as (k & r & Ek & Ho).
      { unfold phase_ok in P. rewrite Ep in P. destruct sub as [s|].
        - destruct P as (k & r & ms & Ek & Ec & _). exists k, r. split; [done|]. left. rewrite Ec. by eexists.
        - destruct P as (_ & k & r & Ek & Eb). exists k, r. split; [done|]. by right. }
      injection E as <-.
      split; rewrite ?links_snoc; rewrite ?Ek; cbn [links_step h_phase h_up h_conn h_tokens h_back h_asked].
      * done.
      * rewrite <- (Lf k r Ek). done.
      * done.
      * rewrite A, Ek. apply asked_head.
      * rewrite S, Ek, !Exists_cons. split; [intros _; left; by right|by left].
  - (* Start *)
    destruct (h_tokens y) as [|t] eqn:Et; [done|]. destruct (h_back y) eqn:Eb; [done|]. injection E as <-.
    split; rewrite ?links_snoc; cbn [links_step h_phase h_up h_conn h_tokens h_back h_asked]; try done.
    split; [intros _; apply S; left; lia|by right].
Qed.

Lemma h_run_inv n h ls : ∀ y, h_run (wst_new n h) ls = Some (Ok y) → h_inv n h ls y.
Proof.
  induction ls as [|l ls IH] using rev_ind; intros y E; [injection E as <-; apply h_inv_new|].
  apply h_run_snoc in E as (y1 & E1 & E2). by apply (h_inv_step n h ls l y1 y (IH y1 E1)).
Qed.
Lemma start_safe n h ls : h_run (wst_new n h) ls ≠ Some Panic ∧ h_run (wst_new n h) ls ≠ Some Hang.
Proof.
  destruct ls as [|l ls _] using rev_ind; [done|].
  assert (G : ∀ x, h_run (wst_new n h) (ls ++ [l]) = Some x → ∃ y, x = Ok y).
  { intros x E. apply h_run_snoc in E as (y & E1 & E2). apply h_run_inv in E1 as [P _ _ _ _].
    destruct l as [|id|o f| |]; cbn [h_step] in E2.
    - destruct (h_phase y); try done. injection E2 as <-. by eexists.
    - destruct (h_phase y); try done. injection E2 as <-. by eexists.
    - destruct (h_up y) eqn:Eu; [|done]. unfold phase_ok in P. destruct (h_phase y) as [|id|[s|]]; [done| | |].
      + destruct (answered id f); injection E2 as <-; by eexists.
      + destruct f; cbn in E2; injection E2 as <-; by eexists.
      + destruct P as (P & _). congruence.
    - destruct (h_phase y); try done; injection E2 as <-; by eexists.
    - destruct (h_tokens y), (h_back y); try done. injection E2 as <-. by eexists. }
  split; intros E; apply G in E as [y E]; done.
Qed.
Lemma start_exactly n h ls y : h_run (wst_new n h) ls = Some (Ok y) →
  k_c (h_conn y) = wsc_sessions (wsc_new n h) (map expected (rev (links ls))).
Proof. intros [_ L C _ _]%h_run_inv. by rewrite C, L. Qed.
Lemma start_asked n h ls y : h_run (wst_new n h) ls = Some (Ok y) →
  length (h_asked y) = length (links ls) ∧
  ∀ i x, h_asked y !! i = Some x → x = reached n h (wsc_sessions (wsc_new n h) (map expected (take i (rev (links ls))))).
Proof.
  intros [_ _ _ A _]%h_run_inv. rewrite A. split; [by rewrite map_length, seq_length|]. intros i x Hx.
  change (map ?f ?l) with (f <$> l) in Hx at 1. apply list_lookup_fmap_inv in Hx as (j & -> & Hj).
  apply lookup_seq in Hj as [-> _]. done.
Qed.
Lemma start_back n h ls y : h_run (wst_new n h) ls = Some (Ok y) →
  (h_back y = true ∨ is_Some (h_step LBack y) ↔ ∃ k, k ∈ links ls ∧ (is_Some (confirmed (n_id k) (n_msgs k)) ∨ n_broke k = true)).
Proof.
  intros [_ _ _ _ S]%h_run_inv. rewrite Exists_exists in S. unfold over in S. rewrite <- S. cbn.
  destruct (h_tokens y) as [|t], (h_back y); split; intros H; try (by right); try (by left).
  - destruct H as [H|[? H]]; done.
  - destruct H as [H|H]; [lia|done].
  - left. lia.
Qed.

(** * An orderly server *)
Lemma orderly_notes s r : ∀ m, Forall (λ x : (list hash → list hash) * gframe, match x.2 with GNote _ _ | GEmpty | GOther => True | _ => False end) r →
  items (notes s m r) = omap (λ x, match x.2 with GNote s' i => if bool_decide (s' = s) then Some i else None | _ => None end) r.
Proof.
  induction r as [|[o f] r IH]; intros m H; [done|]. apply Forall_cons in H as [Hf Hr].
  destruct f; cbn in *; try done; try (by apply IH).
  case_bool_decide; cbn; [f_equal|]; by apply IH.
Qed.
Lemma orderly_expected s k : orderly s k → items (expected k) = sent_for s k.
Proof.
  intros (o & r & Em & Hr). unfold expected, sent_for. rewrite Em. cbn. rewrite bool_decide_eq_true_2 by done. by apply orderly_notes.
Qed.
Lemma start_delivered n h ls y : h_run (wst_new n h) ls = Some (Ok y) →
  ∃ dss, k_c (h_conn y) = wsc_sessions (wsc_new n h) dss ∧
    Forall2 (λ ds k, ∀ s, orderly s k → items ds = sent_for s k) dss (rev (links ls)).
Proof.
  intros E. exists (map expected (rev (links ls))). split; [by apply start_exactly|].
  induction (rev (links ls)) as [|k r IH]; constructor; [|done]. intros s. apply orderly_expected.
Qed.

(** * Ready *)
Definition ready_ok (st : wsc) : Prop := told_ready st = if c_ready st then 1 else 0.
Lemma ready_step o st i : ready_ok st → ready_ok (wsc_step o st i).
Proof.
  unfold ready_ok, told_ready. intros H. destruct i as [|a b|b|s|]; cbn [wsc_step].
  - destruct (c_ready st) eqn:Er; [by rewrite Er|]. cbn. rewrite omap_app, app_length, H. done.
  - cbn. rewrite omap_app, app_length, H. cbn. lia.
  - destruct (foldl announce _ _) as [[pb subs] wait]. case_decide; [|exact H].
    cbn. rewrite omap_app, app_length, H. cbn. lia.
  - destruct (c_batches st !! ts_hash s) as [pb|]; [|exact H]. case_decide; [|exact H].
    cbn. rewrite omap_app, app_length, H. cbn. lia.
  - exact H.
Qed.
Lemma ready_sessions l : ∀ st, ready_ok st → ready_ok (wsc_sessions st l).
Proof.
  induction l as [|ds l IH]; intros st H; [done|]. cbn. apply IH.
  assert (G : ∀ st', ready_ok st' → ready_ok (wsc_run st' ds)).
  { induction ds as [|d ds IHd]; intros st' H'; [done|]. cbn. by apply IHd, ready_step. }
  by apply G.
Qed.
Lemma start_ready n h ls y : h_run (wst_new n h) ls = Some (Ok y) → told_ready (k_c (h_conn y)) ≤ 1.
Proof.
  intros E. rewrite (start_exactly n h ls y E).
  assert (G : ready_ok (wsc_sessions (wsc_new n h) (map expected (rev (links ls))))) by (by apply ready_sessions).
  rewrite G. destruct (c_ready _); lia.
Qed.
(** A refusal *)
Lemma refused_stays y id ms : h_phase y = PShake id → h_up y = true → Forall (λ x : (list hash → list hash) * gframe, answered id x.2 = None) ms →
  h_run y (map (λ x, LFrame x.1 x.2) ms) = Some (Ok y).
Proof.
  intros Ep Eu. induction ms as [|[o f] ms IH]; [done|]. intros [Hf Hr]%Forall_cons. cbn. cbn in Hf. rewrite Eu, Ep, Hf. by apply IH.
Qed.
