(** C57: a chain of blocks through websocket upstreams, end to end. *)
From Coq Require Import Strings.String.
From Verif Require Import Base Lru Types Producer Consumer SpecToken Websocket SpecWebsocket PropWebsocket WebsocketFacts4
  Ordering SpecChain System WsSystem SpecWsSystem WsSystemFacts WsSystemFacts2.

(** C57.  Any number of upstreams, each of which relays the messages of a producer at most once in
    any order, among pings and foreign notifications; any interleaving with the ordering layer.
    The blocks added are the first blocks of the chain after the starting point, each once and with
    the data submitted for it; nothing is removed; the ordering layer never panics; and when every
    block came complete through some upstream and was taken, all of them were added. *)
Theorem C57_end_to_end : ∀ (css : list (list wcall)) c cfg base num w old new,
  (∀ cs, cs ∈ css → publishes (old ++ new) cs) →
  started cfg base num w (map args_hdr old) (map args_hdr new) →
  ∀ y, ws_run c cfg y →
  (∀ k, k ∈ w_conns y → ∃ cs rest, cs ∈ css ∧ delivers cs k rest) →
  all_removed (o_out (w_omp y)) = [] ∧
  (∃ n, Forall2 (λ a pb, ∃ cs, cs ∈ css ∧ submitted cs a pb) (take n new) (all_added (o_out (w_omp y)))) ∧
  ((∀ a, a ∈ new → ∃ k cs, k ∈ w_conns y ∧ cs ∈ css ∧ delivers cs k [] ∧ all_answered cs a) →
   batches_of (w_taken y) = sent_batches (mp_out (w_mp y)) →
   Forall2 (λ a pb, ∃ cs, cs ∈ css ∧ submitted cs a pb) new (all_added (o_out (w_omp y)))) ∧
  (∀ o pb, order_ok o → batches_of (w_taken y ++ [(o, InBatch pb)]) `prefix_of` sent_batches (mp_out (w_mp y)) →
   ∃ s', omp_step (w_omp y) (o, InBatch pb) = Ok s').
Proof. exact ws_end_to_end. Qed.
Print Assumptions C57_end_to_end.

(** C57.  Upstreams whose connections break and resume anywhere, as in C37: the blocks added are the
    first blocks of the chain, once each and complete; they are never behind the position from which
    an upstream would resume; and once an upstream has delivered up to the end, all are added. *)
Theorem C57_reconnect : ∀ c cfg num chain,
  started cfg (cfg_last_hash cfg) num (cfg_last_weight cfg) [] (map wb_hdr chain) →
  ∀ y, ws_run c cfg y →
  (∀ k, k ∈ w_conns y → no_reorg_item k) →
  (∀ k, k ∈ w_conns y → sessions_ok chain (cfg_last_num cfg) (cfg_last_hash cfg) (wsc_new (cfg_last_num cfg) (cfg_last_hash cfg)) (life k)) →
  all_removed (o_out (w_omp y)) = [] ∧
  (∃ m, Forall2 block_done (take m chain) (all_added (o_out (w_omp y)))) ∧
  (batches_of (w_taken y) = sent_batches (mp_out (w_mp y)) → ∀ k, k ∈ w_conns y →
   ∃ n m, resume_at chain (cfg_last_num cfg) (cfg_last_hash cfg) (k_c k) n ∧ n ≤ m ∧ n ≤ length chain ∧
     Forall2 block_done (take m chain) (all_added (o_out (w_omp y)))) ∧
  (batches_of (w_taken y) = sent_batches (mp_out (w_mp y)) →
   (∃ k n, k ∈ w_conns y ∧
      resume_at chain (cfg_last_num cfg) (cfg_last_hash cfg) (wsc_sessions (wsc_new (cfg_last_num cfg) (cfg_last_hash cfg)) (k_done k)) n ∧
      caught_up chain n (items (k_cur k))) →
   Forall2 block_done chain (all_added (o_out (w_omp y)))).
Proof. exact ws_reconnect. Qed.
Print Assumptions C57_reconnect.

(** C57.  Whatever arrives, a block is announced to the waiters before it is handed over, with the
    channel its Done closes, and no channel is announced twice. *)
Theorem C57_announced_first : ∀ c cfg y, ws_run c cfg y →
  (∀ pb, EBatch pb ∈ mp_out (w_mp y) → ∃ ch, pb_wait pb = Some ch ∧
     before (mp_out (w_mp y)) (EWaiter (pb_hash pb) (pb_parent pb) (pb_num pb) ch) (EBatch pb)) ∧
  NoDup (omap channel (mp_out (w_mp y))).
Proof. exact ws_announced. Qed.
Print Assumptions C57_announced_first.

(** C57.  Which messages are processed, whatever frames arrive on a new connection: those notified for the subscription, in
    their order; a frame that cannot be read repeats the last one that could, if that was a notification. *)
Theorem C57_frames : ∀ k l, k_note k = None → k_cur k = [] → items (k_cur (after_frames k l)) = processed (map snd l).
Proof. exact (λ k l Hn Hc, proj1 (frames_processed k l Hn Hc)). Qed.
Print Assumptions C57_frames.
Example C57_frames_case : processed [FGarbled; FNote (IReorg 1 7); FPing; FGarbled; FForeign; FGarbled; FNote IReady; FGarbled] =
    [IReorg 1 7; IReorg 1 7; IReady; IReady] ∧
  ∀ cfg, k_note (conn_new cfg) = None ∧ k_cur (conn_new cfg) = [] ∧
    ∀ k, k_note (conn_again k) = None ∧ k_cur (conn_again k) = [].
Proof. split; [vm_compute; reflexivity|]. by intros. Qed.

(** * Runs of the model *)
Lemma pair_eq {A B} (a a' : A) (b b' : B) : (a, b) = (a', b') → a = a' ∧ b = b'.
Proof. by intros [= -> ->]. Qed.
Inductive wact := XFrame (i : nat) (f : frame) | XAgain (i : nat) | XTake.
Definition ws_act (y : wsys) (a : wact) : option wsys :=
  match a with
  | XFrame i f =>
    match w_conns y !! i with
    | Some k => let k' := conn_frame keep k f in
                Some (foldl ws_event (Ws (<[i := k']> (w_conns y)) (w_mp y) (w_omp y) (w_taken y)) (conn_events k k'))
    | None => None
    end
  | XAgain i =>
    match w_conns y !! i with
    | Some k => Some (Ws (<[i := conn_again k]> (w_conns y)) (w_mp y) (w_omp y) (w_taken y))
    | None => None
    end
  | XTake =>
    match sent_batches (mp_out (w_mp y)) !! length (batches_of (w_taken y)) with
    | Some pb =>
      match omp_step (w_omp y) (id_order, InBatch pb) with
      | Ok s' => Some (Ws (w_conns y) (w_mp y) s' (w_taken y ++ [(id_order, InBatch pb)]))
      | _ => None
      end
    | None => None
    end
  end.
Fixpoint ws_acts (y : wsys) (l : list wact) : option wsys :=
  match l with [] => Some y | a :: l => y' ← ws_act y a; ws_acts y' l end.
Definition ws_begin (n : nat) (c : mp_config) (cfg : config) : option wsys :=
  match mp_new c (cfg_last_num cfg), new_omp cfg with
  | Ok st, Ok s => Some (Ws (replicate n (conn_new cfg)) st s [])
  | _, _ => None
  end.

Lemma act_step cfg y a y' : ws_inv cfg y → ws_act y a = Some y' → ws_step y y'.
Proof.
  intros Hi H. destruct y as [ks st s l], a as [i f|i|]; cbn [ws_act w_conns w_mp w_omp w_taken] in H.
  - destruct (ks !! i) as [k|] eqn:E; [|done]. injection H as <-. by apply WsFrame.
  - destruct (ks !! i) as [k|] eqn:E; [|done]. injection H as <-. by apply WsAgain.
  - destruct (sent_batches (mp_out st) !! length (batches_of l)) as [pb|] eqn:E; [|done].
    destruct (omp_step s (id_order, InBatch pb)) as [s'| |] eqn:E'; [|done|done]. injection H as <-.
    apply WsTake; [apply id_order_ok|done|]. destruct Hi as [_ (evs & Hc & _)].
    destruct (co_prefix _ _ _ _ _ Hc) as (r & Er). cbn in Er. rewrite Er in E |- *.
    unfold batches_of. rewrite omap_app. cbn. fold (batches_of l).
    rewrite lookup_app_r, Nat.sub_diag in E by done. destruct r as [|x r]; [done|]. cbn in E. injection E as ->.
    exists r. by rewrite <- app_assoc.
Qed.
Lemma acts_run c cfg n l y0 y : mc_thr c = cfg_threshold cfg → ws_begin n c cfg = Some y0 → ws_acts y0 l = Some y → ws_run c cfg y.
Proof.
  intros Ht Hb Ha. assert (Hst : ws_start c cfg y0).
  { unfold ws_begin in Hb. destruct (mp_new c (cfg_last_num cfg)) as [st| |] eqn:E1; [|done|done].
    destruct (new_omp cfg) as [s| |] eqn:E2; [|done|done]. injection Hb as <-. split_and!; try done.
    cbn. apply Forall_forall. intros k [-> _]%elem_of_replicate. done. }
  exists y0. split; [done|]. assert (Hi := ws_inv_start _ _ _ Hst). clear Hb Hst. revert y0 Hi Ha.
  induction l as [|a l IH]; intros y0 Hi Ha; cbn in Ha; [injection Ha as <-; apply rtc_refl|].
  destruct (ws_act y0 a) as [y1|] eqn:E; [|done]. cbn in Ha. assert (Hs := act_step _ _ _ _ Hi E).
  eapply rtc_l; [exact Hs|]. apply IH; [by eapply ws_inv_step|done].
Qed.

Definition ws_exec (n : nat) (c : mp_config) (cfg : config) (l : list wact) : option wsys :=
  y ← ws_begin n c cfg; ws_acts y l.
Lemma exec_run c cfg n l y : mc_thr c = cfg_threshold cfg → ws_exec n c cfg l = Some y → ws_run c cfg y.
Proof.
  intros Ht H. unfold ws_exec in H. destruct (ws_begin n c cfg) as [y0|] eqn:E; [|done]. by apply (acts_run c cfg n l y0).
Qed.
(** What is checked by computation. *)
Lemma exec_with {A} (f : wsys → A) (a : A) c cfg n l :
  mc_thr c = cfg_threshold cfg → f <$> ws_exec n c cfg l = Some a → ∃ y, ws_run c cfg y ∧ f y = a.
Proof.
  intros Ht H. destruct (ws_exec n c cfg l) as [y|] eqn:E; [|done]. exists y. cbn in H. injection H as H.
  split; [by eapply exec_run|done].
Qed.
Definition seen57 (y : wsys) : list (list (list item) * list item) :=
  map (λ k, (map items (k_done k), items (k_cur k))) (w_conns y).
Definition hashes57 (y : wsys) : list hash * list hash * hash * bool :=
  (pb_hash <$> all_added (o_out (w_omp y)), pb_hash <$> all_removed (o_out (w_omp y)), o_last (w_omp y),
   bool_decide (length (batches_of (w_taken y)) = length (sent_batches (mp_out (w_mp y))))).

Definition wcs57 : list wcall :=
  [WAdd (λ l, l) wa1; WSend 99 [] ∅; WAdd (λ l, l) wa2; WSend 12 [str "q/b"] (kv "q/a" "2"); WSend 11 [] (kv "p/a" "1")].
Definition mc57 : mp_config := MPC 8 (λ _, true) true.
Definition cfg57 : config := Config 0 100 4 8 ∅.
Definition run57 : list wact :=
  [XFrame 0 FPing; XFrame 1 (FNote (IBatch wb2)); XFrame 0 (FNote (ISub ws12)); XTake; XFrame 0 (FNote (IBatch wb1));
   XFrame 1 FForeign; XFrame 0 (FNote (IBatch wb2)); XFrame 1 (FNote (ISub ws11)); XFrame 0 (FNote (ISub ws11)); XTake; XTake].
Lemma wcs57_publishes : publishes [wa1; wa2] wcs57.
Proof.
  split.
  - constructor.
    + apply (bool_decide_unpack _). by vm_compute.
    + apply (bool_decide_unpack _). by vm_compute.
    + intros od a H. repeat (apply elem_of_cons in H as [H|H]; [first [discriminate H|injection H as -> _; by intros l]|]).
      by apply elem_of_nil in H.
  - pose proof wcs_utf8 as H. unfold wcs in H. unfold wcs57.
    repeat (apply Forall_cons in H as [? H]). repeat (apply Forall_cons; split; [assumption|]). by apply Forall_nil.
  - intros n h H. repeat (apply elem_of_cons in H as [H|H]; [discriminate H|]). by apply elem_of_nil in H.
  - intros a (od & H).
    repeat (apply elem_of_cons in H as [H|H]; [first [discriminate H|injection H as _ ->; set_solver]|]). by apply elem_of_nil in H.
Qed.
Lemma started57 : started cfg57 100 0 4 (map args_hdr []) (map args_hdr [wa1; wa2]).
Proof.
  split.
  - cbn. split_and!; try done; lia.
  - apply (bool_decide_unpack _). by vm_compute.
  - done.
  - done.
  - done.
  - intros x H. split; [|by intros h Hh; apply (lookup_empty_Some (M:=gmap Z) (hd_num x) h) in Hh].
    repeat (apply elem_of_cons in H as [->|H]; [cbn; lia|]). by apply elem_of_nil in H.
Qed.
Lemma sent57 : json_item <$> p_sent (wsp_run wcs57) = [IBatch wb1; IBatch wb2; ISub ws12; ISub ws11].
Proof.
  rewrite (WebsocketFacts3.json_items_id _ (utf8_sent wcs57 (pu_wf _ _ wcs57_publishes) (pu_utf8 _ _ wcs57_publishes))).
  vm_compute. reflexivity.
Qed.
Lemma answered57 a : a ∈ [wa1; wa2] → all_answered wcs57 a.
Proof.
  intros [->| ->%elem_of_list_singleton]%elem_of_cons.
  - split; [exists (λ l, l); apply elem_of_list_here|]. intros id (p & Hp).
    simpl in Hp. apply lookup_insert_Some in Hp as [[_ Hp]|[_ Hp]].
    + subst id. exists [], (kv "p/a" "1"). split; [by exists (str "p/")|].
      exists [], (λ l, l), [WSend 99 [] ∅; WAdd (λ l, l) wa2; WSend 12 [str "q/b"] (kv "q/a" "2")], []. split; [done|].
      intros d u H. repeat (apply elem_of_cons in H as [H|H]; [discriminate H|]). by apply elem_of_nil in H.
    + apply lookup_singleton_Some in Hp as [_ Hp]. subst id. exists [str "q/b"], (kv "q/a" "2").
      split; [exists (str "q/"); vm_compute; reflexivity|].
      exists [], (λ l, l), [WSend 99 [] ∅; WAdd (λ l, l) wa2], [WSend 11 [] (kv "p/a" "1")]. split; [done|].
      intros d u H. repeat (apply elem_of_cons in H as [H|H]; [discriminate H|]). by apply elem_of_nil in H.
  - split; [exists (λ l, l); apply elem_of_list_further, elem_of_list_further, elem_of_list_here|].
    intros id (p & Hp). simpl in Hp. by rewrite lookup_empty in Hp.
Qed.

(** Two upstreams relay one producer.  The second delivers the later block first and one sub-batch
    before the connection goes silent; all hypotheses of the theorem hold and both blocks are added. *)
Lemma conns_of_seen (y : wsys) l k : seen57 y = l → k ∈ w_conns y → (map items (k_done k), items (k_cur k)) ∈ l.
Proof. intros <- H. by apply (elem_of_list_fmap_1 (λ k, (map items (k_done k), items (k_cur k)))) in H. Qed.
Lemma done_nil (l : list (list delivery)) : map items l = [] → l = [].
Proof. by destruct l. Qed.
Example C57_case : ∃ y,
  (∀ cs, cs ∈ [wcs57] → publishes ([] ++ [wa1; wa2]) cs) ∧
  started cfg57 100 0 4 (map args_hdr []) (map args_hdr [wa1; wa2]) ∧
  ws_run mc57 cfg57 y ∧
  (∀ k, k ∈ w_conns y → ∃ cs rest, cs ∈ [wcs57] ∧ delivers cs k rest) ∧
  (∀ a, a ∈ [wa1; wa2] → ∃ k cs, k ∈ w_conns y ∧ cs ∈ [wcs57] ∧ delivers cs k [] ∧ all_answered cs a) ∧
  batches_of (w_taken y) = sent_batches (mp_out (w_mp y)) ∧
  hashes57 y = ([101%N; 102%N], [], 102%N, true) ∧
  length (sent_batches (mp_out (w_mp y))) = 3.
Proof.
  destruct (exec_with (λ y, (seen57 y, hashes57 y, length (sent_batches (mp_out (w_mp y)))))
    ([([], [ISub ws12; IBatch wb1; IBatch wb2; ISub ws11]); ([], [IBatch wb2; ISub ws11])],
     ([101%N; 102%N], [], 102%N, true), 3) mc57 cfg57 2 run57) as (y & Hrun & E); [done|vm_compute; reflexivity|].
  apply pair_eq in E as [E En]. apply pair_eq in E as [Es Eh]. exists y.
  assert (Hd : ∀ k, k ∈ w_conns y → k_done k = [] ∧
    (items (k_cur k) = [ISub ws12; IBatch wb1; IBatch wb2; ISub ws11] ∨ items (k_cur k) = [IBatch wb2; ISub ws11])).
  { intros k Hk. pose proof (conns_of_seen y _ k Es Hk) as H.
    apply elem_of_cons in H as [H|H]; [|apply elem_of_list_singleton in H]; injection H as E1 E2;
      (split; [by apply done_nil|]); [by left|by right]. }
  assert (P1 : [ISub ws12; IBatch wb1; IBatch wb2; ISub ws11] ++ [] ≡ₚ json_item <$> p_sent (wsp_run wcs57)).
  { rewrite sent57, app_nil_r. exact (Permutation_middle [IBatch wb1; IBatch wb2] [ISub ws11] (ISub ws12)). }
  assert (P2 : [IBatch wb2; ISub ws11] ++ [IBatch wb1; ISub ws12] ≡ₚ json_item <$> p_sent (wsp_run wcs57)).
  { rewrite sent57. etrans; [apply (Permutation_app_comm [IBatch wb2; ISub ws11])|]. cbn. apply perm_skip.
    etrans; [apply perm_swap|]. by apply perm_skip. }
  split; [intros cs ->%elem_of_list_singleton; exact wcs57_publishes|]. split; [exact started57|]. split; [done|].
  split; [|split; [|split; [|by split]]].
  - intros k Hk. destruct (Hd k Hk) as [Hk0 [Hk1|Hk1]].
    + exists wcs57, []. split; [apply elem_of_list_here|]. split; [done|]. by rewrite Hk1.
    + exists wcs57, [IBatch wb1; ISub ws12]. split; [apply elem_of_list_here|]. split; [done|]. by rewrite Hk1.
  - intros a Ha. destruct (w_conns y) as [|k ks] eqn:Ek; [unfold seen57 in Es; rewrite Ek in Es; discriminate|].
    exists k, wcs57. split; [apply elem_of_list_here|]. split; [apply elem_of_list_here|]. split; [|by apply answered57].
    unfold seen57 in Es. rewrite Ek in Es. cbn [map] in Es. injection Es as E1 E2 _.
    split; [by apply done_nil|]. by rewrite E2.
  - destruct (ws_run_inv _ _ _ Hrun) as [_ (evs & Hc & _)]. destruct (co_prefix _ _ _ _ _ Hc) as (r & Er).
    unfold hashes57 in Eh. injection Eh as _ _ _ Eh. apply (bool_decide_eq_true_1 _) in Eh.
    rewrite Er in Eh |- *. rewrite app_length in Eh. destruct r; [by rewrite app_nil_r|cbn in Eh; lia].
Qed.

(** A connection lost in the middle of a block and made again (C37's case), beside an upstream that
    is still at the first block. *)
Definition run57r : list wact :=
  [XFrame 0 (FNote IReady); XFrame 0 (FNote (IBatch wb1)); XFrame 0 (FNote (ISub ws12)); XFrame 1 (FNote (IBatch wb1));
   XAgain 0; XFrame 0 (FNote (IBatch wb1)); XFrame 0 FPing; XFrame 0 (FNote (ISub ws12)); XFrame 0 (FNote (ISub ws11));
   XFrame 0 (FNote (IBatch wb2)); XTake; XTake].
Lemma started57r : started cfg57 (cfg_last_hash cfg57) 0 (cfg_last_weight cfg57) [] (map wb_hdr wchain).
Proof. exact started57. Qed.
Example C57_reconnect_case : ∃ y,
  started cfg57 (cfg_last_hash cfg57) 0 (cfg_last_weight cfg57) [] (map wb_hdr wchain) ∧
  ws_run mc57 cfg57 y ∧
  (∀ k, k ∈ w_conns y → no_reorg_item k ∧ sessions_ok wchain 0 100 (wsc_new 0 100) (life k)) ∧
  (∃ k n, k ∈ w_conns y ∧ resume_at wchain 0 100 (wsc_sessions (wsc_new 0 100) (k_done k)) n ∧ caught_up wchain n (items (k_cur k))) ∧
  hashes57 y = ([101%N; 102%N], [], 102%N, true).
Proof.
  assert (G1 : group wblk1 [IReady; IBatch wb1; ISub ws12; ISub ws11]).
  { apply (group_live wblk1 [ws12; ws11] [IReady]); [repeat constructor|apply Permutation_swap|exact wb1_msgs]. }
  assert (G1' : group wblk1 [IBatch wb1; ISub ws12; ISub ws11]).
  { apply (group_live wblk1 [ws12; ws11] []); [constructor|apply Permutation_swap|exact wb1_msgs]. }
  assert (G2 : group wblk2 [IBatch wb2]).
  { apply (group_catch wblk2 wb2 []); [constructor|exact wb2_whole]. }
  destruct (exec_with (λ y, (map (λ k, (k_done k, k_cur k)) (w_conns y), hashes57 y))
    ([([dl [IReady; IBatch wb1; ISub ws12]], dl [IBatch wb1; ISub ws12; ISub ws11; IBatch wb2]); ([], dl [IBatch wb1])],
     ([101%N; 102%N], [], 102%N, true)) mc57 cfg57 2 run57r) as (y & Hrun & E); [done|vm_compute; reflexivity|].
  apply pair_eq in E as [Es Eh]. exists y. split; [exact started57r|]. split; [done|].
  assert (Hd : ∀ k, k ∈ w_conns y → (k_done k, k_cur k) = ([dl [IReady; IBatch wb1; ISub ws12]], dl [IBatch wb1; ISub ws12; ISub ws11; IBatch wb2])
     ∨ (k_done k, k_cur k) = ([], dl [IBatch wb1])).
  { intros k Hk. apply (elem_of_list_fmap_1 (λ k, (k_done k, k_cur k))) in Hk. change (_ <$> w_conns y) with (map (λ k, (k_done k, k_cur k)) (w_conns y)) in Hk.
    rewrite Es in Hk. apply elem_of_cons in Hk as [Hk|Hk]; [by left|]. apply elem_of_list_singleton in Hk. by right. }
  assert (R0 : resume_at wchain 0 100 (wsc_sessions (wsc_new 0 100) [dl [IReady; IBatch wb1; ISub ws12]]) 0).
  { left. split; [done|vm_compute; reflexivity]. }
  split; [|split; [|done]].
  - intros k Hk. unfold no_reorg_item, life. destruct (Hd k Hk) as [H|H]; apply pair_eq in H as [-> ->].
    + split.
      * intros ds n h Hds Hin. apply elem_of_cons in Hds as [->|Hds]; [|apply elem_of_list_singleton in Hds as ->];
          cbn in Hin; repeat (apply elem_of_cons in Hin as [Hin|Hin]; [discriminate Hin|]); by apply elem_of_nil in Hin.
      * apply (sessions_cons _ _ _ _ _ _ 0); [by left| |apply dl_ok|].
        { exists [[IReady; IBatch wb1; ISub ws12; ISub ws11]; [IBatch wb2]], [ISub ws11; IBatch wb2].
          split; [|done]. repeat constructor; assumption. }
        apply (sessions_cons _ _ _ _ _ _ 0); [exact R0| |apply dl_ok|apply sessions_nil].
        exists [[IBatch wb1; ISub ws12; ISub ws11]; [IBatch wb2]], []. split; [|done]. repeat constructor; assumption.
    + split.
      * intros ds n h ->%elem_of_list_singleton Hin.
          cbn in Hin; repeat (apply elem_of_cons in Hin as [Hin|Hin]; [discriminate Hin|]); by apply elem_of_nil in Hin.
      * apply (sessions_cons _ _ _ _ _ _ 0); [by left| |apply dl_ok|apply sessions_nil].
        exists [[IBatch wb1; ISub ws12; ISub ws11]; [IBatch wb2]], [ISub ws12; ISub ws11; IBatch wb2].
        split; [|done]. repeat constructor; assumption.
  - destruct (w_conns y) as [|k ks] eqn:Ek; [discriminate|]. cbn [map] in Es. apply (f_equal (default ([], []) ∘ head)) in Es. apply pair_eq in Es as [E1 E2].
    exists k, 0. split; [apply elem_of_list_here|]. rewrite E1, E2. split; [exact R0|].
    exists [[IBatch wb1; ISub ws12; ISub ws11]; [IBatch wb2]]. split; [|done]. repeat constructor; assumption.
Qed.

(** * What goes wrong *)

(** A frame that is not JSON makes the consumer process its previous message again: one block
    notified, handed over twice; one reorg notified, announced to the subscribers twice. *)
Definition notes (l : list wact) : list item := omap (λ a, match a with XFrame _ (FNote i) => Some i | _ => None end) l.
Theorem C57_garbled_refuted : ∃ c cfg l y,
  ws_exec 1 c cfg l = Some y ∧ ws_run c cfg y ∧ notes l = [IBatch wb2; IReorg 2 102] ∧
  (pb_hash <$> sent_batches (mp_out (w_mp y))) = [102%N; 102%N] ∧
  omap (λ e, match e with EvReorg n h => Some (n, h) | _ => None end) (o_out (w_omp y)) = [(2%Z, 102%N); (2%Z, 102%N)].
Proof.
  assert (Hf : ∀ {A} (f : wsys → A) (a : A) l, f <$> ws_exec 1 mc57 cfg57 l = Some a → ∃ y, ws_exec 1 mc57 cfg57 l = Some y ∧ ws_run mc57 cfg57 y ∧ f y = a).
  { intros A f a l H. destruct (ws_exec 1 mc57 cfg57 l) as [y|] eqn:E; [|done]. exists y. split; [done|].
    split; [by eapply (exec_run mc57 cfg57 1 l y)|]. cbn in H. by injection H as H. }
  destruct (Hf _ (λ y, ((pb_hash <$> sent_batches (mp_out (w_mp y))),
      omap (λ e, match e with EvReorg n h => Some (n, h) | _ => None end) (o_out (w_omp y))))
    ([102%N; 102%N], [(2%Z, 102%N); (2%Z, 102%N)])
    [XFrame 0 (FNote (IBatch wb2)); XFrame 0 FGarbled; XFrame 0 (FNote (IReorg 2 102)); XFrame 0 FGarbled]) as (y & Hy & Hr & E).
  { vm_compute. reflexivity. }
  apply pair_eq in E as [E1 E2]. exists mc57, cfg57. eexists. exists y. split; [exact Hy|]. by split_and!.
Qed.
Print Assumptions C57_garbled_refuted.

(** The reorg call goes straight to the ordering layer, the blocks wait in a channel: with the same
    frames, all blocks taken, a reorg that overtakes a block makes the layer skip it for good. *)
Definition wx1 : tbatch := TB 1 5 101 100 ∅ [] ∅.
Definition wx2 : tbatch := TB 2 6 102 101 ∅ [] ∅.
Theorem C57_overtaking_refuted : ∃ c cfg y1 y2,
  ws_run c cfg y1 ∧ ws_run c cfg y2 ∧
  seen57 y1 = [([], [IBatch wx1; IBatch wx2; IReorg 1 101])] ∧ seen57 y2 = seen57 y1 ∧
  hashes57 y1 = ([101%N; 102%N], [], 101%N, true) ∧ hashes57 y2 = ([102%N], [], 102%N, true).
Proof.
  destruct (exec_with (λ y, (seen57 y, hashes57 y)) ([([], [IBatch wx1; IBatch wx2; IReorg 1 101])], ([101%N; 102%N], [], 101%N, true)) mc57 cfg57 1
    [XFrame 0 (FNote (IBatch wx1)); XTake; XFrame 0 (FNote (IBatch wx2)); XTake; XFrame 0 (FNote (IReorg 1 101))])
    as (y1 & H1 & E1); [done|vm_compute; reflexivity|].
  destruct (exec_with (λ y, (seen57 y, hashes57 y)) ([([], [IBatch wx1; IBatch wx2; IReorg 1 101])], ([102%N], [], 102%N, true)) mc57 cfg57 1
    [XFrame 0 (FNote (IBatch wx1)); XFrame 0 (FNote (IBatch wx2)); XFrame 0 (FNote (IReorg 1 101)); XTake; XTake])
    as (y2 & H2 & E2); [done|vm_compute; reflexivity|].
  apply pair_eq in E1 as [E1 F1]. apply pair_eq in E2 as [E2 F2]. exists mc57, cfg57, y1, y2. rewrite E1, E2. by split_and!.
Qed.
Print Assumptions C57_overtaking_refuted.
