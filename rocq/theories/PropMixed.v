(** C72: one consumer fed by Kafka and by websocket upstreams. *)
From Coq Require Import Strings.String.
From Verif Require Import Base Lru LruFacts Types Avro Wire SpecWire GoPath Producer SpecBlock SpecProducer Consumer SpecCollect SpecToken
  Websocket SpecWebsocket PropWebsocket WebsocketFacts4 Ordering SpecChain System SpecSystem SpecPublish SystemFacts SystemFacts2 PublishFacts WsSystem SpecWsSystem WsSystemFacts
  MixedSystem SpecMixed MixedFacts2 MixedFacts3 ExampleBlock ExampleProducer ExampleSystem.

(** C72.  Copies of Kafka messages of the chain, delivered in any order and any number of times, together with any number of
    websocket connections on each of which the messages of some producer arrive at most once in any order, and any schedule of the
    ordering layer: nothing is removed, the blocks added are the first ones of [new], each once, with the data submitted to Kafka
    or with the data submitted to the producer of a connection, never a mixture.  When every block of [new] came
    completely through Kafka or through some connection (a different one for each block perhaps) and everything was taken, all were added. *)
Theorem C72_end_to_end : ∀ mt base num w old new c cfg (css : list (list wcall)),
  let bs := old ++ new in
  let right_data b pb := exact mt b (mc_tracked c) pb ∨ ∃ cs, cs ∈ css ∧ submitted cs (bk_args b) pb in
  chain_from base num w bs → NoDup (base :: map bk_hash bs) → (∀ b, b ∈ bs → wf_block mt b) →
  cfg_last_hash cfg = end_hash base old → cfg_last_weight cfg = end_weight w old → cfg_last_hash cfg ≠ zero_hash →
  (∀ b, b ∈ bs → (0 ≤ ba_num (bk_args b))%Z ∧
     ∀ h, cfg_whitelist cfg !! ba_num (bk_args b) = Some h → h = bk_hash b) →
  (∀ cs, cs ∈ css → publishes (map bk_args bs) cs) →
  ∀ y, x_run c cfg y → only_from mt bs (messages (inputs_of (x_calls y))) →
  (∀ k, k ∈ x_conns y → ∃ cs rest, cs ∈ css ∧ delivers cs k rest) →
  all_removed (o_out (x_omp y)) = [] ∧
  (∃ n, Forall2 right_data (take n new) (all_added (o_out (x_omp y)))) ∧
  ((∀ b, b ∈ new → (∀ kd, needed mt b (mc_tracked c) kd → delivered (messages (inputs_of (x_calls y))) kd) ∨
      ∃ k cs, k ∈ x_conns y ∧ cs ∈ css ∧ delivers cs k [] ∧ all_answered cs (bk_args b)) →
   batches_of (x_taken y) = sent_batches (mp_out (x_mp y)) →
   Forall2 right_data new (all_added (o_out (x_omp y)))).
Proof. exact mixed_end_to_end. Qed.
Print Assumptions C72_end_to_end.

(** C72.  Such a consumer never panics or hangs: a further Kafka message of the chain can be handled, and whatever was completed
    can be taken. *)
Theorem C72_never_fails : ∀ mt base num w old new c cfg (css : list (list wcall)),
  let bs := old ++ new in
  chain_from base num w bs → NoDup (base :: map bk_hash bs) → (∀ b, b ∈ bs → wf_block mt b) →
  cfg_last_hash cfg = end_hash base old → cfg_last_weight cfg = end_weight w old → cfg_last_hash cfg ≠ zero_hash →
  (∀ b, b ∈ bs → (0 ≤ ba_num (bk_args b))%Z ∧
     ∀ h, cfg_whitelist cfg !! ba_num (bk_args b) = Some h → h = bk_hash b) →
  (∀ cs, cs ∈ css → publishes (map bk_args bs) cs) →
  ∀ y, x_run c cfg y → only_from mt bs (messages (inputs_of (x_calls y))) →
  (∀ k, k ∈ x_conns y → ∃ cs rest, cs ∈ css ∧ delivers cs k rest) →
  ∀ m e i,
  (only_from mt bs [m] → menv_ok e → ∃ r, process c e (x_mp y) m = Ok r) ∧
  (order_ok i.1 → consumed (x_taken y ++ [i]) (mp_out (x_mp y)) → ∃ s', omp_step (x_omp y) i = Ok s').
Proof. exact mixed_live. Qed.
Print Assumptions C72_never_fails.

(** C72.  Whatever arrives and whichever way it comes: a block that was handed over (assembled from Kafka, or whole from a websocket
    connection) is assembled from Kafka messages again only after twice the reorg threshold of other blocks were handed over. *)
Theorem C72_not_assembled_again : ∀ c xs0 st x pb1 o1 st1 xs st2 i st3 pb2 o2,
  mixed_run c xs0 st → call_step c st x = Ok st1 → mp_out st1 = mp_out st ++ o1 → EBatch pb1 ∈ o1 →
  (∀ m, m ∈ messages (inputs_of xs ++ [i]) → ¬ reorg_type m) → calls_run c xs st1 = Ok st2 →
  mp_step c st2 i = Ok st3 → mp_out st3 = mp_out st2 ++ o2 → EBatch pb2 ∈ o2 → pb_hash pb2 = pb_hash pb1 →
  ∃ hs, NoDup hs ∧ length hs = Z.to_nat (2 * mc_thr c) ∧ pb_hash pb1 ∉ hs ∧
        ∀ h, h ∈ hs → ∃ pb, EBatch pb ∈ drop (length (mp_out st1)) (mp_out st2) ∧ pb_hash pb = h.
Proof. exact not_assembled_again. Qed.
Print Assumptions C72_not_assembled_again.

(** * A run of the model *)
Inductive xact := AFrame (i : nat) (f : frame) | AMsg (m : msg) | ATake.
Definition x_act (c : mp_config) (y : xsys) (a : xact) : option xsys :=
  match a with
  | AFrame i f =>
    match x_conns y !! i with
    | Some k => let k' := conn_frame keep k f in
                Some (foldl x_event (X (<[i := k']> (x_conns y)) (x_mp y) (x_omp y) (x_calls y) (x_taken y) (x_seen y)) (conn_events k k'))
    | None => None
    end
  | AMsg m =>
    match process c id_env (x_mp y) m with
    | Ok (st', _) => Some (X (x_conns y) st' (x_omp y) (x_calls y ++ [CIn (IMsg m id_env)]) (x_taken y ++ []) (x_seen y ++ []))
    | _ => None
    end
  | ATake =>
    match sent_batches (mp_out (x_mp y)) !! length (batches_of (x_taken y)) with
    | Some pb =>
      match omp_step (x_omp y) (id_order, InBatch pb) with
      | Ok s' => Some (X (x_conns y) (x_mp y) s' (x_calls y) (x_taken y ++ [(id_order, InBatch pb)]) (x_seen y ++ [(id_order, InBatch pb)]))
      | _ => None
      end
    | None => None
    end
  end.
Fixpoint x_acts (c : mp_config) (y : xsys) (l : list xact) : option xsys :=
  match l with [] => Some y | a :: l => y' ← x_act c y a; x_acts c y' l end.
Definition x_exec (n : nat) (c : mp_config) (cfg : config) (l : list xact) : option xsys :=
  match mp_new c (cfg_last_num cfg), new_omp cfg with
  | Ok st, Ok s => x_acts c (X (replicate n (conn_new cfg)) st s [] [] []) l
  | _, _ => None
  end.
Lemma x_act_step c cfg y a y' : x_inv c cfg y → x_act c y a = Some y' → x_step c y y'.
Proof.
  intros Hi H. destruct y as [ks st s cs l l'], a as [i f|m|]; cbn [x_act x_conns x_mp x_omp x_calls x_taken x_seen] in H.
  - destruct (ks !! i) as [k|] eqn:E; [|done]. injection H as <-. by apply XFrame.
  - destruct (process c id_env st m) as [[st' err]| |] eqn:E; [|done|done]. injection H as <-.
    apply (XMessage c ks st s cs l l' m id_env st' err [] s); [by split|done|by apply Forall_nil|done| |].
    + rewrite app_nil_r. destruct Hi as [_ (evs & Hc & _)]. eapply consumed_mono; [|exact (xc_con _ _ _ _ Hc)].
      apply (call_out c st (CIn (IMsg m id_env))); [eapply mixed_base; exact (xc_mp _ _ _ _ Hc)|cbn; by rewrite E].
    + intros k n H. by apply elem_of_nil in H.
  - destruct (sent_batches (mp_out st) !! length (batches_of l)) as [pb|] eqn:E; [|done].
    destruct (omp_step s (id_order, InBatch pb)) as [s'| |] eqn:E'; [|done|done]. injection H as <-.
    apply XTake; [apply id_order_ok|done|]. destruct Hi as [_ (evs & Hc & _)]. destruct (xc_con _ _ _ _ Hc) as [(r & Er) Hq]. cbn in Er, Hq.
    split; [|by rewrite taken_app, app_nil_r]. rewrite Er in E |- *.
    unfold batches_of. rewrite omap_app. cbn. fold (batches_of l).
    rewrite lookup_app_r, Nat.sub_diag in E by done. destruct r as [|x r]; [done|]. cbn in E. injection E as ->.
    exists r. by rewrite <- app_assoc.
Qed.
Lemma x_exec_run n c cfg l y : mc_thr c = cfg_threshold cfg → x_exec n c cfg l = Some y → x_run c cfg y.
Proof.
  intros Ht H. unfold x_exec in H. destruct (mp_new c (cfg_last_num cfg)) as [st| |] eqn:E1; [|done|done].
  destruct (new_omp cfg) as [s| |] eqn:E2; [|done|done]. set (y0 := X _ _ _ _ _ _) in H.
  assert (Hst : x_start c cfg y0).
  { split_and!; try done. cbn. apply Forall_forall. intros k [-> _]%elem_of_replicate. done. }
  exists y0. split; [done|]. assert (Hi := x_inv_start _ _ _ Hst). clear Hst. clearbody y0. revert y0 Hi H.
  induction l as [|a l IH]; intros y0 Hi H; cbn in H; [injection H as <-; apply rtc_refl|].
  destruct (x_act c y0 a) as [y1|] eqn:E; [|done]. cbn in H. assert (Hs := x_act_step _ _ _ _ _ Hi E).
  eapply rtc_l; [exact Hs|]. apply IH; [by eapply x_inv_step|done].
Qed.
Lemma x_exec_with {A} (f : xsys → A) (a : A) n c cfg l :
  mc_thr c = cfg_threshold cfg → f <$> x_exec n c cfg l = Some a → ∃ y, x_run c cfg y ∧ f y = a.
Proof.
  intros Ht H. destruct (x_exec n c cfg l) as [y|] eqn:E; [|done]. exists y. cbn in H. injection H as H.
  split; [by eapply x_exec_run|done].
Qed.

(** The first block of C44's chain comes through Kafka (from a replica that never saw the second one), the second one through a
    websocket connection, which announces the first too but without its sub-batch.  The second is handed over first. *)
Definition mx_calls : list call := [CAdd rev_aorder (bk_args sx_b1); CSend id 9%N [str "x/d"%string] sx_up].
Definition mx_replicas : list (producer * list call) := [(sx_prod, mx_calls)].
Definition mx_msgs : list msg := imap (λ i m, Msg (pm_key m) (pm_val m) (str "t"%string) (Z.of_nat i)) (outputs sx_prod mx_calls).
Definition mx_cs : list wcall := [WAdd (λ l, l) (bk_args sx_b2); WAdd (λ l, l) (bk_args sx_b1)].
Definition mx_run : list xact :=
  (AMsg <$> take 3 mx_msgs) ++ (AFrame 0 ∘ FNote <$> p_sent (wsp_run mx_cs)) ++ (AMsg <$> drop 3 mx_msgs) ++ [ATake; ATake].

Lemma mx_replica r : r ∈ mx_replicas → replica ex_mt ([] ++ [sx_b1; sx_b2]) r.
Proof.
  assert (A1 : sx_b1 ∈ [] ++ [sx_b1; sx_b2]) by left.
  intros ->%elem_of_list_singleton; split; [done|]; split; [apply sx_prefix|]; cbn [snd]; split.
  - apply Forall_cons. split; [apply rev_aorder_ok|]. apply Forall_cons. split; [by intros ?|by apply Forall_nil].
  - split.
    + intros o a [[= -> ->]|[?|?%elem_of_nil]%elem_of_cons]%elem_of_cons; try done; eauto.
    + intros ord i d u [?|[[= -> -> -> ->]|?%elem_of_nil]%elem_of_cons]%elem_of_cons; try done.
      intros b Hb Hann. apply elem_of_cons in Hb as [->|[->|?%elem_of_nil]%elem_of_cons]; [apply sx_is_parts|by apply sx_ann2 in Hann|done].
Qed.
Lemma mx_copies m : m ∈ mx_msgs → copies mx_replicas m.
Proof.
  intros [i Hi]%elem_of_list_lookup. unfold mx_msgs in Hi. rewrite list_lookup_imap in Hi.
  destruct (outputs sx_prod mx_calls !! i) as [x|] eqn:E; [|done]. injection Hi as <-.
  assert (Hin : x ∈ outputs sx_prod mx_calls) by (by eapply elem_of_list_lookup_2).
  assert (Hsz : forallb (λ x, (length (pm_val x) <=? 1000)%nat) (outputs sx_prod mx_calls) = true) by (by vm_compute).
  rewrite forallb_forall in Hsz. specialize (Hsz x (proj1 (elem_of_list_In _ _) Hin)). apply Nat.leb_le in Hsz.
  assert (Hs : sized (length (pm_val x))) by (unfold sized; lia).
  destruct x as [k v]. cbn [m_key m_val pm_key pm_val] in *. apply outputs_published in Hin.
  exists (sx_prod, mx_calls). split; [left|]. done.
Qed.
Lemma mx_arrived : arrived mx_replicas mx_msgs sx_b1.
Proof.
  exists (sx_prod, mx_calls). split; [left|]. cbn [fst snd]. split.
  - exists [], rev_aorder. eexists. split; [reflexivity|]. intros i ->%sx_ann1. do 3 eexists. left.
  - intros m Hm _. apply outputs_published in Hm.
    apply elem_of_list_lookup in Hm as [i Hi]. exists (Msg (pm_key m) (pm_val m) (str "t"%string) (Z.of_nat i)). split; [|done].
    apply elem_of_list_lookup. exists i. unfold mx_msgs. rewrite list_lookup_imap, Hi. done.
Qed.
Lemma mx_publishes : publishes (map bk_args ([] ++ [sx_b1; sx_b2])) mx_cs.
Proof.
  split.
  - constructor.
    + apply (bool_decide_unpack _). by vm_compute.
    + apply (bool_decide_unpack _). by vm_compute.
    + intros od a H. repeat (apply elem_of_cons in H as [H|H]; [injection H as -> _; by intros l|]). by apply elem_of_nil in H.
  - repeat (apply Forall_cons; split); [| |by apply Forall_nil]; cbn [utf8_call].
    + split; [apply utf8_ascii_keys; by vm_compute|]. split; [apply utf8_ascii_keys; by vm_compute|].
      intros k H. by apply not_elem_of_empty in H.
    + split; [apply utf8_ascii_keys; by vm_compute|]. split; [apply utf8_ascii_keys; by vm_compute|].
      intros k H. apply utf8_ascii_string. assert (Hall : forallb (forallb (in_range 0 127)) (elements (ba_deletes (bk_args sx_b1))) = true) by (by vm_compute).
      rewrite forallb_forall in Hall. apply Hall, elem_of_list_In. by apply elem_of_elements.
  - intros n h H. repeat (apply elem_of_cons in H as [H|H]; [discriminate H|]). by apply elem_of_nil in H.
  - intros a (od & H). apply elem_of_cons in H as [H|H]; [injection H as _ ->; right; left|].
    apply elem_of_list_singleton in H. injection H as _ ->. left.
Qed.
Lemma mx_answered : all_answered mx_cs (bk_args sx_b2).
Proof. split; [exists (λ l, l); left|]. intros id (p & Hp). simpl in Hp. by rewrite lookup_empty in Hp. Qed.

Example C72_case : let new := [sx_b1; sx_b2] in
  chain_from 2 6 4 ([] ++ new) ∧ NoDup (2%N :: map bk_hash ([] ++ new)) ∧ (∀ b, b ∈ [] ++ new → wf_block ex_mt b) ∧
  (∀ b, b ∈ [] ++ new → (0 ≤ ba_num (bk_args b))%Z ∧
     ∀ h, cfg_whitelist sx_cfg !! ba_num (bk_args b) = Some h → h = bk_hash b) ∧
  publishes (map bk_args ([] ++ new)) mx_cs ∧
  ∃ y, x_run ex_all sx_cfg y ∧ only_from ex_mt ([] ++ new) (messages (inputs_of (x_calls y))) ∧
    (∀ k, k ∈ x_conns y → delivers mx_cs k []) ∧
    (∀ kd, needed ex_mt sx_b1 (mc_tracked ex_all) kd → delivered (messages (inputs_of (x_calls y))) kd) ∧
    length (x_conns y) = 1 ∧ all_answered mx_cs (bk_args sx_b2) ∧
    batches_of (x_taken y) = sent_batches (mp_out (x_mp y)) ∧
    map pb_hash (sent_batches (mp_out (x_mp y))) = [3; 1]%N ∧ map pb_hash (all_added (o_out (x_omp y))) = [1; 3]%N.
Proof.
  cbn zeta. split; [by vm_compute|]. split; [apply (bool_decide_unpack _); by vm_compute|]. split; [exact sx_wf|].
  split. { intros b [->|[->|?%elem_of_nil]%elem_of_cons]%elem_of_cons; done. }
  split; [exact mx_publishes|].
  destruct (x_exec_with (λ y, ((map (λ k, (k_done k, items (k_cur k))) (x_conns y), messages (inputs_of (x_calls y)),
      map pb_hash (sent_batches (mp_out (x_mp y))), map pb_hash (all_added (o_out (x_omp y))),
      length (batches_of (x_taken y)))))
    ([([], p_sent (wsp_run mx_cs))], mx_msgs, [3; 1]%N, [1; 3]%N, 2) 1 ex_all sx_cfg mx_run) as (y & Hrun & E); [done|vm_compute; reflexivity|].
  injection E as E1 E2 E3 E4 E5. exists y. rewrite E2. split; [done|].
  split; [eapply copies_only; [exact sx_wf|exact mx_replica|exact mx_copies]|].
  split.
  { intros k Hk. apply (elem_of_list_fmap_1 (λ k, (k_done k, items (k_cur k)))) in Hk. change (_ <$> x_conns y) with (map (λ k, (k_done k, items (k_cur k))) (x_conns y)) in Hk.
    rewrite E1 in Hk. apply elem_of_list_singleton in Hk. injection Hk as D1 D2. split; [exact D1|]. rewrite D2, app_nil_r.
    by rewrite (WebsocketFacts3.json_items_id _ (utf8_sent mx_cs (pu_wf _ _ mx_publishes) (pu_utf8 _ _ mx_publishes))). }
  split.
  { eapply (arrived_needed ex_mt ([] ++ [sx_b1; sx_b2]) mx_replicas); [exact sx_wf|exact mx_replica|left| |exact mx_arrived].
    intros b' id [->|[->|?%elem_of_nil]%elem_of_cons]%elem_of_cons; try done. intros _ H. by apply sx_ann2 in H. }
  split; [apply (f_equal length) in E1; by rewrite map_length in E1|]. split; [exact mx_answered|]. split; [|by split].
  destruct (x_run_inv _ _ _ Hrun) as [_ (evs & Hc & _)]. destruct (xc_con _ _ _ _ Hc) as [(r & Er) _].
  apply (f_equal length) in E3. rewrite map_length in E3. cbn in E3. rewrite Er, app_length, E5 in E3.
  rewrite Er. destruct r; [by rewrite app_nil_r|cbn in E3; lia].
Qed.

(** The bound is met: a block given whole, four others, then the block assembled from Kafka (threshold 2). *)
Definition mx_whole (h : hash) : mp_call := CWhole (PB 7 5 0 h ∅ ∅ ∅ ∅ ∅ ∅ ∅ ∅ None false).
Definition mx_steps (c : mp_config) (xs : list mp_call) : option (list hash) :=
  match mp_new c 0 with
  | Ok st => match calls_run c xs st with Ok st => Some (map pb_hash (sent_batches (mp_out st))) | _ => None end
  | _ => None
  end.
Example C72_case_again :
  mx_steps ex_all (mx_whole 1 :: (mx_whole <$> [11; 12; 13]%N) ++ (CIn <$> ex_inputs mx_msgs)) = Some [1; 11; 12; 13]%N ∧
  mx_steps ex_all (mx_whole 1 :: (mx_whole <$> [11; 12; 13; 14]%N) ++ (CIn <$> ex_inputs mx_msgs)) = Some [1; 11; 12; 13; 14; 1]%N.
Proof. split; vm_compute; reflexivity. Qed.

(** The other way round there is no such check: a block that was just assembled from Kafka and then comes whole from a
    websocket connection is handed over once more, immediately. *)
Theorem C72_whole_again_refuted : ∃ c xs st pb l,
  mixed_run c (xs ++ [CWhole pb]) st ∧ (∀ m, m ∈ messages (inputs_of xs) → copies mx_replicas m) ∧
  sent_batches (mp_out st) = l ∧ map pb_hash l = [pb_hash pb; pb_hash pb].
Proof.
  assert (H : mx_steps ex_all ((CIn <$> ex_inputs mx_msgs) ++ [mx_whole 1]) = Some [1; 1]%N) by (vm_compute; reflexivity).
  unfold mx_steps in H. destruct (mp_new ex_all 0) as [st0| |] eqn:E0; try discriminate.
  destruct (calls_run ex_all _ st0) as [st| |] eqn:E; try discriminate. injection H as H.
  exists ex_all, (CIn <$> ex_inputs mx_msgs), st. eexists _, _. split; [by exists 0%Z, st0|]. split; [|by split].
  intros m. assert (Em : messages (inputs_of (CIn <$> ex_inputs mx_msgs)) = mx_msgs).
  { unfold ex_inputs. generalize mx_msgs as ms. induction ms as [|m' ms IH]; [done|]. cbn. by rewrite <- IH at 2. }
  rewrite Em. apply mx_copies.
Qed.
Print Assumptions C72_whole_again_refuted.
