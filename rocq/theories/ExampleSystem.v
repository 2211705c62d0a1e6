(** A chain of two blocks submitted to two replicas and collected by a consumer (C44). *)
From Coq Require Import Strings.String.
From Verif Require Import Base Lru LruFacts Types Avro AvroFacts Wire SpecWire GoPath Producer SpecBlock SpecProducer ProducerFacts3
  Consumer SpecCollect Ordering SpecChain System SpecSystem SpecPublish ExampleBlock ExampleProducer OrderingBase OrderingFacts OrderingMisc OrderingGrow OrderingPanic SystemFacts.
Local Open Scope string_scope.
Local Open Scope list_scope.

(** * Runs that handle all messages first *)
Lemma consumed_nil o : consumed [] o.
Proof. split; apply prefix_nil. Qed.
Lemma sys_messages c ms st s ins st' : mp_run c (ex_inputs ms) st = Ok st' →
  rtc (sys_step c) (Sys st s ins []) (Sys st' s (ins ++ ex_inputs ms) []).
Proof.
  revert st ins. induction ms as [|m ms IH]; intros st ins Hr.
  - injection Hr as <-. rewrite app_nil_r. apply rtc_refl.
  - unfold mp_run in Hr. cbn [ex_inputs fmap list_fmap foldM] in Hr. cbn [mp_step] in Hr.
    destruct (process c id_env st m) as [[st1 err]| |] eqn:E; try discriminate. cbn [mbind outcome_bind] in Hr.
    eapply rtc_l; [|].
    + eapply (YMessage c st s ins [] m id_env st1 err [] s); [by split|done|by apply Forall_nil|done|apply consumed_nil|].
      intros k n H. by apply elem_of_nil in H.
    + change (ex_inputs (m :: ms)) with ([IMsg m id_env] ++ ex_inputs ms). rewrite app_assoc. by apply IH.
Qed.
Lemma taken_app l l' : taken_reorgs (l ++ l') = taken_reorgs l ++ taken_reorgs l'.
Proof. apply omap_app. Qed.
Lemma sys_takes c st s ins l l' s' : omp_run s l' = Ok s' → orders_ok l' → consumed (l ++ l') (mp_out st) →
  rtc (sys_step c) (Sys st s ins l) (Sys st s' ins (l ++ l')).
Proof.
  revert s l. induction l' as [|i l' IH]; intros s l Hr Ho Hc.
  - injection Hr as <-. rewrite app_nil_r. apply rtc_refl.
  - unfold omp_run in Hr. cbn [foldM] in Hr. destruct (omp_step s i) as [s1| |] eqn:E; try discriminate. cbn [mbind outcome_bind] in Hr.
    apply Forall_cons in Ho as [Hi Ho]. replace (l ++ i :: l') with ((l ++ [i]) ++ l') in * by (by rewrite <- app_assoc).
    eapply rtc_l; [eapply YTake; [exact Hi|exact E|]|by apply IH].
    destruct Hc as [H1 H2]. rewrite batches_of_app in H1. rewrite taken_app in H2.
    split; (etrans; [|eassumption]); by apply prefix_app_r.
Qed.
Lemma sys_run_seq c cfg ms st0 st s0 s l : mc_thr c = cfg_threshold cfg → mp_new c (cfg_last_num cfg) = Ok st0 → new_omp cfg = Ok s0 →
  mp_run c (ex_inputs ms) st0 = Ok st → omp_run s0 l = Ok s → orders_ok l → consumed l (mp_out st) →
  sys_run c cfg (Sys st s (ex_inputs ms) l).
Proof.
  intros H1 H2 H3 H4 H5 H6 H7. exists (Sys st0 s0 [] []). split; [by split_and!|].
  eapply rtc_transitive; [apply (sys_messages c ms st0 s0 [] st H4)|apply (sys_takes c st s0 _ [] l s H5 H6 H7)].
Qed.

(** * What a list of calls publishes *)
Definition output (p : producer) (x : call) : list pmsg :=
  match x with
  | CAdd o a => match snd (add_block p o a) with inr tm => mjoin (map_to_list tm).*2 | inl _ => [] end
  | CSend ord id d u => match snd (send_batch p ord id d u) with Some tm => mjoin (map_to_list tm).*2 | None => [] end
  end.
Fixpoint outputs (p : producer) (l : list call) : list pmsg :=
  match l with [] => [] | x :: r => output p x ++ outputs (step p x) r end.
Lemma on_topic_all (tm : topics) m : m ∈ mjoin (map_to_list tm).*2 ↔ ∃ t, m ∈ on_topic tm t.
Proof.
  revert tm. unfold on_topic, topics, topic. intros tm. rewrite elem_of_list_join. split.
  - intros (x & Hm & Hx). apply elem_of_list_fmap in Hx as ([t y] & -> & Hx%elem_of_map_to_list). exists t. by rewrite Hx.
  - intros (t & Hm). destruct (tm !! t) as [y|] eqn:E; [|by apply elem_of_nil in Hm]. exists y. split; [done|].
    apply elem_of_list_fmap. exists (t, y). split; [done|]. by apply elem_of_map_to_list.
Qed.
Lemma output_returned p x m : m ∈ output p x ↔ returned p x m.
Proof.
  unfold returned. split.
  - destruct x as [o a|ord id d u]; cbn [output]; [destruct (snd (add_block p o a)) as [|tm]|destruct (snd (send_batch p ord id d u)) as [tm|]];
      intros H; try (by apply elem_of_nil in H); apply on_topic_all in H as [t H]; by exists t, tm.
  - intros (t & tm & Hm & E). assert (H : m ∈ mjoin (map_to_list tm).*2) by (apply on_topic_all; eauto).
    destruct x as [o a|ord id d u]; cbn [output]; by rewrite E.
Qed.
Lemma outputs_published p l m : m ∈ outputs p l ↔ published p l m.
Proof.
  unfold published. revert p; induction l as [|x l IH]; intros p; cbn [outputs].
  - split; [by intros ?%elem_of_nil|]. intros (pre & y & post & E & _). by destruct pre.
  - rewrite elem_of_app, output_returned, IH. split.
    + intros [H|(pre & y & post & -> & H)]; [by exists [], x, l|]. by exists (x :: pre), y, post.
    + intros ([|z pre] & y & post & E & H); cbn in E; injection E as -> E; [by left|right]. by exists pre, y, post.
Qed.

(** * The chain *)
Definition sx_parts : list part :=
  [Part [str "x/d"] ∅; Part [] {[(str "x/k" : bytes) := [x03]]}; Part [] {[(str "x/l" : bytes) := [x04]]}].
Definition sx_b1 : block := Block (bk_args ex_block) (λ id, if bool_decide (id = 9%N) then sx_parts else []).
Definition sx_updates2 : gmap bytes bytes := <[(str "s/c" : bytes) := [x05]]> {[(str "m" : bytes) := [x06]]}.
Definition sx_b2 : block := Block (BA 8 3 1 6 sx_updates2 ∅ ∅) (λ _, []).
Definition sx_up : gmap bytes bytes := <[(str "x/l" : bytes) := [x04]]> {[(str "x/k" : bytes) := [x03]]}.

(** A producer with one entry in its schema. *)
Definition sx_prod : producer := Prod [(find_text (str "s/"), str "states")] (str "blocks") ∅.
Lemma sx_prefix k : prefix_of_key sx_prod k = ex_mt k.
Proof. unfold prefix_of_key, sx_prod, find_text, ex_mt. cbn. by destruct (has_prefix k _). Qed.

Lemma sx_ann1 id : announced sx_b1 id → id = 9%N.
Proof. intros [x [_ ->]%ex_bat]. done. Qed.
Lemma sx_wf1 : wf_block ex_mt sx_b1.
Proof.
  assert (W := ex_wf). constructor.
  1-4: apply W.
  - intros id ->%sx_ann1. vm_compute. done.
  - intros id. apply (wf_nonzero _ _ W).
  - apply (wf_roles1 _ _ W).
  - apply (wf_roles2 _ _ W).
  - apply (wf_values _ _ W).
  - apply (wf_inline _ _ W).
  - apply (wf_paths _ _ W).
  - apply (wf_ids _ _ W).
  - intros id i pt k ->%sx_ann1 Hi. cbn in Hi. destruct i as [|[|[|i]]]; simplify_eq/=.
    + split; [done|]. intros ->%elem_of_list_singleton ?%ex_del. done.
    + split; [intros v w [<- <-]%lookup_singleton_Some [[? ?]|[? ?]]%ex_upd; done|]. intros ?%elem_of_nil. done.
    + split; [intros v w [<- <-]%lookup_singleton_Some [[? ?]|[? ?]]%ex_upd; done|]. intros ?%elem_of_nil. done.
  - intros id i pt id' i' pt' k v v' ->%sx_ann1 ->%sx_ann1 Hi Hi'. cbn in Hi, Hi'.
    destruct i as [|[|[|i]]], i' as [|[|[|i']]]; simplify_eq/=; try done;
      intros [<- <-]%lookup_singleton_Some [? <-]%lookup_singleton_Some; done.
Qed.

Lemma sx_upd k v : sx_updates2 !! k = Some v → (k = str "s/c" ∧ v = [x05]) ∨ (k = str "m" ∧ v = [x06]).
Proof.
  unfold sx_updates2. intros [[<- <-]|[_ [<- <-]%lookup_singleton_Some]]%lookup_insert_Some; [by left|by right].
Qed.
Lemma sx_updom k : k ∈ dom sx_updates2 → k = str "s/c" ∨ k = str "m".
Proof. intros [v [[-> _]|[-> _]]%sx_upd]%elem_of_dom; auto. Qed.
Lemma sx_ann2 id : ¬ announced sx_b2 id.
Proof. intros [x Hx]. cbn in Hx. by rewrite lookup_empty in Hx. Qed.
Lemma sx_count_other p : p ≠ str "s/" → count_of ex_mt sx_b2 p = 0.
Proof.
  intros Hp. unfold count_of.
  assert (H : ∀ S : gset bytes, size (filter (λ k, ex_mt k = Some p) S) = 0).
  { intros S. apply size_empty_iff. intros x. rewrite elem_of_filter. split; [|set_solver].
    intros [?%ex_mt_some _]. done. }
  by rewrite !H.
Qed.
Lemma sx_count : count_of ex_mt sx_b2 (str "s/") = 1.
Proof. vm_compute. reflexivity. Qed.
Lemma sx_wf2 : wf_block ex_mt sx_b2.
Proof.
  constructor.
  - done.
  - done.
  - vm_compute. done.
  - intros p. destruct (decide (p = str "s/")) as [->|Hp]; [rewrite sx_count|rewrite sx_count_other by done]; vm_compute; done.
  - intros id H. by apply sx_ann2 in H.
  - intros id H. by apply sx_ann2 in H.
  - intros x id Hx. exfalso. apply (sx_ann2 id). by exists x.
  - intros x [[->| ->]%sx_updom|H] Hm; [done|by apply sx_count_other|]. by apply not_elem_of_empty in H.
  - intros k v [[-> ->]|[-> ->]]%sx_upd; done.
  - intros k H _ H2. by apply not_elem_of_empty in H2.
  - intros k p Hk Hp. pose proof (ex_mt_some _ _ Hp) as ->. destruct Hk as [[->| ->]%sx_updom|H]; [|done|by apply not_elem_of_empty in H].
    split; [done|]. split; [apply (bool_decide_unpack _); by vm_compute|].
    intros q _ Hc. destruct (decide (q = str "s/")) as [->|Hq]; [done|]. by rewrite sx_count_other in Hc.
  - intros x y id Hx. exfalso. apply (sx_ann2 id). by exists x.
  - intros id i pt k H. by apply sx_ann2 in H.
  - intros id i pt id' i' pt' k v v' H. by apply sx_ann2 in H.
Qed.
Lemma sx_wf b : b ∈ [] ++ [sx_b1; sx_b2] → wf_block ex_mt b.
Proof. intros [->|[->|?%elem_of_nil]%elem_of_cons]%elem_of_cons; [apply sx_wf1|apply sx_wf2|done]. Qed.

(** * The replicas *)
Definition sx_calls1 : list call :=
  [CAdd rev_aorder (bk_args sx_b1); CAdd id_aorder (bk_args sx_b2); CSend id 9%N [str "x/d"] sx_up].
Definition sx_calls2 : list call :=
  [CAdd id_aorder (bk_args sx_b2); CAdd id_aorder (bk_args sx_b1)].
Definition sx_replicas : list (producer * list call) := [(sx_prod, sx_calls1); (sx_prod, sx_calls2)].
Lemma sx_is_parts : is_parts [str "x/d"] sx_up sx_parts.
Proof.
  exists [str "x/k"; str "x/l"]. split; [apply sorted_le_before, (bool_decide_unpack _); by vm_compute|].
  split; [apply (bool_decide_unpack _); by vm_compute|]. split.
  2: { cbn [map app]. assert (E1 : sx_up !! (str "x/k" : bytes) = Some [x03]) by (by vm_compute).
       assert (E2 : sx_up !! (str "x/l" : bytes) = Some [x04]) by (by vm_compute). unfold bytes in *. by rewrite E1, E2. }
  intros k. unfold sx_up. rewrite dom_insert_L, dom_singleton_L. set_solver.
Qed.
Lemma sx_replica r : r ∈ sx_replicas → replica ex_mt ([] ++ [sx_b1; sx_b2]) r.
Proof.
  assert (A1 : sx_b1 ∈ [] ++ [sx_b1; sx_b2]) by left. assert (A2 : sx_b2 ∈ [] ++ [sx_b1; sx_b2]) by (right; left).
  intros [->|[->|?%elem_of_nil]%elem_of_cons]%elem_of_cons; [| |done]; (split; [done|]; split; [apply sx_prefix|]; cbn [snd]; split).
  - apply Forall_cons. split; [apply rev_aorder_ok|]. apply Forall_cons. split; [apply id_aorder_ok|]. apply Forall_cons. split; [by intros ?|by apply Forall_nil].
  - split.
    + intros o a [[= -> ->]|[[= -> ->]|[?|?%elem_of_nil]%elem_of_cons]%elem_of_cons]%elem_of_cons; try done; eauto.
    + intros ord i d u [?|[?|[[= -> -> -> ->]|?%elem_of_nil]%elem_of_cons]%elem_of_cons]%elem_of_cons; try done.
      intros b Hb Hann. apply elem_of_cons in Hb as [->|[->|?%elem_of_nil]%elem_of_cons]; [apply sx_is_parts|by apply sx_ann2 in Hann|done].
  - apply Forall_cons. split; [apply id_aorder_ok|]. apply Forall_cons. split; [apply id_aorder_ok|by apply Forall_nil].
  - split.
    + intros o a [[= -> ->]|[[= -> ->]|?%elem_of_nil]%elem_of_cons]%elem_of_cons; try done; eauto.
    + intros ord i d u [?|[?|?%elem_of_nil]%elem_of_cons]%elem_of_cons; done.
Qed.

(** Everything from both, the second replica first, the first one backwards and twice. *)
Definition sx_out : list pmsg :=
  outputs sx_prod sx_calls2 ++ reverse (outputs sx_prod sx_calls1) ++ outputs sx_prod sx_calls1.
Definition sx_msgs : list msg := imap (λ i m, Msg (pm_key m) (pm_val m) (str "t") (Z.of_nat i)) sx_out.
Lemma sx_copies m : m ∈ sx_msgs → copies sx_replicas m.
Proof.
  intros [i Hi]%elem_of_list_lookup. unfold sx_msgs in Hi. rewrite list_lookup_imap in Hi.
  destruct (sx_out !! i) as [x|] eqn:E; [|done]. injection Hi as <-.
  assert (Hin : x ∈ sx_out) by (by eapply elem_of_list_lookup_2).
  assert (Hsz : forallb (λ x, (length (pm_val x) <=? 1000)%nat) sx_out = true) by (by vm_compute).
  rewrite forallb_forall in Hsz. specialize (Hsz x (proj1 (elem_of_list_In _ _) Hin)). apply Nat.leb_le in Hsz.
  assert (Hs : sized (length (pm_val x))) by (unfold sized; lia).
  unfold sx_out in Hin. rewrite !elem_of_app, elem_of_reverse in Hin.
  destruct x as [k v]. cbn [m_key m_val pm_key pm_val] in *.
  assert (H : PMsg k v ∈ outputs sx_prod sx_calls1 ∨ PMsg k v ∈ outputs sx_prod sx_calls2) by tauto.
  destruct H as [H|H]; apply outputs_published in H.
  - exists (sx_prod, sx_calls1). split; [left|]. done.
  - exists (sx_prod, sx_calls2). split; [right; left|]. done.
Qed.
Lemma sx_arrived b : b ∈ [sx_b1; sx_b2] → arrived sx_replicas sx_msgs b.
Proof.
  intros Hb. exists (sx_prod, sx_calls1). split; [left|]. cbn [fst snd]. split.
  - apply elem_of_cons in Hb as [->|[->|?%elem_of_nil]%elem_of_cons]; [| |done].
    + exists [], rev_aorder. eexists. split; [reflexivity|]. intros i ->%sx_ann1. do 3 eexists. right; left.
    + exists [CAdd rev_aorder (bk_args sx_b1)], id_aorder. eexists. split; [reflexivity|]. intros i H. by apply sx_ann2 in H.
  - intros m Hm _. apply outputs_published in Hm.
    assert (Hin : m ∈ sx_out) by (unfold sx_out; rewrite !elem_of_app; auto).
    apply elem_of_list_lookup in Hin as [i Hi]. exists (Msg (pm_key m) (pm_val m) (str "t") (Z.of_nat i)). split; [|done].
    apply elem_of_list_lookup. exists i. unfold sx_msgs. rewrite list_lookup_imap, Hi. done.
Qed.

(** * The consumer *)
Definition sx_cfg : config := Config 6 2 4 2 ∅.
Definition sx_run : outcome (mp * omp * list (order * omp_input)) :=
  st0 ← mp_new ex_all (cfg_last_num sx_cfg); s0 ← new_omp sx_cfg; st ← mp_run ex_all (ex_inputs sx_msgs) st0;
  let l := (λ pb, (id_order, InBatch pb)) <$> sent_batches (mp_out st) in
  s ← omp_run s0 l; Ok (st, s, l).
Lemma sx_ran : match sx_run with Ok (st, s, l) => all_removed (o_out s) = [] ∧ map pb_hash (all_added (o_out s)) = [1; 3]%N ∧
    map pb_hash (sent_batches (mp_out st)) = [3; 1]%N | _ => False end.
Proof. by vm_compute. Qed.
Lemma in_batches_batches l : batches_of ((λ pb, (id_order, InBatch pb)) <$> l) = l ∧ taken_reorgs ((λ pb, (id_order, InBatch pb)) <$> l) = [].
Proof. induction l as [|pb l [IH1 IH2]]; [done|]. split; [cbn; by f_equal|exact IH2]. Qed.
Lemma sx_sys : ∃ st s l, sx_run = Ok (st, s, l) ∧ sys_run ex_all sx_cfg (Sys st s (ex_inputs sx_msgs) l) ∧
  batches_of l = sent_batches (mp_out st).
Proof.
  assert (H := sx_ran). unfold sx_run in *.
  destruct (mp_new ex_all (cfg_last_num sx_cfg)) as [st0| |] eqn:E0; try done.
  destruct (new_omp sx_cfg) as [s0| |] eqn:E1; try done.
  cbn [mbind outcome_bind] in *. destruct (mp_run ex_all (ex_inputs sx_msgs) st0) as [st| |] eqn:E2; try done. cbn [mbind outcome_bind] in *.
  destruct (omp_run s0 _) as [s| |] eqn:E3; try done. cbn [mbind outcome_bind] in *.
  eexists st, s, _. split; [done|]. destruct (in_batches_batches (sent_batches (mp_out st))) as [B1 B2]. split; [|exact B1].
  eapply sys_run_seq; try done.
  - apply Forall_forall. intros i (pb & -> & _)%elem_of_list_fmap. apply id_order_ok.
  - split; [by rewrite B1|]. rewrite B2. apply prefix_nil.
Qed.
