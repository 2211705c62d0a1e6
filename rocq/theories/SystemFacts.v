(** Facts about the composed system (C44). *)
From Verif Require Import Base Lru LruFacts Types Avro Wire SpecWire GoPath Producer SpecBlock Consumer ConsumerBase ConsumerFacts
  SpecCollect CollectFacts CollectFacts2 Ordering SpecChain OrderingBase OrderingFacts OrderingMisc OrderingTotal OrderingChain
  System SpecSystem.

(** * Events only accumulate *)
Definition grows (s s' : omp) : Prop := o_out s `prefix_of` o_out s'.
Lemma grows_trans a b c : grows a b → grows b c → grows a c.
Proof. unfold grows. by intros; etrans. Qed.
Lemma handle_grows f o s pb r s' : handle f o s pb r = Ok s' → grows s s'.
Proof.
  apply (handle_rel grows); unfold grows; try done.
  - intros ???. apply transitivity.
  - intros s1 s2 H. destruct (sub_out _ _ H) as (evs & -> & _). by apply prefix_app_r.
  - intros s1 new old s2 H. apply prepare_emit_out in H as (evs & new' & -> & _). by apply prefix_app_r.
Qed.
Lemma run_grows s l s' : omp_run s l = Ok s' → grows s s'.
Proof.
  apply (omp_run_inv (λ x, grows s x)); [|unfold grows; done].
  intros s1 [o i] s2 _ H1. unfold omp_step. destruct i; cbn [fst snd].
  - intros H. apply handle_grows in H. by eapply grows_trans.
  - intros [= <-]. eapply grows_trans; [exact H1|]. unfold grows, handle_reorg. cbn. by apply prefix_app_r.
Qed.

Lemma sent_app o1 o2 : sent_batches (o1 ++ o2) = sent_batches o1 ++ sent_batches o2.
Proof. apply omap_app. Qed.
Lemma sent_reorgs_app o1 o2 : sent_reorgs (o1 ++ o2) = sent_reorgs o1 ++ sent_reorgs o2.
Proof. apply omap_app. Qed.
Lemma elem_of_sent pb o : pb ∈ sent_batches o ↔ EBatch pb ∈ o.
Proof.
  unfold sent_batches. rewrite elem_of_list_omap. split.
  - intros ([| |] & Hin & [= <-]). done.
  - intros H. by exists (EBatch pb).
Qed.
Lemma consumed_mono l o o' : o `prefix_of` o' → consumed l o → consumed l o'.
Proof.
  intros [x ->] [H1 H2]. split; [rewrite sent_app|rewrite sent_reorgs_app]; by apply prefix_app_r.
Qed.

(** * Executions of the system seen from its two components *)
Record sys_inv (c : mp_config) (cfg : config) (y : sys) : Prop := {
  sv_mp : consumer_run c (y_ins y) (y_mp y);
  sv_ins : Forall input_ok (y_ins y);
  sv_omp : ∃ s0, new_omp cfg = Ok s0 ∧ omp_run s0 (y_taken y) = Ok (y_omp y);
  sv_ord : orders_ok (y_taken y);
  sv_con : consumed (y_taken y) (mp_out (y_mp y));
  sv_req : ∀ n, requested (y_ins y) n → EvEvict n ∈ o_out (y_omp y)
}.

Lemma consumer_snoc c ins st i st' : consumer_run c ins st → mp_step c st i = Ok st' → consumer_run c (ins ++ [i]) st'.
Proof.
  intros (last & st0 & Hn & Hr) Hs. exists last, st0. split; [done|].
  unfold mp_run in *. rewrite foldM_app, Hr. cbn [mbind outcome_bind foldM]. by rewrite Hs.
Qed.
Lemma omp_run_app s l1 l2 s1 s2 : omp_run s l1 = Ok s1 → omp_run s1 l2 = Ok s2 → omp_run s (l1 ++ l2) = Ok s2.
Proof. unfold omp_run. intros H1 H2. rewrite foldM_app, H1. exact H2. Qed.
Lemma step_out c st i st' : base_inv c st → mp_step c st i = Ok st' → mp_out st `prefix_of` mp_out st'.
Proof.
  intros Hb. destruct i as [m e|n]; cbn.
  - destruct (process c e st m) as [[s er]| |] eqn:E; cbn; try discriminate. intros [= <-].
    apply process_frame in E as ((o & -> & _) & _); [|done]. by apply prefix_app_r.
  - intros [= <-]. destruct (evict_older_spec st n) as (_ & _ & _ & _ & E5 & _). by rewrite E5.
Qed.
Lemma requested_snoc ins i n : requested (ins ++ [i]) n → requested ins n ∨ i = IEvict n ∨ ∃ m e k, i = IMsg m e ∧ n ∈ me_evict e k.
Proof.
  intros [H|(m & e & k & H & Hn)]; apply elem_of_app in H as [H|H%elem_of_list_singleton].
  - left. by left.
  - right. by left.
  - left. right. eauto.
  - right. right. eauto.
Qed.

Lemma sys_inv_start c cfg y : sys_start c cfg y → sys_inv c cfg y.
Proof.
  destruct y as [st s ins l]. intros (H1 & H2 & H3 & H4 & H5). cbn in *. subst ins l. split; cbn.
  - exists (cfg_last_num cfg), st. done.
  - constructor.
  - eauto.
  - constructor.
  - split; apply prefix_nil.
  - intros n [H%elem_of_nil|(m & e & k & H%elem_of_nil & _)]; done.
Qed.
Lemma sys_inv_step c cfg y y' : sys_inv c cfg y → sys_step c y y' → sys_inv c cfg y'.
Proof.
  intros Hi Hs. destruct Hs as [st s ins l m e st' err lx s' He Hp Ho Hr Hc Hq|st s ins l n Hn|st s ins l i s' Ho Hs Hc];
    destruct Hi as [H1 H2 (s0 & H3 & H3') H4 H5 H6]; cbn in *.
  - assert (Hst : mp_step c st (IMsg m e) = Ok st') by (cbn; by rewrite Hp).
    split; cbn; [by eapply consumer_snoc|apply Forall_app; split; [done|by apply Forall_singleton]| |by apply Forall_app|done|].
    + exists s0. split; [done|]. by eapply omp_run_app.
    + assert (Hg := run_grows _ _ _ Hr).
      intros n [Hn|[Hn|(m' & e' & k & [= <- <-] & Hn)]]%requested_snoc; [|done|by eapply Hq].
      eapply elem_of_prefix; [by apply H6|exact Hg].
  - assert (Hst : mp_step c st (IEvict n) = Ok (evict_older_than st n)) by done.
    split; cbn; [by eapply consumer_snoc|apply Forall_app; split; [done|by apply Forall_singleton]|eauto|done| |].
    + eapply consumed_mono; [|exact H5]. eapply step_out; [by eapply consumer_base|exact Hst].
    + intros n' [Hn'|[[= <-]|(m' & e' & k & [=] & _)]]%requested_snoc; [by apply H6|done].
  - assert (Hr : omp_run s [i] = Ok s') by (unfold omp_run; cbn; by rewrite Hs).
    split; cbn; [done|done| |apply Forall_app; split; [done|by apply Forall_singleton]|done|].
    + exists s0. split; [done|]. by eapply omp_run_app.
    + intros n Hn. eapply elem_of_prefix; [by apply H6|]. apply (run_grows _ _ _ Hr).
Qed.
Lemma sys_run_inv c cfg y : sys_run c cfg y → sys_inv c cfg y.
Proof.
  intros (y0 & H0 & Hr). apply sys_inv_start in H0. revert H0. induction Hr as [|x y z Hxy _ IH]; [done|].
  intros Hx. apply IH. by eapply sys_inv_step.
Qed.

(** * What the message processor emits *)
Lemma elem_messages_snoc ins i m : m ∈ messages (ins ++ [i]) ↔ m ∈ messages ins ∨ ∃ e, i = IMsg m e.
Proof.
  rewrite !elem_of_messages. split.
  - intros [e [H|H%elem_of_list_singleton]%elem_of_app]; [left; eauto|right; eauto].
  - intros [[e H]|[e ->]]; exists e; apply elem_of_app; [by left|right; apply elem_of_list_here].
Qed.
Lemma run_snoc_inv c ins st0 i st' : mp_run c (ins ++ [i]) st0 = Ok st' → ∃ st, mp_run c ins st0 = Ok st ∧ mp_step c st i = Ok st'.
Proof.
  unfold mp_run. rewrite foldM_app. destruct (foldM (mp_step c) ins st0) as [st| |]; cbn; try discriminate.
  destruct (mp_step c st i) as [s| |] eqn:E; cbn; try discriminate. intros [= <-]. eauto.
Qed.
Lemma emitted_about c ins st pb : consumer_run c ins st → EBatch pb ∈ mp_out st →
  ∃ m, m ∈ messages ins ∧ msg_hash m = pb_hash pb.
Proof.
  intros (last & st0 & Hn & Hr). revert st Hr; induction ins as [|i ins IH] using rev_ind; intros st Hr.
  - injection Hr as <-. revert Hn. unfold mp_new. case_bool_decide; [|discriminate]. intros [= <-]. cbn. by intros ?%elem_of_nil.
  - apply run_snoc_inv in Hr as (s & Hr & Hs). intros Hin.
    assert (Hb : base_inv c s) by (eapply run_base; [by eapply new_base|exact Hr]).
    assert (Hold : EBatch pb ∈ mp_out s → ∃ m, m ∈ messages (ins ++ [i]) ∧ msg_hash m = pb_hash pb).
    { intros H. destruct (IH s Hr H) as (m & Hm & E). exists m. split; [|done]. apply elem_messages_snoc. by left. }
    destruct i as [m e|n]; cbn in Hs.
    + destruct (process c e s m) as [[s' er]| |] eqn:E; cbn in Hs; try discriminate. injection Hs as <-.
      apply process_frame in E as ((o & Ho & Hf) & _); [|done]. cbn in Hin. rewrite Ho in Hin. apply elem_of_app in Hin as [H|H]; [by apply Hold|].
      eapply Forall_forall in Hf; [|exact H]. cbn in Hf. exists m. split; [|done]. apply elem_messages_snoc. right. eauto.
    + injection Hs as <-. destruct (evict_older_spec s n) as (_ & _ & _ & _ & E5 & _). rewrite E5 in Hin. by apply Hold.
Qed.

Lemma prim_quiet c e h st st' : prim c e false h st st' → sent_reorgs (mp_out st') = sent_reorgs (mp_out st).
Proof.
  intros Hp.
  destruct Hp as [st|st m|st Hr|st n Hr Hd Ho|st pb p n H1 H2 H3 H4|st m H1 H2 H3 H4|st pb pb' H1 H2 H3|st pb H1 H2|st|st k n Hn]; try done.
  - destruct (drain_spec st) as (E1 & E2 & E3 & _). by rewrite E3.
  - destruct (upd_res_spec st m) as (E1 & E2 & E3 & E4 & E5 & _). by rewrite E5.
  - cbn. by rewrite sent_reorgs_app, app_nil_r.
  - cbn. by rewrite sent_reorgs_app, app_nil_r.
  - destruct (evict_older_spec st n) as (E1 & E2 & E3 & E4 & E5 & _). by rewrite E5.
Qed.
Lemma quiet c ins st : consumer_run c ins st → (∀ m, m ∈ messages ins → ¬ reorg_type m) → sent_reorgs (mp_out st) = [].
Proof.
  intros (last & st0 & Hn & Hr). revert st Hr; induction ins as [|i ins IH] using rev_ind; intros st Hr Hnr.
  - injection Hr as <-. revert Hn. unfold mp_new. case_bool_decide; [|discriminate]. by intros [= <-].
  - apply run_snoc_inv in Hr as (s & Hr & Hs).
    assert (Hb : base_inv c s) by (eapply run_base; [by eapply new_base|exact Hr]).
    assert (Hold : sent_reorgs (mp_out s) = []) by (apply IH; [done|]; intros m Hm; apply Hnr, elem_messages_snoc; by left).
    destruct i as [m e|n]; cbn in Hs.
    + destruct (process c e s m) as [[s' er]| |] eqn:E; cbn in Hs; try discriminate. injection Hs as <-.
      apply process_prims in E; [|apply Hb]. rewrite (not_reorg m) in E by (apply Hnr, elem_messages_snoc; right; eauto).
      cbn. rewrite <- Hold. clear -E. induction E as [|x y z Hxy _ IH]; [done|]. rewrite IH. by eapply prim_quiet.
    + injection Hs as <-. destruct (evict_older_spec s n) as (_ & _ & _ & _ & E5 & _). by rewrite E5.
Qed.
