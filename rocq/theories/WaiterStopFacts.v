(** Lemmas for C70: a run with Stop is a run of the waiter without it. *)
From Verif Require Import Base Waiter SpecWaiter SpecForget WaiterStop SpecWaiterStop WaiterFacts WaiterFacts2 WaiterFacts3 WaiterFacts4 ForgetFacts.

(** The action of the waiter that a step amounts to, and those of a run. *)
Definition eff (v : wsrv) (x : sact) : list waction :=
  match x with
  | SAct (AAnnounce h n ch) =>
    if v_on v && v_open v && bool_decide (length (w_queue (v_w v)) < ann_cap) then [AAnnounce h n ch] else []
  | SAct ARecv => if v_loop v then match w_queue (v_w v), v_open v with [], false => [] | _, _ => [ARecv] end else []
  | SAct a => [a]
  | _ => []
  end.
Fixpoint passed (tr : list sact) (v : wsrv) : list waction :=
  match tr with
  | [] => []
  | x :: r => eff v x ++ match sstep v x with Ok v' => passed r v' | _ => [] end
  end.

Lemma by_w_ok v a v' : by_w v a = Ok v' → ∃ s, wstep (v_w v) a = Ok s ∧ v' = set_w v s.
Proof. unfold by_w. destruct (wstep (v_w v) a) as [s| |]; cbn [mbind outcome_bind]; try done. intros [= <-]. by exists s. Qed.
Lemma wrun_one a s : wrun [a] s = wstep s a.
Proof. unfold wrun. cbn [foldM]. by destruct (wstep s a). Qed.
Lemma step_eff v x v' : sstep v x = Ok v' → wrun (eff v x) (v_w v) = Ok (v_w v').
Proof.
  intros H. destruct x as [a| |].
  - destruct a as [h n ch| |id|id|id|d|ch|k ch|k|q k d|q b|q]; cbn [sstep] in H; cbn [eff];
      try (apply by_w_ok in H as (s & H & ->); by rewrite wrun_one).
    + destruct (v_on v); [|by injection H as <-]. destruct (v_open v); [|done]. cbn [andb].
      case_bool_decide; [|by injection H as <-]. apply by_w_ok in H as (s & H & ->). by rewrite wrun_one.
    + destruct (v_loop v); [|by injection H as <-].
      destruct (w_queue (v_w v)) eqn:Eq; [destruct (v_open v)|];
        try (apply by_w_ok in H as (s & H & ->); by rewrite wrun_one). by injection H as <-.
  - by injection H as <-.
  - cbn [sstep] in H. destruct (v_calls v); [by injection H as <-|]. destruct (v_open v); [by injection H as <-|done].
Qed.
Lemma srun_cons x r v v' : srun (x :: r) v = Ok v' → ∃ v1, sstep v x = Ok v1 ∧ srun r v1 = Ok v'.
Proof. unfold srun. cbn [foldM]. destruct (sstep v x) as [v1| |]; [|done|done]. intros H. by exists v1. Qed.
Lemma srun_passed tr : ∀ v v', srun tr v = Ok v' → wrun (passed tr v) (v_w v) = Ok (v_w v').
Proof.
  induction tr as [|x r IH]; intros v v' H; [by injection H as <-|]. apply srun_cons in H as (v1 & H1 & H2).
  cbn [passed]. rewrite H1. unfold wrun. rewrite foldM_app. pose proof (step_eff _ _ _ H1) as E. unfold wrun in E. rewrite E. by apply IH.
Qed.
Lemma passed_app tr tr2 : ∀ v v', srun tr v = Ok v' → passed (tr ++ tr2) v = passed tr v ++ passed tr2 v'.
Proof.
  induction tr as [|x r IH]; intros v v' H; [by injection H as <-|]. apply srun_cons in H as (v1 & H1 & H2).
  cbn [passed app]. rewrite H1, <- app_assoc. f_equal. by apply IH.
Qed.
Lemma srun_snoc tr x v v' : srun (tr ++ [x]) v = Ok v' → ∃ v1, srun tr v = Ok v1 ∧ sstep v1 x = Ok v'.
Proof.
  unfold srun. rewrite foldM_app. destruct (foldM sstep tr v) as [v1| |]; [|done|done]. cbn [mbind outcome_bind foldM].
  intros H. exists v1. split; [done|]. by destruct (sstep v1 x).
Qed.

(** What passes. *)
Lemma eff_in v x a : a ∈ eff v x → x = SAct a.
Proof.
  destruct x as [b| |]; [|by intros ?%elem_of_nil|by intros ?%elem_of_nil].
  destruct b; cbn [eff]; repeat case_match; intros Hin;
    first [by apply elem_of_nil in Hin|apply elem_of_list_singleton in Hin as ->; done].
Qed.
Lemma passed_in tr : ∀ v a, a ∈ passed tr v → a ∈ acts tr.
Proof.
  induction tr as [|x r IH]; intros v a H; [done|]. cbn [passed] in H. apply elem_of_app in H as [H|H].
  - apply eff_in in H as ->. left.
  - destruct (sstep v x); [|by apply elem_of_nil in H|by apply elem_of_nil in H]. apply IH in H. destruct x; [by right|done|done].
Qed.
Definition silent (a : waction) : Prop := match a with AAnnounce _ _ _ | ARecv => False | _ => True end.
Lemma in_passed tr : ∀ v v' a, srun tr v = Ok v' → silent a → a ∈ acts tr → a ∈ passed tr v.
Proof.
  induction tr as [|x r IH]; intros v v' a H Ha Hin; [done|]. apply srun_cons in H as (v1 & H1 & H2). cbn [passed]. rewrite H1.
  apply elem_of_app. destruct x as [b| |]; [|by right; eapply IH|by right; eapply IH].
  change (a ∈ b :: acts r) in Hin. apply elem_of_cons in Hin as [->|Hin]; [|right; by eapply IH]. left. destruct b; try done; left.
Qed.
Lemma passed_clock tr : ∀ v v', srun tr v = Ok v' → clock (passed tr v) = clock (acts tr).
Proof.
  induction tr as [|x r IH]; intros v v' H; [done|]. apply srun_cons in H as (v1 & H1 & H2). cbn [passed]. rewrite H1, clock_app, (IH _ _ H2).
  destruct x as [b| |]; [|done|done]. change (acts (SAct b :: r)) with ([b] ++ acts r). rewrite clock_app. f_equal.
  destruct b; cbn [eff]; repeat case_match; done.
Qed.
Lemma passed_serial tr : ∀ v o, serial o (acts tr) → serial o (passed tr v).
Proof.
  induction tr as [|x r IH]; intros v o H; [done|]. cbn [passed].
  assert (G : ∀ o, serial o (acts r) → serial o (match sstep v x with Ok v' => passed r v' | _ => [] end)).
  { intros o' Ho. destruct (sstep v x); [by apply IH|done|done]. }
  destruct x as [b| |]; [|by apply G|by apply G]. change (acts (SAct b :: r)) with (b :: acts r) in H.
  generalize dependent (match sstep v (SAct b) with Ok v' => passed r v' | _ => [] end). intros l G.
  destruct b; cbn [eff]; cbn [serial] in H; repeat case_match; cbn [app serial]; naive_solver.
Qed.
Lemma on_step v x v' : sstep v x = Ok v' → v_on v' = true → v_on v = true ∧ x ≠ SUnsub.
Proof.
  intros H Ho. destruct x as [a| |]; [|by injection H as <-|].
  - split; [|done]. destruct a; cbn [sstep] in H; repeat case_match; try (apply by_w_ok in H as (s & H & ->); done); try done; injection H as <-; cbn in Ho; congruence.
  - split; [|done]. cbn [sstep] in H. repeat case_match; try done; by injection H as <-.
Qed.
Lemma passed_announced tr : ∀ v h n ch, AAnnounce h n ch ∈ passed tr v → v_on v = true ∧ announced_in_time tr (h, n, ch).
Proof.
  induction tr as [|x r IH]; intros v h n ch H; [by apply elem_of_nil in H|]. cbn [passed] in H. apply elem_of_app in H as [H|H].
  - pose proof (eff_in _ _ _ H) as ->. cbn [eff] in H. destruct (v_on v); [|by apply elem_of_nil in H]. split; [done|].
    exists [], r. split; [done|]. by intros ?%elem_of_nil.
  - destruct (sstep v x) as [v1| |] eqn:E; [|by apply elem_of_nil in H|by apply elem_of_nil in H].
    apply IH in H as [Ho (pre & post & -> & Hn)]. destruct (on_step _ _ _ E Ho) as [Ho' Hx]. split; [done|].
    exists (x :: pre), post. split; [done|]. intros [Hc|Hc]%elem_of_cons; [by symmetry in Hc|done].
Qed.
Lemma received_passed tr v v' x : srun tr v = Ok v' → x ∈ received (passed tr v) → announced_in_time tr x.
Proof.
  intros _ H. assert (Ha : x ∈ announced (passed tr v)) by (rewrite announced_received; apply elem_of_app; by left).
  apply elem_of_list_omap in Ha as (a & Ha & E). destruct a; try done. injection E as <-. by apply passed_announced in Ha as [_ ?].
Qed.

(** ** Truth *)
Lemma stop_success tr v q k : srun tr v_init = Ok v → w_qs (v_w v) !! q = Some (QDone k Success) →
  ∃ x, announced_in_time tr x ∧ matches k x ∧ called (acts tr) x.2.
Proof.
  intros H Hq. destruct (success_truthful _ _ _ _ (srun_passed _ _ _ H) Hq) as (h & n & ch & _ & Hr & Hm & Hc).
  exists (h, n, ch). split; [by eapply received_passed|]. split; [done|].
  destruct Hc as [Hc|[c Hc]]; apply passed_in in Hc; [by left|right; by exists c].
Qed.
Lemma stop_unannounced tr v q d h : srun (tr ++ [SAct (ALookup q (KHash h) d)]) v_init = Ok v → (∀ x, ALookup q x.1 x.2 ∉ acts tr) →
  (∀ n ch, ¬ announced_in_time tr (h, n, ch)) → w_qs (v_w v) !! q = Some (QDone (KHash h) NotFound).
Proof.
  intros H Hq Ha. pose proof (srun_passed _ _ _ H) as Hr. apply srun_snoc in H as (v1 & H1 & H2).
  rewrite (passed_app _ _ _ _ H1) in Hr. change (passed [SAct (ALookup q (KHash h) d)] v1) with ([ALookup q (KHash h) d] ++ match sstep v1 (SAct (ALookup q (KHash h) d)) with Ok _ => [] | _ => [] end) in Hr.
  rewrite H2, app_nil_r in Hr. apply (unannounced _ _ _ _ _ Hr).
  - intros x Hx. apply passed_in in Hx. by apply (Hq x).
  - intros n ch Hx. apply (Ha n ch). by eapply received_passed.
Qed.
Lemma stop_wakes tr v q h n ch c dl : srun tr v_init = Ok v → serial ∅ (acts tr ++ [ADone ch]) →
  (∀ y, announced_in_time tr y → y.1.1 = h → y = (h, n, ch)) → w_qs (v_w v) !! q = Some (QParked (KHash h) c dl) →
  ∃ v', srun (tr ++ [SAct (ADone ch)]) v_init = Ok v' ∧ w_qs (v_w v') !! q = Some (QDone (KHash h) Success).
Proof.
  intros H Hs Hu Hq. pose proof (srun_passed _ _ _ H) as Hr.
  assert (Hser : serial ∅ (passed (tr ++ [SAct (ADone ch)]) v_init)).
  { apply passed_serial. unfold acts. rewrite omap_app. exact Hs. }
  rewrite (passed_app _ _ _ _ H) in Hser.
  change (passed [SAct (ADone ch)] v) with ([ADone ch] ++ match sstep v (SAct (ADone ch)) with Ok _ => [] | _ => [] end) in Hser.
  assert (E : match sstep v (SAct (ADone ch)) with Ok _ => [] | _ => @nil waction end = []) by (by destruct (sstep v (SAct (ADone ch)))).
  rewrite E, app_nil_r in Hser.
  assert (Hu' : ∀ y, y ∈ received (passed tr v_init) → y.1.1 = h → y = (h, n, ch)).
  { intros y Hy. apply Hu. by eapply received_passed. }
  destruct (g_parked _ _ (run_good _ _ Hr) _ _ _ _ Hq) as [(n' & ch' & _ & Hrec) _].
  assert ((h, n', ch') = (h, n, ch)) as [= -> ->] by (by apply Hu').
  destruct (done_wakes _ _ _ _ _ _ _ _ Hr Hser Hrec Hu' Hq) as (s' & Hs' & Hq').
  apply run_snoc in Hs' as (s0 & Hr0 & Hd). assert (s0 = v_w v) as -> by (change (v_w v_init) with w_init in Hr; congruence).
  exists (set_w v s'). split; [|done]. unfold srun in *. rewrite foldM_app, H. cbn [mbind outcome_bind foldM sstep]. unfold by_w. by rewrite Hd.
Qed.

(** ** Panics *)
Definition orderly (v : wsrv) (rest : nat) : Prop :=
  (v_on v = true → v_open v = true ∧ v_calls v = 0) ∧ (if v_open v then v_calls v + rest ≤ 1 else v_calls v + rest = 0).
Lemma orderly_run tr : ∀ v s', orderly v (stops tr) → wrun (passed tr v) (v_w v) = Ok s' → ∃ v', srun tr v = Ok v'.
Proof.
  induction tr as [|x r IH]; intros v s' Ho Hr; [by exists v|]. cbn [passed] in Hr. unfold wrun in Hr. rewrite foldM_app in Hr.
  destruct (foldM wstep (eff v x) (v_w v)) as [s1| |] eqn:E1; [|done|done]. cbn [mbind outcome_bind] in Hr.
  assert (Hone : ∀ a, foldM wstep [a] (v_w v) = Ok s1 → by_w v a = Ok (set_w v s1)).
  { intros a E. cbn [foldM] in E. unfold by_w. destruct (wstep (v_w v) a); [|done|done]. cbn [mbind outcome_bind] in *. by injection E as ->. }
  assert (H : ∃ v1, sstep v x = Ok v1 ∧ v_w v1 = s1 ∧ orderly v1 (stops r)).
  { destruct Ho as [O1 O2]. destruct x as [a| |].
    - change (stops (SAct a :: r)) with (stops r) in O2. destruct a; cbn [eff] in E1; cbn [sstep];
        try (exists (set_w v s1); split; [by apply Hone|]; split; [done|by split]).
      + destruct (v_on v) eqn:Eon; cbn [andb] in E1.
        * destruct (O1 eq_refl) as [Eo Ec]. rewrite Eo in *. cbn [andb] in E1. case_bool_decide.
          -- exists (set_w v s1). split; [by apply Hone|]. split; [done|]. split; cbn; [done|]. by rewrite Eo.
          -- injection E1 as <-. exists v. split; [done|]. split; [done|]. split; [done|]. by rewrite Eo.
        * injection E1 as <-. exists v. split; [done|]. split; [done|]. split; [by rewrite Eon|done].
      + destruct (v_loop v) eqn:El.
        * destruct (w_queue (v_w v)); destruct (v_open v) eqn:Eo; try (exists (set_w v s1); split; [by apply Hone|]; split; [done|]; split; cbn; rewrite Eo; done).
          injection E1 as <-. eexists. split; [done|]. split; [done|]. by split.
        * injection E1 as <-. exists v. split; [done|]. split; [done|]. by split.
    - injection E1 as <-. change (stops (SUnsub :: r)) with (S (stops r)) in O2. cbn [sstep]. eexists. split; [done|]. split; [done|]. split; cbn; [done|].
      destruct (v_open v); lia.
    - injection E1 as <-. change (stops (SClose :: r)) with (stops r) in O2. cbn [sstep]. destruct (v_calls v) as [|k] eqn:Ec.
      + exists v. split; [done|]. split; [done|]. split; [by rewrite Ec|]. by rewrite Ec.
      + destruct (v_open v) eqn:Eo; [|lia]. eexists. split; [done|]. split; [done|]. split; cbn; [|lia]. intros Hon. destruct (O1 Hon). lia. }
  destruct H as (v1 & H1 & <- & H3). rewrite H1 in Hr. destruct (IH _ _ H3 Hr) as [v' H']. exists v'. unfold srun in *. cbn [foldM]. by rewrite H1.
Qed.
Lemma stop_no_panic tr : stops tr ≤ 1 → serial ∅ (acts tr) → ∃ v, srun tr v_init = Ok v.
Proof.
  intros H1 H2. apply (passed_serial tr v_init) in H2. apply run_serial in H2 as [s H2]. apply (orderly_run _ _ s); [|done]. by split.
Qed.

(** ** The channel and the loop *)
Lemma step_bounded v x v' : sstep v x = Ok v' → length (w_queue (v_w v)) ≤ ann_cap → length (w_queue (v_w v')) ≤ ann_cap.
Proof.
  intros H L. pose proof (step_eff _ _ _ H) as E. destruct x as [a| |].
  - destruct a as [h n ch| |id|id|id|d|ch|k ch|k|q k d|q b|q]; cbn [eff] in E; try (rewrite wrun_one in E; apply step_queue in E; by rewrite E).
    + destruct (v_on v && v_open v); cbn [andb] in E; [|by injection E as <-]. case_bool_decide; [|by injection E as <-].
      rewrite wrun_one in E. apply step_queue in E. rewrite E, app_length. cbn [length]. lia.
    + assert (G : ∀ s', wrun [ARecv] (v_w v) = Ok s' → length (w_queue s') ≤ ann_cap).
      { intros s' E'. rewrite wrun_one in E'. apply step_queue in E'. rewrite E'. destruct (w_queue (v_w v)); cbn [tail length] in *; lia. }
      destruct (v_loop v); [|by injection E as <-]. destruct (w_queue (v_w v)) eqn:Eq; [|by apply G].
      destruct (v_open v); [by apply G|]. injection E as <-. by rewrite Eq.
  - by injection E as <-.
  - by injection E as <-.
Qed.
Lemma stop_bounded tr v : srun tr v_init = Ok v → length (w_queue (v_w v)) ≤ ann_cap.
Proof.
  unfold srun. apply (foldM_inv (λ v, length (w_queue (v_w v)) ≤ ann_cap)); [|cbn; lia]. intros u x u' _ L E. by eapply step_bounded.
Qed.
(** After the channel was closed nothing is sent; when the loop has ended nothing is left. *)
Definition ended (v : wsrv) : Prop :=
  (v_calls v ≠ 0 ∨ v_open v = false → v_on v = false) ∧ (v_loop v = false → v_open v = false ∧ w_queue (v_w v) = []).
Lemma step_ended v x v' : sstep v x = Ok v' → ended v → ended v'.
Proof.
  intros H [E1 E2]. destruct x as [a| |].
  - destruct a as [h n ch| |id|id|id|d|ch|k ch|k|q k d|q b|q]; cbn [sstep] in H;
      try (apply by_w_ok in H as (s & H & ->); apply step_queue in H; split; cbn; [done|rewrite H; done]).
    + destruct (v_on v) eqn:Eon; [|injection H as <-; split; [by rewrite Eon|done]].
      destruct (v_open v) eqn:Eo; [|done]. case_bool_decide; [|injection H as <-; split; [by rewrite Eon, Eo|by rewrite Eo]].
      apply by_w_ok in H as (s & H & ->). split; cbn; [by rewrite Eon, Eo|]. intros El. by destruct (E2 El).
    + destruct (v_loop v) eqn:El; [|injection H as <-; split; [done|by rewrite El]].
      destruct (w_queue (v_w v)) eqn:Eq; destruct (v_open v) eqn:Eo;
        try (apply by_w_ok in H as (s & H & ->); split; cbn; [by rewrite ?Eo|by rewrite El]).
      injection H as <-. by split.
  - injection H as <-. by split; cbn.
  - cbn [sstep] in H. destruct (v_calls v) as [|k] eqn:Ec; [injection H as <-; split; [by rewrite Ec|done]|].
    destruct (v_open v) eqn:Eo; [|done]. injection H as <-. split; cbn; [intros _; apply E1; by left|]. intros El. by destruct (E2 El).
Qed.
Lemma run_ended tr v : srun tr v_init = Ok v → ended v.
Proof. unfold srun. apply (foldM_inv ended); [intros u x u' _ L E; by eapply step_ended|]. split; cbn; [|done]. by intros [?|?]. Qed.
Lemma stop_loop tr v : srun tr v_init = Ok v → v_loop v = false → v_open v = false ∧ v_on v = false ∧ w_queue (v_w v) = [].
Proof. intros [E1 E2]%run_ended El. destruct (E2 El) as [H1 H2]. split; [done|]. split; [|done]. apply E1. by right. Qed.
Lemma ended_stays tr : ∀ v v', ended v → v_loop v = false → srun tr v = Ok v' →
  v_loop v' = false ∧ ∀ a, a ∈ passed tr v → silent a.
Proof.
  induction tr as [|x r IH]; intros v v' Hv El H; [injection H as <-; split; [done|by intros a ?%elem_of_nil]|].
  apply srun_cons in H as (v1 & H1 & H2). pose proof (step_ended _ _ _ H1 Hv) as Hv1.
  assert (El1 : v_loop v1 = false).
  { destruct x as [a| |]; cbn [sstep] in H1.
    - destruct a; try (apply by_w_ok in H1 as (s & _ & ->); done); repeat case_match; try done; try (injection H1 as <-; done);
        by apply by_w_ok in H1 as (s & _ & ->).
    - by injection H1 as <-.
    - repeat case_match; try done; by injection H1 as <-. }
  destruct (IH _ _ Hv1 El1 H2) as [I1 I2]. split; [done|]. intros a. cbn [passed]. rewrite H1. intros [Ha|Ha]%elem_of_app; [|by apply I2].
  pose proof (eff_in _ _ _ Ha) as ->. destruct a; try done; cbn [eff] in Ha.
  - destruct Hv as [E1 E2]. destruct (E2 El) as [Eo _]. rewrite E1 in Ha by (by right). by apply elem_of_nil in Ha.
  - rewrite El in Ha. by apply elem_of_nil in Ha.
Qed.
Lemma silent_arrivals tr q : (∀ a, a ∈ tr → silent a) → arrivals tr q = [].
Proof.
  revert q. induction tr as [|a r IH]; intros q H; [done|]. assert (Ha : silent a) by (apply H; left).
  destruct a; try done; cbn [arrivals]; apply IH; intros b Hb; apply H; by right.
Qed.
Lemma stop_released tr v tr2 v' : srun tr v_init = Ok v → v_loop v = false → at_rest (v_w v) →
  (∀ x, announced_in_time tr x → ADone x.2 ∈ acts tr) →
  srun tr2 v = Ok v' → (sixty ≤ clock (acts tr2))%N → at_rest (v_w v') →
  w_hashes (v_w v') = ∅ ∧ w_numbers (v_w v') = ∅ ∧ w_tasks (v_w v') = ∅.
Proof.
  intros H El R Hd H2 Hc R2. apply (all_forgotten (passed tr v_init) (v_w v) (passed tr2 v)); [by apply srun_passed|done| |by apply srun_passed| | |done].
  - intros x Hx _. eapply in_passed; [done|done|]. apply Hd. by eapply received_passed.
  - intros x Hx _. destruct (ended_stays _ _ _ (run_ended _ _ H) El H2) as [_ Hs]. rewrite (silent_arrivals _ _ Hs) in Hx. by apply elem_of_nil in Hx.
  - by rewrite (passed_clock _ _ _ H2).
Qed.

(** ** What is in the channel when it is closed *)
Lemma receive_hashes s x r : w_queue s = x :: r → w_queue (receive s) = r ∧ w_hashes (receive s) = <[x.1.1 := x.2]> (w_hashes s).
Proof. intros E. unfold receive. rewrite E. destruct x as [[h n] ch]. by destruct (w_numbers s !! n). Qed.
Lemma stop_drained n : ∀ v, length (w_queue (v_w v)) = n → v_open v = false → v_loop v = true →
  ∃ v', srun (replicate (S n) (SAct ARecv)) v = Ok v' ∧ v_loop v' = false ∧ w_queue (v_w v') = [] ∧
    (∀ x, x ∈ w_queue (v_w v) → is_Some (w_hashes (v_w v') !! x.1.1)) ∧
    (∀ h, is_Some (w_hashes (v_w v) !! h) → is_Some (w_hashes (v_w v') !! h)).
Proof.
  induction n as [|n IH]; intros v Hn Ho El.
  - destruct (w_queue (v_w v)) eqn:Eq; [|done]. exists (Srv (v_w v) (v_on v) false (v_calls v) false). split.
    + unfold srun. cbn [replicate foldM sstep]. by rewrite El, Eq, Ho.
    + split; [done|]. split; [done|]. split; [by intros x ?%elem_of_nil|done].
  - destruct (w_queue (v_w v)) as [|x r] eqn:Eq; [done|]. injection Hn as Hn. destruct (receive_hashes _ _ _ Eq) as [Q1 Q2].
    destruct (IH (set_w v (receive (v_w v)))) as (v' & R1 & R2 & R3 & R4 & R5); [cbn; by rewrite Q1|done|done|].
    exists v'. split.
    + change (replicate (S (S n)) (SAct ARecv)) with (SAct ARecv :: replicate (S n) (SAct ARecv)). unfold srun in *.
      change (foldM sstep (SAct ARecv :: replicate (S n) (SAct ARecv)) v) with (s ← sstep v (SAct ARecv); foldM sstep (replicate (S n) (SAct ARecv)) s).
      assert (E : sstep v (SAct ARecv) = Ok (set_w v (receive (v_w v)))) by (cbn [sstep]; rewrite El, Eq; done).
      by rewrite E.
    + split; [done|]. split; [done|]. cbn [v_w set_w] in R4, R5. rewrite Q1 in R4. rewrite Q2 in R5. split.
      * intros y [->|Hy]%elem_of_cons; [|by apply R4]. apply R5. by rewrite lookup_insert.
      * intros h Hh. apply R5. apply lookup_insert_is_Some'. by right.
Qed.

(** ** For the cases *)
Fixpoint in_time (tr : list sact) : list (hash * Z * N) :=
  match tr with
  | [] => []
  | SUnsub :: _ => []
  | SAct (AAnnounce h n ch) :: r => (h, n, ch) :: in_time r
  | _ :: r => in_time r
  end.
Lemma in_time_spec tr x : announced_in_time tr x → x ∈ in_time tr.
Proof.
  intros (pre & post & -> & Hn). induction pre as [|a pre IH]; [destruct x as [[h n] ch]; left|].
  assert (H : x ∈ in_time (pre ++ SAct (AAnnounce x.1.1 x.1.2 x.2) :: post)) by (apply IH; intros Hc; apply Hn; by right).
  destruct a as [a| |]; [destruct a; try exact H; by right| |exact H]. exfalso. apply Hn. left.
Qed.
Lemma run_stop tr (P : wsrv → bool) : match srun tr v_init with Ok v => P v | _ => false end = true →
  ∃ v, srun tr v_init = Ok v ∧ P v = true.
Proof. destruct (srun tr v_init) as [v| |]; [|done|done]. intros H. by exists v. Qed.
