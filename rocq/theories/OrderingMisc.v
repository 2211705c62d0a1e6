(** Facts behind C26, C27, C29 and the ordering part of C31. *)
From Coq Require Import Strings.String.
From Verif Require Import Base Lru LruFacts Types Ordering SpecChain OrderingBase OrderingGrow OrderingFacts.

(** * C26 *)
Lemma done_finished s h : omp_why s h = Some (str "done, not evicted"%string) ↔ finished s h = true.
Proof.
  unfold omp_why. destruct (finished s h); [done|]. split; [|done].
  destruct (o_pending s !! h); [|done]. intros H. injection H as H. vm_compute in H. discriminate.
Qed.

Lemma repeat_silent s o pb :
  omp_why s (pb_hash pb) = Some (str "done, not evicted"%string) →
  ∃ s', omp_step s (o, InBatch pb) = Ok s' ∧ o_out s' = o_out s ∧ o_last s' = o_last s ∧
        (∀ h, omp_why s' h = Some (str "done, not evicted"%string) ↔
              omp_why s h = Some (str "done, not evicted"%string)).
Proof.
  rewrite done_finished. intros H. unfold omp_step. cbn [fst snd]. unfold handle_batch. cbn [handle].
  destruct (excluded _ _).
  { eexists. split; [done|]. split; [done|]. split; [done|]. intros h. rewrite !done_finished. done. }
  case_bool_decide.
  { eexists. split; [done|]. split; [done|]. split; [done|]. intros h. rewrite !done_finished. done. }
  unfold finished in *. cbn [o_fin set_pending negb]. rewrite H. cbn [andb].
  eexists. split; [done|]. split; [done|]. split; [done|]. intros h. rewrite !done_finished. done.
Qed.

(** The block an update ends on is remembered. *)
Lemma fin_add_self o s h s' : 0 < lru_cap (o_fin s) → fin_add o s h = Ok s' → finished s' h = true.
Proof.
  intros Hc H. apply fin_add_sub in H as [_ H]. unfold finished, lru_contains.
  apply bool_decide_eq_true. rewrite H. by apply lru_add_self.
Qed.

Lemma emit_loop_top f o s new s' new' b :
  0 < lru_cap (o_fin s) → last new = Some b → finished s (pb_hash b) = true →
  emit_loop f o s new = Ok (s', new') →
  ∃ b', last new' = Some b' ∧ finished s' (pb_hash b') = true.
Proof.
  revert s new b; induction f as [|f IH]; intros s new b Hc Hl Hf; cbn [emit_loop]; [discriminate|].
  destruct (get_child _ _ _ _) as [[h|]| |]; ob; [| |discriminate|discriminate].
  2: { intros [= <- <-]. by exists b. }
  destruct (o_pending s !! h) as [pb|]; [|discriminate].
  destruct (finish_siblings _ _ _) as [s1| |] eqn:E1; ob; [|discriminate|discriminate].
  destruct (fin_add _ _ _) as [s2| |] eqn:E2; ob; [|discriminate|discriminate].
  apply finish_siblings_sub in E1. assert (Hf1 := sub_fin _ _ E1).
  assert (Hc1 : 0 < lru_cap (o_fin s1)) by (destruct Hf1 as [-> _]; done).
  assert (Hf2 := E2). apply fin_add_sub in Hf2 as [Hf2 _].
  intros H. eapply IH in H; [exact H| |apply last_snoc|].
  - destruct (sub_fin _ _ Hf2) as [-> _]. exact Hc1.
  - eapply fin_add_self; [|exact E2]. exact Hc1.
Qed.

Lemma prepare_emit_top o s new old s' :
  0 < lru_cap (o_fin s) → new ≠ [] → prepare_emit o s new old = Ok s' →
  ∃ new' b, updates_of (o_out s') = updates_of (o_out s) ++ [(new', old)] ∧
    last new' = Some b ∧ finished s' (pb_hash b) = true.
Proof.
  intros Hc Hne. unfold prepare_emit. destruct (last new) as [b|] eqn:El; [|by apply last_None in El].
  destruct (finish_siblings _ _ _) as [s1| |] eqn:E1; ob; [|discriminate|discriminate].
  destruct (fin_add _ _ _) as [s2| |] eqn:E2; ob; [|discriminate|discriminate].
  apply finish_siblings_sub in E1. assert (Hf1 := sub_fin _ _ E1). cbn in Hf1.
  assert (Hc1 : 0 < lru_cap (o_fin s1)) by (destruct Hf1 as [-> _]; done).
  assert (Hf2 := E2). apply fin_add_sub in Hf2 as [Hf2 _].
  destruct (emit_loop _ _ _ _) as [[s3 n]| |] eqn:E3; ob; [|discriminate|discriminate].
  intros [= <-]. assert (E3' := E3). apply emit_loop_frame in E3' as (_ & _ & _ & _ & _ & e3 & H3 & F3).
  eapply emit_loop_top in E3 as (b' & Hl & Hf); [|destruct (sub_fin _ _ Hf2) as [-> _]; exact Hc1|exact El|by eapply fin_add_self].
  exists n, b'. split; [|done].
  cbn [fst snd send o_out]. rewrite H3, !updates_of_app, (updates_of_evicts e3) by done.
  rewrite (sub_updates _ _ Hf2), (sub_updates _ _ E1). cbn. by rewrite app_nil_r.
Qed.

(** The result of [prepareReorg] ends on the given block, hence is not empty. *)
Lemma reorg_walk_ne f p nh oh newb rv removed added :
  newb ≠ [] → reorg_walk f p nh oh newb rv = Ok (RgOk removed added) → added ≠ [].
Proof.
  revert nh oh newb rv; induction f as [|f IH]; intros nh oh newb rv Hne; cbn [reorg_walk]; [discriminate|].
  case_bool_decide.
  - destruct (p !! _); [|discriminate]. by apply IH.
  - case_bool_decide; [by intros [= <- <-]|]. destruct (p !! _); [|discriminate]. by apply IH.
Qed.

Lemma handle_top f o s pb r s' :
  0 < lru_cap (o_fin s) → handle f o s pb r = Ok s' →
  updates_of (o_out s') = updates_of (o_out s) ∨
  ∃ added removed b, updates_of (o_out s') = updates_of (o_out s) ++ [(added, removed)] ∧
    last added = Some b ∧ finished s' (pb_hash b) = true.
Proof.
  revert s pb r s'; induction f as [|f IH]; intros s pb r s' Hc; cbn [handle]; [discriminate|].
  destruct (excluded (o_wl s) pb); [intros [= <-]; by left|].
  case_bool_decide; [intros [= <-]; by left|].
  set (s1 := set_pending s _).
  destruct (finished s1 (pb_hash pb) && negb r); [intros [= <-]; by left|].
  assert (Hemit : ∀ new old s', new ≠ [] → prepare_emit o s1 new old = Ok s' →
    ∃ added removed b, updates_of (o_out s') = updates_of (o_out s) ++ [(added, removed)] ∧
    last added = Some b ∧ finished s' (pb_hash b) = true).
  { intros new old s2 Hne Hx. apply prepare_emit_top in Hx as (n' & b & H1 & H2); [|done|done].
    by exists n', old, b. }
  case_bool_decide; [intros Hx; right; eapply Hemit; [|exact Hx]; done|].
  destruct (_ && _ && _); [intros Hx; right; eapply Hemit; [|exact Hx]; done|].
  destruct (finished s1 (pb_parent pb)).
  - assert (Hlight : ∀ s',
      (s ← fin_add o s1 (pb_hash pb);
        c ← get_child 0 o s (pb_hash pb);
        match c with
        | Some child =>
          s ← match o_pending s !! child with
              | Some cpb => handle f o s cpb true
              | None => Ok s
              end;
          Ok (queue s pb)
        | None => Ok (queue s pb)
        end) = Ok s' → updates_of (o_out s') = updates_of (o_out s) ∨
  ∃ added removed b, updates_of (o_out s') = updates_of (o_out s) ++ [(added, removed)] ∧
    last added = Some b ∧ finished s' (pb_hash b) = true).
    { intros s2. destruct (fin_add _ _ _) as [s3| |] eqn:E3; ob; [|discriminate|discriminate].
      apply fin_add_sub in E3 as [E3 _]. assert (Hu := sub_updates _ _ E3). cbn in Hu.
      destruct (get_child _ _ _ _) as [[child|]| |]; ob; [| |discriminate|discriminate].
      - destruct (o_pending s3 !! child).
        + destruct (handle _ _ _ _ _) as [s4| |] eqn:E4; ob; [|discriminate|discriminate].
          intros [= <-]. apply IH in E4; [rewrite Hu in E4; exact E4|].
          destruct (sub_fin _ _ E3) as [-> _]. exact Hc.
        + cbn. intros [= <-]. by left.
      - intros [= <-]. by left. }
    destruct (o_pending s1 !! o_last s1) as [lb|] eqn:El; [|exact (Hlight s')].
    destruct (_ <? _)%N eqn:Hw; [|exact (Hlight s')].
    destruct (prepare_reorg _ _ _) as [[rm ad| |]| |] eqn:Er; ob; try discriminate.
    + intros Hx. right. eapply Hemit; [|exact Hx]. by eapply reorg_walk_ne in Er.
    + intros [= <-]. by left.
    + intros [= <-]. by left.
  - destruct (_ <? _)%N; [|intros [= <-]; by left].
    match goal with |- (if ?b then _ else _) = _ → _ => destruct b end; [intros [= <-]; by left|].
    destruct (fin_add _ _ _) as [s3| |] eqn:E3; ob; [|discriminate|discriminate].
    apply fin_add_sub in E3 as [E3 _]. intros [= <-]. left. apply (sub_updates _ _ E3).
Qed.

Lemma new_cap_pos cfg s0 : new_omp cfg = Ok s0 → 0 < lru_cap (o_fin s0) ∧ lru_wf (o_fin s0).
Proof.
  unfold new_omp. case_bool_decide; [discriminate|]. intros [= <-]. cbn [o_fin].
  rewrite lru_add_cap. cbn [lru_cap lru_new]. split; [lia|].
  apply lru_add_wf; [cbn; lia|]. split; cbn; [constructor|lia].
Qed.

Lemma run_cap cfg s0 l s : new_omp cfg = Ok s0 → omp_run s0 l = Ok s →
  lru_cap (o_fin s) = Z.to_nat (cfg_threshold cfg * 2) ∧ 0 < lru_cap (o_fin s) ∧ lru_wf (o_fin s).
Proof.
  intros H0 Hrun. destruct (run_fin _ _ _ Hrun) as [E H]. destruct (new_cap_pos _ _ H0) as [Hp Hw].
  destruct (H Hp Hw) as (Hw' & _). rewrite E, (fin_cap_new _ _ H0) in *. split_and!; try done.
Qed.

Lemma run_snoc s0 l i s s' : omp_run s0 l = Ok s → omp_step s i = Ok s' → omp_run s0 (l ++ [i]) = Ok s'.
Proof. intros H1 H2. unfold omp_run in *. rewrite foldM_app, H1. cbn. by rewrite H2. Qed.

Lemma emitted_head_done cfg s0 l s o pb s' added removed b :
  new_omp cfg = Ok s0 → omp_run s0 l = Ok s → omp_step s (o, InBatch pb) = Ok s' →
  updates_of (o_out s') = updates_of (o_out s) ++ [(added, removed)] → last added = Some b →
  omp_why s' (pb_hash b) = Some (str "done, not evicted"%string).
Proof.
  intros H0 Hrun Hstep Hu Hl. destruct (run_cap _ _ _ _ H0 Hrun) as (_ & Hc & _).
  apply done_finished. apply handle_top in Hstep; [|done].
  destruct Hstep as [E|(a' & r' & b' & E & Hl' & Hf)]; rewrite E in Hu.
  - exfalso. apply (f_equal length) in Hu. rewrite app_length in Hu. cbn in Hu. lia.
  - apply app_inv_head in Hu. injection Hu as -> ->. by rewrite Hl in Hl'; injection Hl' as ->.
Qed.

(** * C29 *)
Lemma finished_bounded cfg s0 l s hs :
  new_omp cfg = Ok s0 → omp_run s0 l = Ok s → NoDup hs →
  Forall (λ h, omp_why s h = Some (str "done, not evicted"%string)) hs →
  (Z.of_nat (length hs) <= 2 * cfg_threshold cfg)%Z.
Proof.
  intros H0 Hrun Hnd Hall. destruct (run_cap _ _ _ _ H0 Hrun) as (Hcap & Hpos & Hw).
  assert (length hs ≤ length (lru_keys (o_fin s))).
  { apply submseteq_length. apply NoDup_submseteq; [done|]. intros h Hh.
    rewrite Forall_forall in Hall. specialize (Hall h Hh). apply done_finished in Hall.
    unfold finished, lru_contains in Hall. by apply bool_decide_eq_true in Hall. }
  pose proof (lwf_len _ Hw). lia.
Qed.

(** What happens to stored blocks while finished ones are forgotten. *)
Record releases (s s' : omp) : Prop := {
  rl_pending : o_pending s' ⊆ o_pending s;
  rl_closed : ∀ y b, o_pending s !! y = Some b → o_pending s' !! y = None → o_pending s' !! pb_parent b = None;
  rl_fin : ∀ h, finished s h = true → finished s' h = false → o_pending s' !! h = None;
  rl_out : ∃ evs, o_out s' = o_out s ++ evs ∧
    ∀ y b, o_pending s !! y = Some b → o_pending s' !! y = None → EvEvict (pb_num b) ∈ evs
}.

Lemma releases_refl s : releases s s.
Proof.
  split; [done|congruence|congruence|]. exists []. rewrite app_nil_r. split; [done|]. congruence.
Qed.
Lemma releases_trans s1 s2 s3 : releases s1 s2 → releases s2 s3 → releases s1 s3.
Proof.
  assert (Hnone : ∀ s s' y, releases s s' → o_pending s !! y = None → o_pending s' !! y = None).
  { intros s s' y H Hy. destruct (o_pending s' !! y) eqn:E; [|done].
    eapply lookup_weaken in E; [|apply H]. congruence. }
  assert (Hsome : ∀ s s' y b, releases s s' → o_pending s !! y = Some b →
            o_pending s' !! y = None ∨ o_pending s' !! y = Some b).
  { intros s s' y b H Hy. destruct (o_pending s' !! y) eqn:E; [|by left].
    right. eapply lookup_weaken in E; [|apply H]. congruence. }
  intros H1 H2. split.
  - etrans; [apply H2|apply H1].
  - intros y b Hy Hn. destruct (Hsome _ _ _ _ H1 Hy) as [E|E].
    + eapply Hnone; [done|]. by eapply (rl_closed _ _ H1).
    + by eapply (rl_closed _ _ H2).
  - intros h Hf Hn. destruct (finished s2 h) eqn:E.
    + by apply (rl_fin _ _ H2).
    + eapply Hnone; [done|]. by apply (rl_fin _ _ H1).
  - destruct (rl_out _ _ H1) as (e1 & E1 & F1), (rl_out _ _ H2) as (e2 & E2 & F2).
    exists (e1 ++ e2). split; [by rewrite E2, E1, app_assoc|].
    intros y b Hy Hn. apply elem_of_app. destruct (Hsome _ _ _ _ H1 Hy) as [E|E].
    + left. by eapply F1.
    + right. by eapply F2.
Qed.
(** Changes that touch neither storage nor the cache. *)
Lemma releases_ext s s' :
  o_pending s' = o_pending s → o_fin s' = o_fin s → (∃ evs, o_out s' = o_out s ++ evs) → releases s s'.
Proof.
  intros E1 E2 (evs & E3). split; rewrite ?E1.
  - done.
  - congruence.
  - unfold finished. rewrite E2. congruence.
  - exists evs. split; [done|]. congruence.
Qed.

Definition keyed (s : omp) : Prop := ∀ h b, o_pending s !! h = Some b → pb_hash b = h.
Lemma keyed_mono s s' : o_pending s' ⊆ o_pending s → keyed s → keyed s'.
Proof. intros H Hk h b Hb. apply Hk. by eapply lookup_weaken. Qed.

Lemma evict_releases f o s h s' :
  keyed s → evict f o s h = Ok s' → releases s s' ∧ o_pending s' !! h = None.
Proof.
  revert s h s'; induction f as [|f IH]; intros s h s' Hk; cbn [evict]; [discriminate|].
  destruct (o_pending s !! h) as [pb|] eqn:Hp; [|intros [= <-]; split; [apply releases_refl|done]].
  assert (Hh := Hk _ _ Hp). rewrite Hh.
  set (s1 := send (set_pending s _) _).
  assert (Hk1 : keyed s1) by (eapply keyed_mono; [|exact Hk]; apply delete_subseteq).
  destruct (evict f o s1 (pb_parent pb)) as [s2| |] eqn:E2; ob; [|discriminate|discriminate].
  apply IH in E2 as [E2 E2p]; [|done].
  assert (Hk2 : keyed s2) by (eapply keyed_mono; [apply E2|done]).
  assert (Hn1 : o_pending s1 !! h = None) by (cbn; apply lookup_delete).
  (* the first part: h itself and its ancestors *)
  assert (H12 : releases s s2 ∧ o_pending s2 !! h = None).
  { assert (Hn2 : o_pending s2 !! h = None).
    { destruct (o_pending s2 !! h) eqn:E; [|done]. eapply lookup_weaken in E; [|apply E2]. congruence. }
    split; [|done]. split.
    - etrans; [apply E2|]. apply delete_subseteq.
    - intros y b Hy Hyn. destruct (decide (y = h)) as [->|Hne].
      + rewrite Hp in Hy. injection Hy as <-. done.
      + eapply (rl_closed _ _ E2); [|exact Hyn]. cbn. by rewrite lookup_delete_ne.
    - intros x Hx Hxn. by apply (rl_fin _ _ E2).
    - destruct (rl_out _ _ E2) as (e2 & Ee & F2). exists (EvEvict (pb_num pb) :: e2).
      split; [rewrite Ee; cbn; by rewrite <- app_assoc|].
      intros y b Hy Hyn. destruct (decide (y = h)) as [->|Hne].
      + rewrite Hp in Hy. injection Hy as <-. apply elem_of_list_here.
      + apply elem_of_list_further. apply (F2 y b); [|done]. cbn. by rewrite lookup_delete_ne. }
  destruct H12 as [H12 Hn2].
  destruct (o_queued s2 !! h) as [cs|] eqn:Hq; [|intros [= <-]; done].
  destruct (foldM _ _ s2) as [s3| |] eqn:E3; ob; [|discriminate|discriminate].
  intros [= <-].
  assert (H3 : releases s s3 ∧ o_pending s3 !! h = None ∧ keyed s3).
  { revert E3. apply (foldM_inv (λ x, releases s x ∧ o_pending x !! h = None ∧ keyed x)); [|done].
    intros x c x' Hc (Hx & Hxn & Hxk). destruct (finished x c); [intros [= <-]; done|].
    intros Hev. apply IH in Hev as [Hev1 Hev2]; [|done]. split; [by eapply releases_trans|].
    split; [|eapply keyed_mono; [apply Hev1|done]].
    destruct (o_pending x' !! h) eqn:E; [|done]. eapply lookup_weaken in E; [|apply Hev1]. congruence. }
  destruct H3 as (H3 & H3n & H3k). split; [|done].
  eapply releases_trans; [exact H3|]. apply releases_ext; try done. exists []. by rewrite app_nil_r.
Qed.

Lemma fin_add_releases o s h s' : keyed s → 0 < lru_cap (o_fin s) → fin_add o s h = Ok s' → releases s s'.
Proof.
  intros Hk Hc. unfold fin_add. pose proof (lru_add_stay (o_fin s) h) as Hstay.
  destruct (lru_add (o_fin s) h) as [l [k|]] eqn:El; cbn in Hstay.
  - intros H. assert (Hfin : o_fin s' = l) by (apply evict_sub in H as [_ H]; done).
    apply evict_releases in H as [H Hn]; [|exact Hk]. split.
    + apply (rl_pending _ _ H).
    + apply (rl_closed _ _ H).
    + intros x Hx Hxn. destruct (decide (x = k)) as [->|Hne]; [done|]. exfalso.
      unfold finished, lru_contains in *. rewrite bool_decide_eq_true in Hx.
      rewrite Hfin, bool_decide_eq_false in Hxn. apply Hxn. apply Hstay; congruence.
    + apply (rl_out _ _ H).
  - intros [= <-]. split; cbn.
    + done.
    + congruence.
    + intros x Hx Hxn. exfalso. unfold finished, lru_contains in *. rewrite bool_decide_eq_true in Hx.
      cbn in Hxn. rewrite bool_decide_eq_false in Hxn. apply Hxn. apply Hstay; congruence.
    + exists []. rewrite app_nil_r. split; [done|]. congruence.
Qed.

(** State of the cache needed to go on. *)
Definition rl_ok (s : omp) : Prop := keyed s ∧ 0 < lru_cap (o_fin s).
Lemma rl_ok_sub s s' : sub s s' → rl_ok s → rl_ok s'.
Proof.
  intros H [H1 H2]. split; [eapply keyed_mono; [apply H|done]|]. destruct (sub_fin _ _ H) as [-> _]. done.
Qed.

Lemma finish_children_releases f o s h s' : rl_ok s → finish_children f o s h = Ok s' → releases s s'.
Proof.
  revert s h s'; induction f as [|f IH]; intros s h s' Hok; cbn [finish_children]; [discriminate|].
  destruct (fin_add o s h) as [s1| |] eqn:E1; ob; [|discriminate|discriminate].
  assert (E1' := E1). apply fin_add_sub in E1' as [E1' _].
  apply fin_add_releases in E1; [|apply Hok|apply Hok].
  destruct (o_queued s !! h) as [cs|]; [|intros [= <-]; done]. intros H.
  apply (foldM_inv (λ x, releases s x ∧ rl_ok x)) in H; [apply H| |].
  - intros x c x' _ [Hx Hxo] Hc. assert (Hc' := Hc). apply finish_children_sub in Hc'. apply IH in Hc; [|done].
    split; [by eapply releases_trans|by eapply rl_ok_sub].
  - split; [done|by eapply rl_ok_sub].
Qed.

Lemma finish_siblings_releases o s pb s' : rl_ok s → finish_siblings o s pb = Ok s' → releases s s'.
Proof.
  intros Hok. unfold finish_siblings.
  destruct (o_queued s !! pb_parent pb) as [cs|]; [|intros [= <-]; apply releases_refl]. intros H.
  apply (foldM_inv (λ x, releases s x ∧ rl_ok x)) in H; [apply H| |split; [apply releases_refl|done]].
  intros x c x' _ [Hx Hxo]. case_bool_decide; [|intros [= <-]; done].
  intros Hc. assert (Hc' := Hc). apply finish_children_sub in Hc'. apply finish_children_releases in Hc; [|done].
  split; [by eapply releases_trans|by eapply rl_ok_sub].
Qed.

Lemma set_last_releases s h w : releases s (set_last s h w).
Proof. apply releases_ext; try done. exists []. by rewrite app_nil_r. Qed.

Lemma emit_loop_releases f o s new s' new' :
  rl_ok s → emit_loop f o s new = Ok (s', new') → releases s s'.
Proof.
  revert s new; induction f as [|f IH]; intros s new Hok; cbn [emit_loop]; [discriminate|].
  destruct (get_child _ _ _ _) as [[h|]| |]; ob; [| |discriminate|discriminate].
  2: { intros [= <- <-]. apply releases_refl. }
  destruct (o_pending s !! h) as [pb|]; [|discriminate].
  destruct (finish_siblings _ _ _) as [s1| |] eqn:E1; ob; [|discriminate|discriminate].
  assert (E1' := E1). apply finish_siblings_sub in E1'. apply finish_siblings_releases in E1; [|done].
  assert (Hok1 := rl_ok_sub _ _ E1' Hok).
  destruct (fin_add _ _ _) as [s2| |] eqn:E2; ob; [|discriminate|discriminate].
  assert (E2' := E2). apply fin_add_sub in E2' as [E2' _].
  apply fin_add_releases in E2; [|apply Hok1|apply Hok1].
  intros H. apply IH in H; [|eapply rl_ok_sub; [exact E2'|exact Hok1]].
  eapply releases_trans; [exact E1|]. eapply releases_trans; [apply set_last_releases|].
  eapply releases_trans; eassumption.
Qed.

Lemma prepare_emit_releases o s new old s' :
  rl_ok s → prepare_emit o s new old = Ok s' → releases s s'.
Proof.
  intros Hok. unfold prepare_emit.
  assert (Hsend : ∀ s e, releases s (send s e)) by (intros; apply releases_ext; try done; by eexists).
  destruct (last new) as [b|]; ob.
  - destruct (finish_siblings _ _ _) as [s1| |] eqn:E1; ob; [|discriminate|discriminate].
    assert (E1' := E1). apply finish_siblings_sub in E1'. apply finish_siblings_releases in E1; [|done].
    assert (Hok1 : rl_ok s1) by (eapply rl_ok_sub; [exact E1'|exact Hok]).
    destruct (fin_add _ _ _) as [s2| |] eqn:E2; ob; [|discriminate|discriminate].
    assert (E2' := E2). apply fin_add_sub in E2' as [E2' _].
    apply fin_add_releases in E2; [|apply Hok1|apply Hok1].
    destruct (emit_loop _ _ _ _) as [[s3 n]| |] eqn:E3; ob; [|discriminate|discriminate].
    apply emit_loop_releases in E3; [|eapply rl_ok_sub; [exact E2'|exact Hok1]].
    intros [= <-]. cbn. eapply releases_trans; [apply set_last_releases|].
    eapply releases_trans; [exact E1|]. eapply releases_trans; [exact E2|].
    eapply releases_trans; [exact E3|apply Hsend].
  - destruct (emit_loop _ _ _ _) as [[s3 n]| |] eqn:E3; ob; [|discriminate|discriminate].
    apply emit_loop_releases in E3; [|done].
    intros [= <-]. cbn. eapply releases_trans; [exact E3|apply Hsend].
Qed.

Lemma queue_releases s pb : releases s (queue s pb).
Proof. apply releases_ext; try done. exists []. by rewrite app_nil_r. Qed.

(** [handle] first stores the block, then only releases; the two exceptions leave the
    cache alone. *)
Lemma handle_releases (T : tree) f o s pb r s' :
  order_ok o → stored (agree T) s → 0 < lru_cap (o_fin s) → agree T pb →
  (r = true → finished s (pb_parent pb) = true) →
  handle f o s pb r = Ok s' →
  releases (set_pending s (<[pb_hash pb := pb]> (o_pending s))) s' ∨
  (o_fin s' = o_fin s ∧ o_out s' = o_out s ∧ (r = true → o_pending s' = o_pending s)).
Proof.
  intros Ho. revert s pb r s'; induction f as [|f IH]; intros s pb r s' Hst Hcap Hpb Hr; cbn [handle]; [discriminate|].
  destruct (excluded (o_wl s) pb); [intros [= <-]; by right|].
  case_bool_decide; [intros [= <-]; by right|].
  set (s1 := set_pending s _).
  assert (Hst1 : stored (agree T) s1) by (by apply stored_pending).
  assert (Hok1 : rl_ok s1).
  { split; [|done]. intros h b Hb. by apply (st_pending _ _ Hst1) in Hb as [? _]. }
  destruct (finished s1 (pb_hash pb) && negb r); [intros [= <-]; left; apply releases_refl|].
  case_bool_decide; [intros Hx; left; by eapply prepare_emit_releases|].
  destruct (_ && _ && _); [intros Hx; left; by eapply prepare_emit_releases|].
  destruct (finished s1 (pb_parent pb)) eqn:Hfp.
  - assert (Hlight : ∀ s',
      (s ← fin_add o s1 (pb_hash pb);
        c ← get_child 0 o s (pb_hash pb);
        match c with
        | Some child =>
          s ← match o_pending s !! child with
              | Some cpb => handle f o s cpb true
              | None => Ok s
              end;
          Ok (queue s pb)
        | None => Ok (queue s pb)
        end) = Ok s' → releases s1 s').
    { intros s2. destruct (fin_add _ _ _) as [s3| |] eqn:E3; ob; [|discriminate|discriminate].
      assert (E3f := fin_add_self _ s1 _ _ Hcap E3).
      assert (E3' := E3). apply fin_add_sub in E3' as [E3' _].
      apply fin_add_releases in E3; [|apply Hok1|apply Hok1].
      assert (Hst3 : stored (agree T) s3) by (by eapply stored_sub).
      destruct (get_child _ _ _ _) as [[child|]| |] eqn:Eg; ob; [| |discriminate|discriminate].
      - destruct (o_pending s3 !! child) as [cpb|] eqn:Ec.
        + destruct (handle _ _ _ _ _) as [s4| |] eqn:E4; ob; [|discriminate|discriminate].
          intros [= <-]. destruct (st_pending _ _ Hst3 _ _ Ec) as [Ech Hag].
          apply IH in E4; [|done|by destruct (sub_fin _ _ E3') as [-> _]|done|].
          2: { intros _.
               destruct (get_child_elem _ _ _ _ _ Ho Eg) as (cs & Hcs & [Hin| ->]).
               - destruct (st_queued_par T (agree T) (λ b H, H) _ _ _ _ Hst3 Hcs Hin) as [_ Hpar].
                 destruct Hag as (_ & -> & _). by rewrite Ech, Hpar.
               - by destruct Hag as (Hz & _). }
          eapply releases_trans; [exact E3|]. eapply releases_trans; [|apply queue_releases].
          destruct E4 as [E4|(E4 & E4o & E4p)].
          * eapply releases_trans; [|exact E4]. apply releases_ext; try done; cbn.
            -- apply insert_id. by rewrite Ech.
            -- exists []. by rewrite app_nil_r.
          * apply releases_ext; [by apply E4p|done|]. exists []. by rewrite app_nil_r.
        + cbn. intros [= <-]. eapply releases_trans; [exact E3|apply queue_releases].
      - intros [= <-]. eapply releases_trans; [exact E3|apply queue_releases]. }
    intros Hrest. left. revert Hrest.
    destruct (o_pending s1 !! o_last s1) as [lb|] eqn:El; [|exact (Hlight s')].
    destruct (_ <? _)%N eqn:Hw; [|exact (Hlight s')].
    destruct (prepare_reorg _ _ _) as [[]| |]; ob; try discriminate.
    + intros Hx. by eapply prepare_emit_releases.
    + intros [= <-]. apply queue_releases.
    + intros [= <-]. apply releases_refl.
  - assert (Hr' : r = false).
    { destruct r; [|done]. specialize (Hr eq_refl). unfold finished in *. cbn in Hfp. congruence. }
    destruct (_ <? _)%N; [|intros [= <-]; left; apply queue_releases].
    match goal with |- (if ?b then _ else _) = _ → _ => destruct b end.
    { intros [= <-]. right. split_and!; try done. by rewrite Hr'. }
    destruct (fin_add _ _ _) as [s3| |] eqn:E3; ob; [|discriminate|discriminate].
    apply fin_add_releases in E3; [|apply Hok1|apply Hok1]. intros [= <-]. left.
    eapply releases_trans; [exact E3|apply queue_releases].
Qed.

Lemma releases_path s s' h a :
  releases s s' → o_pending s' !! h = None → stored_path (o_pending s) h a → o_pending s' !! a = None.
Proof.
  intros Hr Hn Hp. induction Hp as [h|h b a Hb Hp IH]; [done|].
  apply IH. by eapply (rl_closed _ _ Hr).
Qed.

Lemma run_stored (T : tree) cfg s0 l s :
  new_omp cfg = Ok s0 → orders_ok l → Forall (agree T) (batches_of l) → omp_run s0 l = Ok s →
  stored (agree T) s.
Proof.
  intros H0 Hord Hag Hrun.
  eapply (run_ok20 (agree T) T) in Hrun as [Hst _]; try done.
  intros b Hb _. by eapply Forall_forall in Hag.
Qed.

Lemma forgotten_released (T : tree) cfg s0 l s o pb s' h :
  new_omp cfg = Ok s0 → orders_ok l → Forall (agree T) (batches_of l) → omp_run s0 l = Ok s →
  order_ok o → agree T pb → omp_step s (o, InBatch pb) = Ok s' →
  omp_why s h = Some (str "done, not evicted"%string) →
  omp_why s' h ≠ Some (str "done, not evicted"%string) →
  (∀ a, stored_path (o_pending s) h a → o_pending s' !! a = None) ∧
  (∀ b a, stored_path (o_pending s) h a → o_pending s !! a = Some b →
     ∃ evs, o_out s' = o_out s ++ evs ∧ EvEvict (pb_num b) ∈ evs).
Proof.
  intros H0 Hord Hag Hrun Ho Hpb Hstep. rewrite !done_finished. intros Hf Hnf.
  apply not_true_is_false in Hnf.
  assert (Hst := run_stored T _ _ _ _ H0 Hord Hag Hrun).
  destruct (run_cap _ _ _ _ H0 Hrun) as (_ & Hc & _).
  apply (handle_releases T) in Hstep; try done.
  destruct Hstep as [Hr|(E & _)].
  2: { exfalso. unfold finished in *. rewrite E in Hnf. congruence. }
  set (s1 := set_pending s _) in *.
  assert (Hh : o_pending s' !! h = None) by (apply (rl_fin _ _ Hr); done).
  assert (Hpath : ∀ x a, stored_path (o_pending s) x a → stored_path (o_pending s1) x a).
  { intros x a Hp. induction Hp as [x|x b a Hb Hp IH]; [constructor|].
    destruct (decide (x = pb_hash pb)) as [->|Hne].
    - eapply sp_parent; [cbn; apply lookup_insert|].
      destruct (st_pending _ _ Hst _ _ Hb) as [Eb (_ & Ep & _)].
      destruct Hpb as (_ & Ep' & _). rewrite Ep', <- Eb, <- Ep. exact IH.
    - eapply sp_parent; [|exact IH]. cbn. by rewrite lookup_insert_ne. }
  split.
  - intros a Hp. eapply releases_path; [exact Hr|exact Hh|]. by apply Hpath.
  - intros b a Hp Hb.
    assert (Hn : o_pending s' !! a = None) by (eapply releases_path; [exact Hr|exact Hh|by apply Hpath]).
    destruct (rl_out _ _ Hr) as (evs & E & F). exists evs. split; [exact E|].
    destruct (decide (a = pb_hash pb)) as [->|Hne].
    + replace (pb_num b) with (pb_num pb).
      * eapply F; [|exact Hn]. cbn. apply lookup_insert.
      * destruct (st_pending _ _ Hst _ _ Hb) as [Eb (_ & _ & En & _)].
        destruct Hpb as (_ & _ & En' & _). by rewrite En', En, Eb.
    + eapply F; [|exact Hn]. cbn. by rewrite lookup_insert_ne.
Qed.

(** * C27 *)
Lemma ancestor_trans T a b c : ancestor T a b → ancestor T b c → ancestor T a c.
Proof. intros H1 H2. induction H2 as [|x y _ IH]; [done|]. constructor. by apply IH. Qed.

Lemma tainted_parent wl T h : tainted wl T (t_par T h) → tainted wl T h.
Proof. intros (a & H & Hb). exists a. split; [|done]. by constructor. Qed.
Lemma tainted_inv wl T h : tainted wl T h → barred wl T h ∨ tainted wl T (t_par T h).
Proof.
  intros (a & H & Hb). destruct H as [h|a h H]; [by left|right]. by exists a.
Qed.

Lemma barred_excluded wl T b : agree T b → barred wl T (pb_hash b) → excluded wl b = true.
Proof.
  intros (_ & _ & Hn & _) (Hr & w & Hw & Hne). unfold excluded, uint64.
  rewrite Hn, Z.mod_small by lia. rewrite Hw. by apply bool_decide_eq_true.
Qed.

Section taint.
Context (wl : gmap Z hash) (T : tree).
Definition Gw (b : pending_batch) : Prop := agree T b ∧ excluded wl b = false.
Definition clean (c : client) : Prop :=
  ¬ tainted wl T (cl_base c) ∧ Forall (λ b, ¬ tainted wl T (pb_hash b)) (cl_chain c).

Lemma clean_tip c : clean c → ¬ tainted wl T (tip c).
Proof.
  intros [H1 H2]. unfold tip. destruct (cl_chain c); [done|]. by apply Forall_cons in H2 as [? _].
Qed.

Lemma undo_all_clean l c c' : Forall Gw l → clean c → undo_all c l = Some c' → clean c'.
Proof.
  revert c; induction l as [|b l IH]; intros c HG Hc; cbn [undo_all]; [by intros [= <-]|].
  apply Forall_cons in HG as [[Hb _] HG]. unfold undo. case_decide as E; [|discriminate].
  assert (Ht := clean_tip _ Hc). destruct c as [base [|x r]]; cbn [cl_chain cl_base mbind option_bind].
  - apply IH; [done|]. split; cbn; [|constructor]. destruct Hb as (_ & -> & _).
    intros H. apply tainted_parent in H. by rewrite E in H.
  - apply IH; [done|]. destruct Hc as [H1 H2]. apply Forall_cons in H2 as [_ H2]. by split.
Qed.

Lemma apply_all_clean l c c' : Forall Gw l → clean c → apply_all c l = Some c' →
  clean c' ∧ Forall (λ b, ¬ tainted wl T (pb_hash b)) l.
Proof.
  revert c; induction l as [|b l IH]; intros c HG Hc; cbn [apply_all]; [by intros [= <-]|].
  apply Forall_cons in HG as [[Hb Hx] HG]. unfold apply. case_decide as E; [|discriminate].
  assert (Ht := clean_tip _ Hc). cbn [mbind option_bind].
  assert (Hnb : ¬ tainted wl T (pb_hash b)).
  { intros [H|H]%tainted_inv.
    - apply (barred_excluded wl T b Hb) in H. congruence.
    - destruct Hb as (_ & Hp & _). by rewrite <- Hp, E in H. }
  intros H. apply IH in H as [H1 H2]; [|done|].
  - split; [done|]. by constructor.
  - destruct Hc as [Hc1 Hc2]. split; cbn; [done|]. by constructor.
Qed.

Lemma client_clean evs c c' :
  Forall Gw (all_added evs) → Forall Gw (all_removed evs) →
  Forall (λ p, ¬ tainted wl T p.2) (reorgs_out evs) →
  clean c → client_run c evs = Some c' →
  Forall (λ b, ¬ tainted wl T (pb_hash b)) (all_added evs).
Proof.
  revert c; induction evs as [|e evs IH]; intros c Ha Hr Hg Hc; cbn [client_run]; [constructor|].
  intros Hrun.
  change (e :: evs) with ([e] ++ evs) in Ha, Hr, Hg |- *.
  rewrite all_added_app in Ha |- *. rewrite all_removed_app in Hr. rewrite reorgs_out_app in Hg.
  apply Forall_app in Ha as [Ha1 Ha2], Hr as [Hr1 Hr2], Hg as [Hg1 Hg2]. apply Forall_app.
  revert Hrun.
  destruct e as [added removed|n h|n]; cbn [client_step].
  - cbn in Ha1, Hr1. rewrite app_nil_r in Ha1, Hr1.
    destruct (undo_all c (rev removed)) as [c1|] eqn:Eu; cbn [mbind option_bind]; [|discriminate].
    apply undo_all_clean in Eu; [|by apply Forall_rev|done].
    destruct (apply_all c1 added) as [c2|] eqn:Ea; cbn [mbind option_bind]; [|discriminate].
    apply apply_all_clean in Ea as [Hc2 Hadd]; [|done|done].
    intros H. split; [cbn; by rewrite app_nil_r|]. by eapply IH.
  - cbn [mbind option_bind]. intros H. split; [constructor|]. eapply IH; [done..| |exact H].
    cbn in Hg1. apply Forall_cons in Hg1 as [Hg1 _]. split; [done|constructor].
  - cbn [mbind option_bind]. intros H. split; [constructor|]. by eapply IH.
Qed.
End taint.

Lemma run_reorgs_out s l s' : omp_run s l = Ok s' →
  map snd (reorgs_out (o_out s')) = map snd (reorgs_out (o_out s)) ++ reorgs_of l.
Proof.
  revert s; induction l as [|[o i] l IH]; intros s; unfold omp_run; cbn [foldM].
  { intros [= <-]. unfold reorgs_of. cbn. by rewrite app_nil_r. }
  destruct (omp_step s (o, i)) as [s1| |] eqn:E; ob; [|discriminate|discriminate].
  intros H. rewrite (IH _ H). unfold omp_step in E. destruct i as [pb|n h]; cbn [fst snd] in E.
  - apply handle_reorgs_out in E. rewrite E. done.
  - injection E as <-. unfold handle_reorg, reorgs_of. cbn. rewrite reorgs_out_app, map_app, <- app_assoc. done.
Qed.

Lemma whitelist_enforced (T : tree) cfg s0 l s :
  cfg_last_hash cfg ≠ zero_hash → new_omp cfg = Ok s0 →
  orders_ok l → Forall (agree T) (batches_of l) →
  ¬ tainted (cfg_whitelist cfg) T (cfg_last_hash cfg) →
  (∀ h, h ∈ reorgs_of l → ¬ tainted (cfg_whitelist cfg) T h) →
  omp_run s0 l = Ok s →
  ∀ b, b ∈ all_added (o_out s) → ¬ tainted (cfg_whitelist cfg) T (pb_hash b).
Proof.
  intros Hz H0 Hord Hag Hl Hre Hrun b Hb.
  destruct (run_accepts (Gw (cfg_whitelist cfg) T) T cfg s0 l s) as (c & Hc & _ & Ha & Hr & _); try done.
  { by intros x [? _]. }
  { intros x Hx He. split; [|done]. by eapply Forall_forall in Hag. }
  eapply client_clean in Hc; [|done|done| |].
  - rewrite Forall_forall in Hc. by apply Hc.
  - apply Forall_forall. intros [n h] Hp. cbn. apply Hre.
    pose proof (run_reorgs_out _ _ _ Hrun) as E.
    assert (Hs0 : o_out s0 = []) by (revert H0; unfold new_omp; case_bool_decide; [done|by intros [= <-]]).
    rewrite Hs0 in E. cbn in E. rewrite <- E. apply elem_of_list_fmap. by exists (n, h).
  - split; [done|constructor].
Qed.

(** Without any assumption on the start: late descendants stay out. *)
Section late.
Context (wl : gmap Z hash) (T : tree) (l : list pending_batch).
Definition Gl (b : pending_batch) : Prop := agree T b ∧ ¬ late wl T l (pb_hash b).

Lemma Gl_agree b : Gl b → agree T b.
Proof. by intros [? _]. Qed.

(** Every late block that has arrived is blacklisted. *)
Definition black (seen : list pending_batch) (s : omp) : Prop :=
  o_wl s = wl ∧ ∀ h, late wl T l h → h ∈ map pb_hash seen → h ∈ o_bl s.

Lemma handle_bl f o s pb r s' :
  handle f o s pb r = Ok s' → o_bl s ⊆ o_bl s' ∧ o_wl s' = o_wl s.
Proof.
  revert s pb r s'; induction f as [|f IH]; intros s pb r s'; cbn [handle]; [discriminate|].
  destruct (excluded (o_wl s) pb); [intros [= <-]; cbn; set_solver|].
  case_bool_decide; [intros [= <-]; cbn; set_solver|].
  set (s1 := set_pending s _).
  destruct (finished s1 (pb_hash pb) && negb r); [by intros [= <-]|].
  assert (Hemit : ∀ new old s', prepare_emit o s1 new old = Ok s' → o_bl s ⊆ o_bl s' ∧ o_wl s' = o_wl s).
  { intros new old s2 Hx. apply prepare_emit_frame in Hx as (_ & E1 & E2 & _). by rewrite E1, E2. }
  case_bool_decide; [apply Hemit|].
  destruct (_ && _ && _); [apply Hemit|].
  destruct (finished s1 (pb_parent pb)).
  - assert (Hlight : ∀ s',
      (s ← fin_add o s1 (pb_hash pb);
        c ← get_child 0 o s (pb_hash pb);
        match c with
        | Some child =>
          s ← match o_pending s !! child with
              | Some cpb => handle f o s cpb true
              | None => Ok s
              end;
          Ok (queue s pb)
        | None => Ok (queue s pb)
        end) = Ok s' → o_bl s ⊆ o_bl s' ∧ o_wl s' = o_wl s).
    { intros s2. destruct (fin_add _ _ _) as [s3| |] eqn:E3; ob; [|discriminate|discriminate].
      apply fin_add_sub in E3 as [E3 _]. assert (Hb := sub_bl _ _ E3). assert (Hw := sub_wl _ _ E3).
      cbn in Hb, Hw.
      destruct (get_child _ _ _ _) as [[child|]| |]; ob; [| |discriminate|discriminate].
      - destruct (o_pending s3 !! child).
        + destruct (handle _ _ _ _ _) as [s4| |] eqn:E4; ob; [|discriminate|discriminate].
          intros [= <-]. apply IH in E4 as [E4 E5]. cbn. rewrite <- Hb. split; [done|congruence].
        + cbn. intros [= <-]. cbn. rewrite Hb. done.
      - intros [= <-]. cbn. rewrite Hb. done. }
    destruct (o_pending s1 !! o_last s1) as [lb|] eqn:El; [|exact (Hlight s')].
    destruct (_ <? _)%N eqn:Hw; [|exact (Hlight s')].
    destruct (prepare_reorg _ _ _) as [[]| |]; ob; try discriminate.
    + apply Hemit.
    + by intros [= <-].
    + by intros [= <-].
  - destruct (_ <? _)%N; [|by intros [= <-]].
    match goal with |- (if ?b then _ else _) = _ → _ => destruct b end; [by intros [= <-]|].
    destruct (fin_add _ _ _) as [s3| |] eqn:E3; ob; [|discriminate|discriminate].
    apply fin_add_sub in E3 as [E3 _]. intros [= <-]. cbn. rewrite (sub_bl _ _ E3), (sub_wl _ _ E3). done.
Qed.

Lemma late_caught seen s pb rest :
  l = seen ++ pb :: rest → Forall (agree T) l → black seen s → late wl T l (pb_hash pb) →
  excluded (o_wl s) pb = true ∨ pb_parent pb ∈ o_bl s.
Proof.
  intros El Hag [Hwl Hbl] Hlate.
  assert (Hpb : agree T pb).
  { eapply Forall_forall in Hag; [done|]. rewrite El. apply elem_of_app. right. apply elem_of_list_here. }
  inversion Hlate as [h Hb E|h Hp Hall E].
  - left. rewrite Hwl. by apply (barred_excluded _ T).
  - right. assert (Hpar : pb_parent pb = t_par T (pb_hash pb)) by apply Hpb.
    rewrite Hpar. apply Hbl; [done|]. by eapply Hall.
Qed.

Lemma late_run c0 seen li s s' :
  Forall (agree T) l → l = seen ++ batches_of li → orders_ok li → black seen s → ok20 Gl c0 s →
  omp_run s li = Ok s' → ok20 Gl c0 s'.
Proof.
  intros Hag. revert seen s; induction li as [|[o i] li IH]; intros seen s El Hord Hbl Hok; unfold omp_run; cbn [foldM].
  { by intros [= <-]. }
  apply Forall_cons in Hord as [Ho Hord]. cbn in Ho.
  destruct (omp_step s (o, i)) as [s1| |] eqn:E; ob; [|discriminate|discriminate].
  intros Hrun. destruct i as [pb|n h]; unfold omp_step in E; cbn [fst snd] in E.
  - assert (El' : l = seen ++ pb :: batches_of li) by done.
    apply (IH (seen ++ [pb]) s1); [by rewrite <- app_assoc|done| | |exact Hrun].
    + assert (E' := E). unfold handle_batch in E'. apply handle_bl in E' as [Hsub Hwl'].
      split; [destruct Hbl; congruence|].
      intros x Hx. rewrite map_app, elem_of_app. intros [Hin|Hin].
      * apply Hsub. by apply Hbl.
      * apply elem_of_list_singleton in Hin as ->.
        destruct (late_caught seen s pb (batches_of li)) as [Hc|Hc]; try done.
        -- unfold handle_batch in E. cbn [handle] in E. rewrite Hc in E. injection E as <-. cbn. set_solver.
        -- unfold handle_batch in E. cbn [handle] in E. rewrite (bool_decide_eq_true_2 _ Hc) in E.
           destruct (excluded _ _); injection E as <-; cbn; set_solver.
    + unfold handle_batch in E. apply (handle_ok20 T Gl Gl_agree c0) in E as [E1 E2]; try done.
      intros Hx Hnb. split.
      * eapply Forall_forall in Hag; [done|]. rewrite El'. apply elem_of_app. right. apply elem_of_list_here.
      * intros Hl. destruct (late_caught seen s pb (batches_of li)) as [Hc|Hc]; try done. congruence.
  - injection E as <-. apply (IH seen (handle_reorg s n h)); [done|done|done| |done].
    destruct Hok as (Hst & c & k & (Hcr & Hg & Hf1 & Hf2) & Ht & Hj).
    split; [eapply stored_ext; [..|exact Hst]; done|].
    exists (Client h []), k. split; [|done].
    split; [|split; [split; cbn; [done|constructor]|]].
    + unfold handle_reorg; cbn. rewrite lenient_run_app, Hcr. done.
    + unfold handle_reorg. cbn [send set_last_hash set_last o_out].
      rewrite all_added_app, all_removed_app. cbn. by rewrite !app_nil_r.
Qed.
End late.

Lemma whitelist_late (T : tree) cfg s0 l s :
  new_omp cfg = Ok s0 → orders_ok l → Forall (agree T) (batches_of l) →
  omp_run s0 l = Ok s →
  ∀ b, b ∈ all_added (o_out s) → ¬ late (cfg_whitelist cfg) T (batches_of l) (pb_hash b).
Proof.
  intros H0 Hord Hag Hrun b Hb.
  eapply (late_run (cfg_whitelist cfg) T (batches_of l) (Client (cfg_last_hash cfg) []) [] l) in Hrun; try done.
  - destruct Hrun as (_ & c & n & (_ & _ & Ha & _) & _). rewrite Forall_forall in Ha.
    by apply Ha.
  - split; [by apply run_wl0|]. intros h _ Hh. by apply elem_of_nil in Hh.
  - by apply ok20_init.
Qed.
