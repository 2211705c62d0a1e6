(** Lemmas for C66: what the bounded consumer has delivered. *)
From Verif Require Import Base Lru Types Avro Wire GoPath Consumer Ordering SpecChain System SpecCollect SystemFacts
  ConsumerFacts Pipeline SpecPipeline.

Definition pend (i : nat) (q : sends) : list item :=
  omap (λ e : item * list nat, if bool_decide (i ∈ e.2) then Some e.1 else None) q.
Definition hold (u : sub) : list item := u_got u ++ option_list (u_hand u) ++ u_buf u.
Definition shape (u : sub) : kind * nat * bool := (u_kind u, u_cap u, u_on u).
Definition of_mp (k : kind) : bool := match k with KWaiters | KBatches | KNotices => true | _ => false end.

Lemma accept_spec x u u' : accept x u = Some u' → shape u' = shape u ∧ hold u' = hold u ++ [x] ∧ u_got u' = u_got u ∧
  (u_on u = false → u_hand u' = u_hand u).
Proof.
  unfold accept, hold. case_bool_decide.
  - intros [= <-]. cbn. split; [done|]. split; [by rewrite <- !app_assoc|]. done.
  - destruct (u_buf u) as [|? ?] eqn:E1; [|done]. destruct (u_hand u) as [?|] eqn:E2; [done|]. destruct (u_on u) eqn:E3; [|done].
    intros [= <-]. cbn. split; [unfold shape; cbn; by rewrite E3|]. split; [by rewrite app_nil_r|]. done.
Qed.
Lemma send_one_spec i q us q' us' : send_one i q us = Some (q', us') → ∃ x l r u u',
  q = (x, l) :: r ∧ i ∈ l ∧ us !! i = Some u ∧ accept x u = Some u' ∧ q' = (x, filter (λ j, j ≠ i) l) :: r ∧ us' = <[i := u']> us.
Proof.
  unfold send_one. destruct q as [|[x l] r]; [done|]. case_bool_decide as Hi; [|done].
  destruct (us !! i) as [u|] eqn:Eu; [|done]. destruct (accept x u) as [u'|] eqn:Ea; [|done]. intros [= <- <-].
  exists x, l, r, u, u'. done.
Qed.
Lemma shape_insert us (i : nat) u u' : us !! i = Some u → shape u' = shape u → map shape (<[i := u']> us) = map shape us.
Proof.
  intros Hu Hs. apply list_eq. intros j. change (map shape (<[i:=u']> us) !! j) with ((shape <$> <[i:=u']> us) !! j).
  change (map shape us !! j) with ((shape <$> us) !! j). rewrite !list_lookup_fmap. destruct (decide (i = j)) as [<-|Hn].
  - rewrite list_lookup_insert by (by eapply lookup_lt_Some). cbn. rewrite Hu. cbn. by rewrite Hs.
  - by rewrite list_lookup_insert_ne.
Qed.
Lemma shape_kind us us' (i : nat) : map shape us = map shape us' → u_kind <$> us !! i = u_kind <$> us' !! i.
Proof.
  intros H. assert (H2 : (shape <$> us) !! i = (shape <$> us') !! i) by exact (f_equal (λ l, l !! i) H).
  rewrite !list_lookup_fmap in H2. destruct (us !! i), (us' !! i); cbn in *; try done. injection H2. by intros _ _ ->.
Qed.
Lemma shape_at us us' (i : nat) u : map shape us = map shape us' → us !! i = Some u → ∃ u', us' !! i = Some u' ∧ shape u = shape u'.
Proof.
  intros H Hu. assert (H2 : (shape <$> us) !! i = (shape <$> us') !! i) by exact (f_equal (λ l, l !! i) H).
  rewrite !list_lookup_fmap, Hu in H2. destruct (us' !! i) as [u'|]; cbn in *; [|done]. exists u'. split; [done|]. unfold shape in *. congruence.
Qed.

Lemma on_feed_app k xs ys : on_feed k (xs ++ ys) = on_feed k xs ++ on_feed k ys.
Proof. apply filter_app. Qed.
Lemma on_feed_inl k xs : of_mp k = false → on_feed k (map inl xs) = [].
Proof.
  intros Hk. induction xs as [|x xs IH]; [done|]. cbn [map]. unfold on_feed. rewrite filter_cons_False; [exact IH|].
  destruct x; cbn; intros [= <-]; done.
Qed.
Lemma on_feed_inr k xs : of_mp k = true → on_feed k (map inr xs) = [].
Proof.
  intros Hk. induction xs as [|x xs IH]; [done|]. cbn [map]. unfold on_feed. rewrite filter_cons_False; [exact IH|].
  destruct x; cbn; try done; intros [= <-]; done.
Qed.
Lemma elem_targets us x i : i ∈ targets us x ↔ is_Some (us !! i) ∧ u_kind <$> us !! i = kind_of x.
Proof.
  unfold targets. rewrite elem_of_list_filter, elem_of_seq, lookup_lt_is_Some. split; intros [H1 H2]; split; try done; lia.
Qed.
Lemma pend_send us xs i u : us !! i = Some u → pend i (send_all us xs) = on_feed (u_kind u) xs.
Proof.
  intros Hu. induction xs as [|x xs IH]; [done|]. cbn [send_all map]. unfold pend. cbn [omap list_omap fst snd].
  fold (send_all us xs). change (omap _ (send_all us xs)) with (pend i (send_all us xs)). rewrite IH. unfold on_feed.
  case_bool_decide as Hi.
  - apply elem_targets in Hi as [_ Hi]. rewrite Hu in Hi. cbn in Hi. rewrite filter_cons_True by done. done.
  - rewrite filter_cons_False; [done|]. intros Hk. apply Hi, elem_targets. rewrite Hu. split; [eauto|]. by rewrite Hk.
Qed.
Lemma pend_app i q q' : pend i (q ++ q') = pend i q ++ pend i q'.
Proof. apply omap_app. Qed.

(** The outstanding sends are addressed to subscribers of their feed. *)
Definition fits (us : list sub) (side : bool) (e : item * list nat) : Prop :=
  (∀ i, i ∈ e.2 → ∃ u, us !! i = Some u ∧ kind_of e.1 = Some (u_kind u)) ∧ (∀ k, kind_of e.1 = Some k → of_mp k = side).
Lemma pend_other us side q i u : Forall (fits us side) q → us !! i = Some u → of_mp (u_kind u) = negb side → pend i q = [].
Proof.
  intros H Hu Hk. induction q as [|[x l] r IH]; [done|]. apply Forall_cons in H as [[H1 H2] H3]. cbn [fst snd] in *.
  unfold pend. cbn [omap list_omap fst snd]. case_bool_decide as Hi; [|by apply IH].
  exfalso. apply H1 in Hi as (u' & Hu' & Hi). rewrite Hu in Hu'. injection Hu' as <-. apply H2 in Hi. rewrite Hk in Hi. by destruct side.
Qed.
Lemma fits_mono us us' side q : map shape us = map shape us' → Forall (fits us side) q → Forall (fits us' side) q.
Proof.
  intros H Hq. eapply Forall_impl; [exact Hq|]. intros [x l] [H1 H2]. split; [|done]. intros i Hi. destruct (H1 i Hi) as (u & Hu & Hk).
  destruct (shape_at _ _ i u H Hu) as (u' & Hu' & Hs). exists u'. split; [done|]. rewrite Hk. unfold shape in Hs. congruence.
Qed.
Lemma fits_send_mp us xs : Forall (fits us true) (send_all us (map inl xs)).
Proof.
  apply Forall_forall. intros e. unfold send_all. rewrite elem_of_list_fmap. intros (x & -> & Hx).
  apply elem_of_list_fmap in Hx as (y & -> & _). split; cbn [fst snd].
  - intros i Hi. apply elem_targets in Hi as [[u Hu] Hi]. rewrite Hu in Hi. exists u. split; [done|]. by rewrite <- Hi.
  - destruct y; cbn; intros k [= <-]; done.
Qed.
Lemma fits_send_omp us xs : Forall (fits us false) (send_all us (map inr xs)).
Proof.
  apply Forall_forall. intros e. unfold send_all. rewrite elem_of_list_fmap. intros (x & -> & Hx).
  apply elem_of_list_fmap in Hx as (y & -> & _). split; cbn [fst snd].
  - intros i Hi. apply elem_targets in Hi as [[u Hu] Hi]. rewrite Hu in Hi. exists u. split; [done|]. by rewrite <- Hi.
  - destruct y; cbn; intros k; try done; intros [= <-]; done.
Qed.

Definition own_got (l : list (order * omp_input)) (us : list sub) : Prop :=
  u_got <$> us !! 0 = Some (map (λ pb, inl (EBatch pb)) (batches_of l)) ∧
  u_got <$> us !! 1 = Some (map (λ x : Z * hash, inl (EReorg x.1 x.2)) (taken_reorgs l)).

Record pinv (c : mp_config) (cfg : config) (ms : list (msg * menv)) (apps : list sub) (s : pipe) : Prop := {
  pi_sys : ∃ ins l, sys_run c cfg (Sys (q_mp s) (q_omp s) ins l) ∧ messages ins ++ map fst (q_in s) = map fst ms ∧ own_got l (q_subs s);
  pi_in : Forall (λ x : msg * menv, menv_ok x.2 ∧ ∀ k, me_evict x.2 k = []) (q_in s);
  pi_req : ∀ n l, (inr (EvEvict n), l) ∈ q_pub s → EvEvict n ∈ o_out (q_omp s);
  pi_shape : map shape (q_subs s) = map shape (own_subs ++ apps);
  pi_own : ∀ i u, i < 2 → q_subs s !! i = Some u → u_hand u = None;
  pi_put : Forall (fits (q_subs s) true) (q_put s);
  pi_pub : Forall (fits (q_subs s) false) (q_pub s);
  pi_del : ∀ i u, q_subs s !! i = Some u → hold u ++ pend i (q_put s) ++ pend i (q_pub s) = fed s (u_kind u)
}.

Lemma pinv_start c cfg ms apps s : pstart c cfg ms apps s → pinv c cfg ms apps s.
Proof.
  intros (st & om & H1 & H2 & H3 & H4 & H5 & ->). split; cbn [q_in q_mp q_put q_omp q_pub q_subs].
  - exists [], []. split.
    { exists (Sys st om [] []). split; [|constructor]. split; [done|]. done. }
    split; [done|]. split; done.
  - done.
  - intros n l H%elem_of_nil. done.
  - done.
  - intros i u Hi. destruct i as [|[|i]]; cbn; [intros [= <-]; done|intros [= <-]; done|lia].
  - constructor.
  - constructor.
  - assert (Hst : mp_out st = []).
    { unfold mp_new in H2. case_bool_decide; [|done]. injection H2 as <-. done. }
    assert (Hom : o_out om = []).
    { unfold new_omp in H3. case_bool_decide; [done|]. injection H3 as <-. done. }
    intros i u Hu. unfold fed, pend. cbn [q_mp q_omp]. rewrite Hst, Hom. cbn. rewrite app_nil_r.
    assert (Hi : idle_sub u).
    { destruct i as [|[|i]]; cbn in Hu; [by injection Hu as <-|by injection Hu as <-|]. rewrite Forall_forall in H4. apply H4.
      by eapply elem_of_list_lookup_2. }
    destruct Hi as (E1 & E2 & E3). unfold hold. rewrite E1, E2, E3. done.
Qed.

Lemma own_got_insert l us (i : nat) u u' : us !! i = Some u → u_got u' = u_got u → own_got l us → own_got l (<[i := u']> us).
Proof.
  intros Hu Hg [H1 H2]. assert (E : ∀ j, u_got <$> <[i := u']> us !! j = u_got <$> us !! j).
  { intros j. destruct (decide (i = j)) as [<-|Hn].
    - rewrite list_lookup_insert by (by eapply lookup_lt_Some). rewrite Hu. cbn. by rewrite Hg.
    - by rewrite list_lookup_insert_ne. }
  split; by rewrite E.
Qed.
Lemma sys_run_step c cfg y y' : sys_run c cfg y → sys_step c y y' → sys_run c cfg y'.
Proof. intros (y0 & H0 & Hr) Hs. exists y0. split; [done|]. by eapply rtc_r. Qed.
Lemma kinds_of_fits us side x l r i u : Forall (fits us side) ((x, l) :: r) → i ∈ l → us !! i = Some u → of_mp (u_kind u) = side.
Proof.
  intros [[H1 H2] _]%Forall_cons Hi Hu. cbn [fst snd] in *. apply H1 in Hi as (u' & Hu' & Hi). rewrite Hu in Hu'. injection Hu' as <-.
  by apply H2.
Qed.
Lemma fits_less us side x l r i : Forall (fits us side) ((x, l) :: r) → Forall (fits us side) ((x, filter (λ j, j ≠ i) l) :: r).
Proof.
  intros [[H1 H2] H3]%Forall_cons. apply Forall_cons. split; [|done]. split; [|done]. cbn [fst snd] in *.
  intros j [_ Hj]%elem_of_list_filter. by apply H1.
Qed.
Lemma pend_cons_in i x l r : i ∈ l → pend i ((x, l) :: r) = x :: pend i r.
Proof. intros H. unfold pend. cbn [omap list_omap fst snd]. by rewrite bool_decide_eq_true_2. Qed.
Lemma pend_cons_out i x l r : i ∉ l → pend i ((x, l) :: r) = pend i r.
Proof. intros H. unfold pend. cbn [omap list_omap fst snd]. by rewrite bool_decide_eq_false_2. Qed.
Lemma pend_less_same i x l r : i ∈ l → pend i ((x, filter (λ j, j ≠ i) l) :: r) = pend i r.
Proof. intros H. apply pend_cons_out. rewrite elem_of_list_filter. naive_solver. Qed.
Lemma pend_less_other i j x l r : i ≠ j → pend j ((x, filter (λ k, k ≠ i) l) :: r) = pend j ((x, l) :: r).
Proof.
  intros H. destruct (decide (j ∈ l)) as [Hj|Hj].
  - rewrite !pend_cons_in; [done|done|]. rewrite elem_of_list_filter. naive_solver.
  - rewrite !pend_cons_out; [done|done|]. rewrite elem_of_list_filter. naive_solver.
Qed.
Lemma insert_cases {A} (us : list A) (i j : nat) u' v : <[i := u']> us !! j = Some v → (i = j ∧ v = u') ∨ (i ≠ j ∧ us !! j = Some v).
Proof.
  destruct (decide (i = j)) as [<-|Hn]; [|rewrite list_lookup_insert_ne by done; by right].
  intros H. left. split; [done|]. apply list_lookup_insert_Some in H. naive_solver.
Qed.
Lemma shape_kind_eq u u' : shape u' = shape u → u_kind u' = u_kind u.
Proof. intros [= H _ _]. done. Qed.
