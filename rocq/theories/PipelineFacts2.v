(** Lemmas for C66: the steps keep the invariant. *)
From Verif Require Import Base Lru Types Avro Wire GoPath Consumer Ordering SpecChain System SpecCollect SystemFacts
  ConsumerBase ConsumerFacts CollectFacts2 Pipeline SpecPipeline PipelineFacts.

Section keep.
  Context (c : mp_config) (cfg : config) (ms : list (msg * menv)) (apps : list sub).
  Local Notation I := (pinv c cfg ms apps).

  (** Replacing subscriber [i] by one with the same shape that has taken the same. *)
  Lemma own_hand_insert (us : list sub) (i : nat) u u' : us !! i = Some u → (i < 2 → u_hand u' = None) →
    (∀ j v, j < 2 → us !! j = Some v → u_hand v = None) → ∀ j v, j < 2 → <[i := u']> us !! j = Some v → u_hand v = None.
  Proof. intros Hu Hh H j v Hj [[-> ->]|[_ Hv]]%insert_cases; [by apply Hh|by eapply H]. Qed.

  Lemma own_off s i u : I s → q_subs s !! i = Some u → i < 2 → u_on u = false ∧ u_cap u = chan_cap ∧
    u_kind u = (if bool_decide (i = 0) then KBatches else KNotices).
  Proof.
    intros Hi Hu Hlt. destruct (shape_at _ _ i u (pi_shape _ _ _ _ _ Hi) Hu) as (v & Hv & Hs).
    destruct i as [|[|i]]; [| |lia]; cbn in Hv; injection Hv as <-; injection Hs as -> -> ->; done.
  Qed.

  Lemma keep_msg s m e r st' b : I s → q_put s = [] → q_in s = (m, e) :: r → process c e (q_mp s) m = Ok (st', b) →
    I (Pipe r st' (send_all (q_subs s) (map inl (drop (length (mp_out (q_mp s))) (mp_out st')))) (q_omp s) (q_pub s) (q_subs s)).
  Proof.
    intros Hi Hput Hin Hp. destruct s as [inp st put om pub us]. cbn [q_in q_mp q_put q_omp q_pub q_subs] in *. subst.
    destruct Hi as [(ins & l & H1 & H1' & H1'') H2 H3 H4 H5 H6 H7 H8]. cbn [q_in q_mp q_put q_omp q_pub q_subs] in *.
    apply Forall_cons in H2 as [[Hok Hev] H2]. cbn [snd] in *.
    assert (Hsv := sys_run_inv _ _ _ H1). assert (Hout : mp_out st `prefix_of` mp_out st').
    { eapply (step_out c st (IMsg m e)); [by eapply consumer_base, (sv_mp _ _ _ Hsv)|]. cbn. by rewrite Hp. }
    split; cbn [q_in q_mp q_put q_omp q_pub q_subs].
    - exists (ins ++ [IMsg m e]), (l ++ []). split.
      { eapply sys_run_step; [exact H1|]. eapply YMessage; [exact Hok|exact Hp|constructor|done| |].
        - rewrite app_nil_r. eapply consumed_mono; [exact Hout|]. apply (sv_con _ _ _ Hsv).
        - intros k n Hn. rewrite Hev in Hn. by apply elem_of_nil in Hn. }
      rewrite app_nil_r. split; [|done]. rewrite <- H1'. cbn [map fst]. unfold messages. rewrite omap_app. cbn. by rewrite <- app_assoc.
    - done.
    - done.
    - done.
    - done.
    - apply fits_send_mp.
    - done.
    - destruct Hout as [new Ho]. intros i u Hu. rewrite (pend_send _ _ _ _ Hu). specialize (H8 i u Hu).
      unfold fed in *. cbn [q_mp q_omp] in *. rewrite Ho, drop_app. rewrite map_app, !on_feed_app.
      rewrite on_feed_app in H8. cbn [pend omap list_omap app] in H8.
      destruct (of_mp (u_kind u)) eqn:Ek.
      + rewrite (pend_other us false pub i u) in * by (done || by rewrite Ek). rewrite (on_feed_inr _ (o_out om)) in * by done.
        rewrite !app_nil_r in *. by rewrite H8.
      + rewrite !(on_feed_inl (u_kind u)) in * by done. cbn [app] in *. exact H8.
  Qed.

  Lemma keep_put s i put' us' : I s → send_one i (q_put s) (q_subs s) = Some (put', us') →
    I (Pipe (q_in s) (q_mp s) put' (q_omp s) (q_pub s) us').
  Proof.
    intros Hi Hs. assert (Hoff := own_off s i). destruct s as [inp st put om pub us]. cbn [q_in q_mp q_put q_omp q_pub q_subs] in *.
    destruct (send_one_spec _ _ _ _ _ Hs) as (x & l & r & u & u' & -> & Hil & Hu & Ha & -> & ->).
    destruct (accept_spec _ _ _ Ha) as (Hsh & Hh & Hg & Hhd). specialize (Hoff u Hi Hu).
    destruct Hi as [(ins & tk & H1 & H1' & H1'') H2 H3 H4 H5 H6 H7 H8]. cbn [q_in q_mp q_put q_omp q_pub q_subs] in *.
    assert (Hshape := shape_insert us i u u' Hu Hsh).
    split; cbn [q_in q_mp q_put q_omp q_pub q_subs].
    - exists ins, tk. split; [done|]. split; [done|]. by eapply own_got_insert.
    - done.
    - done.
    - by rewrite Hshape.
    - eapply own_hand_insert; [done| |done]. intros Hlt. rewrite Hhd by (by apply Hoff). by eapply H5.
    - eapply fits_mono; [symmetry; exact Hshape|]. by apply fits_less.
    - eapply fits_mono; [symmetry; exact Hshape|done].
    - assert (Hk := kinds_of_fits _ _ _ _ _ _ _ H6 Hil Hu).
      intros j v [[<- ->]|[Hn Hv]]%insert_cases.
      + specialize (H8 i u Hu). rewrite (shape_kind_eq _ _ Hsh). change (fed _ _) with (fed (Pipe inp st ((x, l) :: r) om pub us) (u_kind u)).
        rewrite <- H8, Hh, pend_less_same, pend_cons_in by done. by rewrite <- !app_assoc.
      + change (fed _ _) with (fed (Pipe inp st ((x, l) :: r) om pub us) (u_kind v)). rewrite pend_less_other by done. by apply H8.
  Qed.

  Lemma keep_pub s i pub' us' : I s → send_one i (q_pub s) (q_subs s) = Some (pub', us') →
    I (Pipe (q_in s) (q_mp s) (q_put s) (q_omp s) pub' us').
  Proof.
    intros Hi Hs. assert (Hoff := own_off s i). destruct s as [inp st put om pub us]. cbn [q_in q_mp q_put q_omp q_pub q_subs] in *.
    destruct (send_one_spec _ _ _ _ _ Hs) as (x & l & r & u & u' & -> & Hil & Hu & Ha & -> & ->).
    destruct (accept_spec _ _ _ Ha) as (Hsh & Hh & Hg & Hhd). specialize (Hoff u Hi Hu).
    destruct Hi as [(ins & tk & H1 & H1' & H1'') H2 H3 H4 H5 H6 H7 H8]. cbn [q_in q_mp q_put q_omp q_pub q_subs] in *.
    assert (Hshape := shape_insert us i u u' Hu Hsh).
    split; cbn [q_in q_mp q_put q_omp q_pub q_subs].
    - exists ins, tk. split; [done|]. split; [done|]. by eapply own_got_insert.
    - done.
    - intros n l' [[= <- _]|Hin]%elem_of_cons; [eapply H3; by left|eapply H3; by right].
    - by rewrite Hshape.
    - eapply own_hand_insert; [done| |done]. intros Hlt. rewrite Hhd by (by apply Hoff). by eapply H5.
    - eapply fits_mono; [symmetry; exact Hshape|done].
    - eapply fits_mono; [symmetry; exact Hshape|]. by apply fits_less.
    - assert (Hk := kinds_of_fits _ _ _ _ _ _ _ H7 Hil Hu).
      intros j v [[<- ->]|[Hn Hv]]%insert_cases.
      + specialize (H8 i u Hu). rewrite (shape_kind_eq _ _ Hsh). change (fed _ _) with (fed (Pipe inp st put om ((x, l) :: r) us) (u_kind u)).
        rewrite <- H8, Hh, pend_less_same, pend_cons_in by done. rewrite (pend_other us true put i u) by (done || by rewrite Hk).
        by rewrite <- !app_assoc.
      + change (fed _ _) with (fed (Pipe inp st put om ((x, l) :: r) us) (u_kind v)). rewrite pend_less_other by done. by apply H8.
  Qed.

  Lemma keep_put_done s x r : I s → q_put s = (x, []) :: r → I (Pipe (q_in s) (q_mp s) r (q_omp s) (q_pub s) (q_subs s)).
  Proof.
    intros Hi Hs. destruct s as [inp st put om pub us]. cbn [q_in q_mp q_put q_omp q_pub q_subs] in *. subst.
    destruct Hi as [H1 H2 H3 H4 H5 H6 H7 H8]. split; cbn [q_in q_mp q_put q_omp q_pub q_subs] in *; try done.
    by apply Forall_cons in H6 as [_ H6].
  Qed.
  Lemma keep_pub_done s x r : I s → q_pub s = (x, []) :: r →
    I (Pipe (q_in s) (match x with inr (EvEvict n) => evict_older_than (q_mp s) n | _ => q_mp s end) (q_put s) (q_omp s) r (q_subs s)).
  Proof.
    intros Hi Hs. destruct s as [inp st put om pub us]. cbn [q_in q_mp q_put q_omp q_pub q_subs] in *. subst.
    destruct Hi as [(ins & tk & H1 & H1' & H1'') H2 H3 H4 H5 H6 H7 H8]. cbn [q_in q_mp q_put q_omp q_pub q_subs] in *.
    assert (Hev : ∀ n, x = inr (EvEvict n) → EvEvict n ∈ o_out om) by (intros n ->; eapply H3; by left).
    assert (Hrest : ∀ st', (∃ ins l, sys_run c cfg (Sys st' om ins l) ∧ messages ins ++ map fst inp = map fst ms ∧ own_got l us) →
      mp_out st' = mp_out st → I (Pipe inp st' put om r us)).
    { intros st' Hsys Hout. split; cbn [q_in q_mp q_put q_omp q_pub q_subs] in *; try done.
      - intros n l Hn. eapply H3. by right.
      - by apply Forall_cons in H7 as [_ H7].
      - intros i u Hu. specialize (H8 i u Hu). rewrite (pend_cons_out i x) in H8 by (apply not_elem_of_nil).
        unfold fed in *. cbn [q_mp q_omp] in *. by rewrite Hout. }
    destruct x as [ev|[a b|n h|n]]; try (apply Hrest; [by exists ins, tk|done]).
    apply Hrest.
    - exists (ins ++ [IEvict n]), tk. split; [|split; [|done]].
      + eapply sys_run_step; [exact H1|]. apply YDiscard. by apply Hev.
      + rewrite <- H1'. unfold messages. rewrite omap_app. cbn. by rewrite app_nil_r.
    - by destruct (evict_older_spec st n) as (_ & _ & _ & _ & E5 & _).
  Qed.

  Lemma keep_app s i u u' : I s → q_subs s !! i = Some u → 2 ≤ i → shape u' = shape u → hold u' = hold u →
    I (Pipe (q_in s) (q_mp s) (q_put s) (q_omp s) (q_pub s) (<[i := u']> (q_subs s))).
  Proof.
    intros Hi Hu Hge Hsh Hh. destruct s as [inp st put om pub us]. cbn [q_in q_mp q_put q_omp q_pub q_subs] in *.
    destruct Hi as [(ins & tk & H1 & H1' & H1'') H2 H3 H4 H5 H6 H7 H8]. cbn [q_in q_mp q_put q_omp q_pub q_subs] in *.
    assert (Hshape := shape_insert us i u u' Hu Hsh).
    split; cbn [q_in q_mp q_put q_omp q_pub q_subs].
    - exists ins, tk. split; [done|]. split; [done|]. destruct H1'' as [E1 E2].
      split; rewrite list_lookup_insert_ne by lia; done.
    - done.
    - done.
    - by rewrite Hshape.
    - eapply own_hand_insert; [done| |done]. lia.
    - eapply fits_mono; [symmetry; exact Hshape|done].
    - eapply fits_mono; [symmetry; exact Hshape|done].
    - intros j v [[<- ->]|[Hn Hv]]%insert_cases.
      + rewrite Hh, (shape_kind_eq _ _ Hsh). by apply (H8 i u).
      + by apply (H8 j v).
  Qed.

  Definition getb (x : item) : option pending_batch := match x with inl (EBatch pb) => Some pb | _ => None end.
  Definition getr (x : item) : option (Z * hash) := match x with inl (EReorg n h) => Some (n, h) | _ => None end.
  Lemma getb_feed o o' : omap getb (on_feed KBatches (map inl o ++ map inr o')) = sent_batches o.
  Proof.
    rewrite on_feed_app, (on_feed_inr _ o'), app_nil_r by done. induction o as [|x o IH]; [done|]. cbn [map]. unfold on_feed in *.
    destruct x as [| |]; [rewrite filter_cons_False by done; exact IH| |rewrite filter_cons_False by done; exact IH].
    rewrite filter_cons_True by done. cbn [omap list_omap getb]. unfold sent_batches. cbn [omap list_omap]. f_equal. exact IH.
  Qed.
  Lemma getr_feed o o' : omap getr (on_feed KNotices (map inl o ++ map inr o')) = sent_reorgs o.
  Proof.
    rewrite on_feed_app, (on_feed_inr _ o'), app_nil_r by done. induction o as [|x o IH]; [done|]. cbn [map]. unfold on_feed in *.
    destruct x as [| |]; [rewrite filter_cons_False by done; exact IH|rewrite filter_cons_False by done; exact IH|].
    rewrite filter_cons_True by done. cbn [omap list_omap getr]. unfold sent_reorgs. cbn [omap list_omap]. f_equal. exact IH.
  Qed.
  Lemma getb_map bs : omap getb (map (λ pb, inl (EBatch pb)) bs) = bs.
  Proof. induction bs as [|b bs IH]; [done|]. cbn [map omap list_omap getb]. f_equal. exact IH. Qed.
  Lemma getr_map rs : omap getr (map (λ x : Z * hash, inl (EReorg x.1 x.2)) rs) = rs.
  Proof. induction rs as [|[n h] bs IH]; [done|]. cbn [map omap list_omap getr fst snd]. f_equal. exact IH. Qed.

  (** What the ordering layer takes next is what was sent next. *)
  Lemma buf_kind s i u x b : I s → q_subs s !! i = Some u → u_buf u = x :: b → kind_of x = Some (u_kind u).
  Proof.
    intros Hi Hu Hb. assert (H := pi_del _ _ _ _ _ Hi i u Hu). assert (Hx : x ∈ fed s (u_kind u)).
    { rewrite <- H. unfold hold. rewrite Hb. rewrite !elem_of_app. left. right. right. by left. }
    unfold fed, on_feed in Hx. by apply elem_of_list_filter in Hx as [Hx _].
  Qed.
  Lemma batches_snoc l o y : batches_of (l ++ [(o, y)]) = batches_of l ++ match y with InBatch pb => [pb] | _ => [] end.
  Proof. unfold batches_of. rewrite omap_app. by destruct y. Qed.
  Lemma reorgs_snoc l o y : taken_reorgs (l ++ [(o, y)]) = taken_reorgs l ++ match y with InReorg n h => [(n, h)] | _ => [] end.
  Proof. unfold taken_reorgs. rewrite omap_app. by destruct y. Qed.

  Lemma next_taken s ins l i u x b y o : I s → sys_run c cfg (Sys (q_mp s) (q_omp s) ins l) → own_got l (q_subs s) → i < 2 →
    q_subs s !! i = Some u → u_buf u = x :: b → take_input x = Some y →
    consumed (l ++ [(o, y)]) (mp_out (q_mp s)) ∧
    own_got (l ++ [(o, y)]) (<[i := Sub (u_kind u) (u_cap u) (u_on u) b (u_hand u) (u_got u ++ [x])]> (q_subs s)).
  Proof.
    intros Hi Hr Hg Hlt Hu Hb Hy. assert (Hk := buf_kind s i u x b Hi Hu Hb). destruct (own_off s i u Hi Hu Hlt) as (_ & _ & Hki).
    assert (Hh := pi_own _ _ _ _ _ Hi i u Hlt Hu). assert (Hd := pi_del _ _ _ _ _ Hi i u Hu). unfold hold in Hd. rewrite Hh, Hb in Hd.
    cbn [option_list app] in Hd. destruct (sv_con _ _ _ (sys_run_inv _ _ _ Hr)) as [C1 C2]. cbn [y_taken y_mp] in *.
    destruct Hg as [G1 G2]. assert (Hlen := lookup_lt_Some _ _ _ Hu). unfold fed in Hd. unfold consumed, own_got.
    rewrite batches_snoc, reorgs_snoc. destruct i as [|[|i]]; [| |lia].
    - rewrite bool_decide_eq_true_2 in Hki by done. rewrite Hki in *. rewrite Hu in G1. cbn in G1. injection G1 as G1.
      destruct x as [[| |]|]; try done. cbn in Hy. injection Hy as <-.
      apply (f_equal (omap getb)) in Hd. rewrite getb_feed, G1, <- app_assoc, omap_app, getb_map in Hd.
      cbn [app omap list_omap getb] in Hd. split; [split|split].
      + rewrite <- Hd. exists (omap getb (b ++ pend 0 (q_put s) ++ pend 0 (q_pub s))). rewrite <- (app_assoc (batches_of l)). reflexivity.
      + by rewrite app_nil_r.
      + rewrite list_lookup_insert by done. cbn. by rewrite G1, map_app.
      + rewrite list_lookup_insert_ne by done. by rewrite app_nil_r.
    - rewrite bool_decide_eq_false_2 in Hki by done. rewrite Hki in *. rewrite Hu in G2. cbn in G2. injection G2 as G2.
      destruct x as [[| |]|]; try done. cbn in Hy. injection Hy as <-.
      apply (f_equal (omap getr)) in Hd. rewrite getr_feed, G2, <- app_assoc, omap_app, getr_map in Hd.
      cbn [app omap list_omap getr] in Hd. split; [split|split].
      + by rewrite app_nil_r.
      + rewrite <- Hd. exists (omap getr (b ++ pend 1 (q_put s) ++ pend 1 (q_pub s))). rewrite <- (app_assoc (taken_reorgs l)). reflexivity.
      + rewrite list_lookup_insert_ne by done. by rewrite app_nil_r.
      + rewrite list_lookup_insert by done. cbn. by rewrite G2, map_app.
  Qed.

  Lemma keep_take s o i u x b y om' : I s → order_ok o → q_pub s = [] → q_subs s !! i = Some u → i < 2 → u_buf u = x :: b →
    take_input x = Some y → omp_step (q_omp s) (o, y) = Ok om' →
    I (Pipe (q_in s) (q_mp s) (q_put s) om' (send_all (q_subs s) (map inr (drop (length (o_out (q_omp s))) (o_out om'))))
         (<[i := Sub (u_kind u) (u_cap u) (u_on u) b (u_hand u) (u_got u ++ [x])]> (q_subs s))).
  Proof.
    intros Hi Ho Hpub Hu Hlt Hb Hy Hst. destruct (pi_sys _ _ _ _ _ Hi) as (ins & l & H1 & H1' & H1'').
    destruct (next_taken s ins l i u x b y o Hi H1 H1'' Hlt Hu Hb Hy) as [Hc Hg].
    assert (Hgr : o_out (q_omp s) `prefix_of` o_out om').
    { apply (run_grows (q_omp s) [(o, y)] om'). unfold omp_run. cbn [foldM]. by rewrite Hst. }
    set (u' := Sub (u_kind u) (u_cap u) (u_on u) b (u_hand u) (u_got u ++ [x])) in *.
    assert (Hsh : shape u' = shape u) by done. assert (Hshape := shape_insert (q_subs s) i u u' Hu Hsh).
    assert (Hh := pi_own _ _ _ _ _ Hi i u Hlt Hu).
    destruct s as [inp st put om pub us]. cbn [q_in q_mp q_put q_omp q_pub q_subs] in *. subst pub.
    destruct Hi as [_ H2 H3 H4 H5 H6 H7 H8]. cbn [q_in q_mp q_put q_omp q_pub q_subs] in *.
    split; cbn [q_in q_mp q_put q_omp q_pub q_subs].
    - exists ins, (l ++ [(o, y)]). split; [|done]. eapply sys_run_step; [exact H1|]. by apply YTake.
    - done.
    - intros n l' Hin. unfold send_all in Hin. apply elem_of_list_fmap in Hin as (z & [= <- _] & Hz).
      apply elem_of_list_fmap in Hz as (z & [= <-] & Hz). destruct Hgr as [new Hnew]. rewrite Hnew in Hz |- *. rewrite drop_app in Hz. apply elem_of_app. by right.
    - by rewrite Hshape.
    - eapply own_hand_insert; [done| |done]. intros _. exact Hh.
    - eapply fits_mono; [symmetry; exact Hshape|done].
    - eapply fits_mono; [symmetry; exact Hshape|]. apply fits_send_omp.
    - assert (Hall : ∀ j v, us !! j = Some v →
        hold v ++ pend j put ++ pend j (send_all us (map inr (drop (length (o_out om)) (o_out om')))) =
        on_feed (u_kind v) (map inl (mp_out st) ++ map inr (o_out om'))).
      { intros j v Hv. specialize (H8 j v Hv). unfold fed in H8. cbn [q_mp q_omp pend omap list_omap] in H8. rewrite app_nil_r in H8.
        rewrite (pend_send _ _ _ _ Hv). destruct Hgr as [new ->]. rewrite drop_app, map_app, !on_feed_app.
        rewrite on_feed_app in H8. rewrite !app_assoc. by rewrite H8. }
      unfold fed. cbn [q_mp q_omp]. intros j v [[<- ->]|[Hn Hv]]%insert_cases; [|by apply Hall].
      change (u_kind u') with (u_kind u). rewrite <- (Hall i u Hu). f_equal. unfold hold, u'. cbn. rewrite Hh, Hb. cbn. by rewrite <- app_assoc.
  Qed.

  Lemma keep_step s a s' : I s → (∀ o i, a = ATake o i → order_ok o) → pstep c a s = Some (Some s') → I s'.
  Proof.
    intros Hi Ha. destruct s as [inp st put om pub us] eqn:Es. destruct a as [|i| |o i|i| |i|i]; cbn [pstep].
    - destruct put as [|]; [|done]. destruct inp as [|[m e] r]; [done|]. destruct (process c e st m) as [[st' b]| |] eqn:Ep; [|done|done].
      intros [= <-]. by eapply (keep_msg _ m e r st' b Hi).
    - destruct (send_one i put us) as [[put' us']|] eqn:E; [|done]. intros [= <-]. by apply (keep_put _ i put' us' Hi).
    - destruct put as [|[x [|]] r] eqn:E; [done| |done]. intros [= <-]. by apply (keep_put_done _ x r Hi).
    - destruct pub as [|] eqn:Epub; [|done]. destruct (us !! i) as [u|] eqn:Eu; [|done]. case_bool_decide as Hlt; [|done].
      destruct (u_buf u) as [|x b] eqn:Eb; [done|]. destruct (take_input x) as [y|] eqn:Ey; [|done].
      destruct (omp_step om (o, y)) as [om'| |] eqn:Est; [|done|done]. intros [= <-].
      eapply (keep_take _ o i u x b y om' Hi); try done. by eapply Ha.
    - destruct (send_one i pub us) as [[pub' us']|] eqn:E; [|done]. intros [= <-]. by apply (keep_pub _ i pub' us' Hi).
    - destruct pub as [|[x [|]] r] eqn:E; [done| |done]. intros [= <-]. by apply (keep_pub_done _ x r Hi).
    - destruct (us !! i) as [u|] eqn:Eu; [|done]. case_bool_decide as Hge; [|done]. destruct (u_on u) eqn:Eon; [|done]. cbn [andb].
      destruct (u_buf u) as [|x b] eqn:Eb; [done|]. destruct (u_hand u) as [|] eqn:Eh; [done|]. intros [= <-].
      apply (keep_app _ i u _ Hi Eu Hge); [unfold shape; cbn; by rewrite Eon|]. unfold hold. cbn. by rewrite Eh, Eb.
    - destruct (us !! i) as [u|] eqn:Eu; [|done]. destruct (u_hand u) as [x|] eqn:Eh; [|done]. intros [= <-].
      assert (Hge : 2 ≤ i).
      { destruct (decide (2 ≤ i)) as [|Hn]; [done|]. assert (H : u_hand u = None) by (eapply (pi_own _ _ _ _ _ Hi i u); [lia|done]). congruence. }
      apply (keep_app _ i u _ Hi Eu Hge); [done|]. unfold hold. cbn. rewrite Eh. cbn. by rewrite <- app_assoc.
  Qed.
End keep.
