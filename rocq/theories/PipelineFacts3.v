(** Lemmas for C66: the bounded consumer does not lock up, and it comes to an end. *)
From Coq Require Import Relations.Relation_Operators Wellfounded.Lexicographic_Product Wellfounded.Inverse_Image.
From Verif Require Import Base Lru Types Avro Wire SpecWire GoPath Producer SpecBlock Consumer Ordering SpecChain System SpecCollect SystemFacts SystemFacts2
  SpecSystem SpecPublish PublishFacts
  ConsumerBase ConsumerFacts CollectFacts2 Pipeline SpecPipeline PipelineFacts PipelineFacts2.

(** * Progress *)
Lemma accept_empty x u : u_buf u = [] → u_hand u = None → (u_on u = true ∨ 0 < u_cap u) → is_Some (accept x u).
Proof.
  intros Hb Hh Ho. unfold accept. rewrite Hb, Hh. case_bool_decide; [eauto|]. destruct Ho as [->|Ho]; [eauto|]. cbn in *. lia.
Qed.
Lemma can_send us x i l r u : us !! i = Some u → is_Some (accept x u) → is_Some (send_one i ((x, i :: l) :: r) us).
Proof. intros Hu [u' Ha]. unfold send_one. rewrite bool_decide_eq_true_2 by (by left). rewrite Hu, Ha. eauto. Qed.
Section live.
  Context (c : mp_config) (cfg : config) (ms : list (msg * menv)) (apps : list sub).
  Local Notation I := (pinv c cfg ms apps).

  Lemma app_on s i u : I s → listening apps → q_subs s !! i = Some u → 2 ≤ i → u_on u = true.
  Proof.
    intros Hi Hl Hu Hge. destruct (shape_at _ _ i u (pi_shape _ _ _ _ _ Hi) Hu) as (v & Hv & Hs).
    destruct i as [|[|i]]; [lia|lia|]. cbn in Hv. unfold listening in Hl. rewrite Forall_forall in Hl.
    apply elem_of_list_lookup_2, Hl in Hv. unfold shape in Hs. congruence.
  Qed.
  Lemma own_there s i : I s → i < 2 → is_Some (q_subs s !! i).
  Proof.
    intros Hi Hlt. apply lookup_lt_is_Some. rewrite <- (map_length shape), (pi_shape _ _ _ _ _ Hi), map_length.
    rewrite app_length. cbn. lia.
  Qed.
  Definition quiet (u : sub) : Prop := u_buf u = [] ∧ u_hand u = None.
  #[local] Instance quiet_dec u : Decision (quiet u).
  Proof.
    unfold quiet. destruct (u_buf u); [|by right; intros [? _]]. destruct (u_hand u); [by right; intros [_ ?]|by left].
  Defined.

  Lemma progress s : I s → listening apps → all_done s ∨ ∃ s', pflow c (Some s) s'.
  Proof.
    intros Hi Hl.
    assert (Hgo : ∀ a s', (∀ o i, a = ATake o i → order_ok o) → pstep c a s = Some s' → ∃ s', pflow c (Some s) s').
    { intros a s' Ha Hs. exists s', s, a. done. }
    destruct (decide (Forall quiet (drop 2 (q_subs s)))) as [Hq|Hq].
    2:{ right. apply not_Forall_Exists in Hq; [|apply _]. apply Exists_exists in Hq as (u & Hu & Hn).
        apply elem_of_list_lookup in Hu as (i & Hu). rewrite lookup_drop in Hu. assert (Hon := app_on s _ u Hi Hl Hu ltac:(lia)).
        destruct (u_hand u) as [x|] eqn:Eh.
        - destruct s as [inp st put om pub us]. cbn [q_subs] in *. eapply (Hgo (AWork (2 + i))); [done|]. cbn [pstep]. rewrite Hu, Eh. done.
        - destruct (u_buf u) as [|x b] eqn:Eb; [by destruct Hn|]. destruct s as [inp st put om pub us]. cbn [q_subs] in *.
          eapply (Hgo (ARecv (2 + i))); [done|]. cbn [pstep]. rewrite Hu, Hon, bool_decide_eq_true_2 by lia. cbn [andb]. by rewrite Eb, Eh. }
    rewrite Forall_forall in Hq.
    assert (Hacc : ∀ i u x, q_subs s !! i = Some u → (2 ≤ i ∨ u_buf u = []) → is_Some (accept x u)).
    { intros i u x Hu Hc. destruct (decide (2 ≤ i)) as [Hge|Hlt].
      - assert (Hqu : quiet u).
        { apply Hq. apply elem_of_list_lookup. exists (i - 2). rewrite lookup_drop. by replace (2 + (i - 2)) with i by lia. }
        destruct Hqu as [E1 E2]. apply accept_empty; [done|done|]. left. by eapply app_on.
      - destruct Hc as [Hc|Hc]; [lia|]. apply accept_empty; [done| |].
        + eapply (pi_own _ _ _ _ _ Hi i u); [lia|done].
        + right. destruct (own_off _ _ _ _ s i u Hi Hu) as (_ & -> & _); [lia|]. unfold chan_cap. lia. }
    destruct (q_pub s) as [|[x l] r] eqn:Epub.
    2:{ right. destruct l as [|i l].
        - destruct s as [inp st put om pub us]. cbn [q_pub] in *. subst pub. eapply (Hgo APubDone); [done|]. cbn [pstep]. done.
        - assert (Hf := pi_pub _ _ _ _ _ Hi). rewrite Epub in Hf. assert (Hf' := Hf). apply Forall_cons in Hf as [[Hf _] _].
          destruct (Hf i ltac:(by left)) as (u & Hu & Hk). cbn [fst] in Hk.
          assert (Hge : 2 ≤ i).
          { destruct (decide (2 ≤ i)) as [|Hn]; [done|]. exfalso. destruct (own_off _ _ _ _ s i u Hi Hu) as (_ & _ & Hki); [lia|].
            assert (Hs := kinds_of_fits _ _ _ _ _ i u Hf' ltac:(by left) Hu). rewrite Hki in Hs. by case_bool_decide. }
          destruct (can_send (q_subs s) x i l r u Hu) as [[pub' us'] Hsend]; [apply (Hacc i); [done|by left]|].
          destruct s as [inp st put om pub us]. cbn [q_pub q_subs] in *. subst pub.
          eapply (Hgo (APub i)); [done|]. cbn [pstep]. rewrite Hsend. done. }
    assert (Htake : ∀ i u, i < 2 → q_subs s !! i = Some u → u_buf u ≠ [] → ∃ s', pflow c (Some s) s').
    { intros i u Hlt Hu Hb. destruct (u_buf u) as [|x b] eqn:Eb; [done|]. assert (Hk := buf_kind _ _ _ _ s i u x b Hi Hu Eb).
      destruct (own_off _ _ _ _ s i u Hi Hu Hlt) as (_ & _ & Hki). rewrite Hki in Hk.
      assert (Hy : is_Some (take_input x)) by (destruct x as [[| |]|[| |]]; case_bool_decide; done). destruct Hy as [y Hy].
      destruct s as [inp st put om pub us]. cbn [q_pub q_subs] in *. subst pub.
      destruct (omp_step om (id_order, y)) as [om'| |] eqn:Eo; eapply (Hgo (ATake id_order i));
        try (intros ? ? [= <- _]; apply id_order_ok); cbn [pstep]; rewrite Hu, bool_decide_eq_true_2, Eb, Hy, Eo by done; done. }
    destruct (own_there s 0 Hi) as [u0 Hu0]; [lia|]. destruct (own_there s 1 Hi) as [u1 Hu1]; [lia|].
    destruct (decide (u_buf u0 = [])) as [E0|E0]; [|right; eapply Htake; [|exact Hu0|done]; lia].
    destruct (decide (u_buf u1 = [])) as [E1|E1]; [|right; eapply Htake; [|exact Hu1|done]; lia].
    assert (Hown : ∀ i u, q_subs s !! i = Some u → 2 ≤ i ∨ u_buf u = []).
    { intros [|[|i]] u Hu; [right; congruence|right; congruence|left; lia]. }
    destruct (q_put s) as [|[x l] r] eqn:Eput.
    2:{ right. destruct l as [|i l].
        - destruct s as [inp st put om pub us]. cbn [q_put] in *. subst put. eapply (Hgo APutDone); [done|]. cbn [pstep]. done.
        - assert (Hf := pi_put _ _ _ _ _ Hi). rewrite Eput in Hf. apply Forall_cons in Hf as [[Hf _] _].
          destruct (Hf i ltac:(by left)) as (u & Hu & Hk).
          destruct (can_send (q_subs s) x i l r u Hu) as [[put' us'] Hsend]; [apply (Hacc i); [done|by apply Hown]|].
          destruct s as [inp st put om pub us]. cbn [q_put q_subs] in *. subst put.
          eapply (Hgo (APut i)); [done|]. cbn [pstep]. rewrite Hsend. done. }
    destruct (q_in s) as [|[m e] r] eqn:Ein.
    - left. split; [done|]. split; [done|]. split; [done|]. apply Forall_forall. intros u Hu.
      apply elem_of_list_lookup in Hu as (i & Hu). destruct (decide (2 ≤ i)) as [Hge|Hlt].
      + apply Hq, elem_of_list_lookup. exists (i - 2). rewrite lookup_drop. by replace (2 + (i - 2)) with i by lia.
      + split; [|eapply (pi_own _ _ _ _ _ Hi i u); [lia|done]]. destruct (Hown i u Hu); [lia|done].
    - right. destruct s as [inp st put om pub us]. cbn [q_put q_subs q_in] in *. subst.
      destruct (process c e st m) as [[st' b]| |] eqn:Ep; eapply (Hgo AMsg); try done; cbn [pstep]; rewrite Ep; done.
  Qed.

  (** * Every step makes something smaller *)
  Definition cost (q : sends) : nat := sum_list_with (λ e : item * list nat, S (length e.2)) q.
  Definition own_load (us : list sub) : nat := sum_list_with (λ u, length (u_buf u)) (take 2 us).
  Definition app_load (us : list sub) : nat := sum_list_with (λ u, 2 * length (u_buf u) + length (option_list (u_hand u))) (drop 2 us).
  Definition size (s : pipe) : nat * (nat * (nat * (nat * nat))) :=
    (length (q_in s), (cost (q_put s), (own_load (q_subs s), (cost (q_pub s), app_load (q_subs s))))).
  Definition below := slexprod nat (nat * (nat * (nat * nat))) lt (slexprod nat (nat * (nat * nat)) lt
    (slexprod nat (nat * nat) lt (slexprod nat nat lt lt))).
  Lemma below_wf : well_founded below.
  Proof. repeat apply wf_slexprod; apply lt_wf. Qed.
  Lemma below1 a a' x y : a < a' → below (a, x) (a', y). Proof. intros H. by left. Qed.
  Lemma below2 a b b' x y : b < b' → below (a, (b, x)) (a, (b', y)). Proof. intros H. right. by left. Qed.
  Lemma below3 a b d d' x y : d < d' → below (a, (b, (d, x))) (a, (b, (d', y))). Proof. intros H. right. right. by left. Qed.
  Lemma below4 a b d e e' x y : e < e' → below (a, (b, (d, (e, x)))) (a, (b, (d, (e', y)))).
  Proof. intros H. right. right. right. by left. Qed.
  Lemma below5 a b d e f f' : f < f' → below (a, (b, (d, (e, f)))) (a, (b, (d, (e, f')))).
  Proof. intros H. right. right. right. by right. Qed.

  Lemma filter_shorter (i : nat) l : i ∈ l → length (filter (λ j, j ≠ i) l) < length l.
  Proof. intros H. apply filter_length_lt with i; [done|]. intros Hn. by apply Hn. Qed.
  Lemma cost_less x l r i : i ∈ l → cost ((x, filter (λ j, j ≠ i) l) :: r) < cost ((x, l) :: r).
  Proof. intros H%filter_shorter. unfold cost. cbn. lia. Qed.
  Lemma sum_replace (us : list sub) (f : sub → nat) (i : nat) u u' : us !! i = Some u → f u' < f u →
    sum_list_with f (<[i := u']> us) < sum_list_with f us.
  Proof.
    revert i. induction us as [|v us IH]; intros [|i] Hu Hf; cbn in *; try done.
    - injection Hu as ->. lia.
    - apply Nat.add_lt_mono_l. by apply IH.
  Qed.
  Lemma own_load_ge us i u' : 2 ≤ i → own_load (<[i := u']> us) = own_load us.
  Proof. intros H. unfold own_load. by rewrite take_insert by lia. Qed.
  Lemma app_load_lt us i u u' : us !! i = Some u → 2 ≤ i →
    2 * length (u_buf u') + length (option_list (u_hand u')) < 2 * length (u_buf u) + length (option_list (u_hand u)) →
    app_load (<[i := u']> us) < app_load us.
  Proof.
    intros Hu H Hf. unfold app_load. rewrite drop_insert_le by lia. eapply sum_replace; [|exact Hf].
    rewrite lookup_drop. by replace (2 + (i - 2)) with i by lia.
  Qed.
  Lemma own_load_lt us i u u' : us !! i = Some u → i < 2 → length (u_buf u') < length (u_buf u) → own_load (<[i := u']> us) < own_load us.
  Proof.
    intros Hu H Hf. unfold own_load. rewrite take_insert_lt by lia. eapply (sum_replace _ (λ u, length (u_buf u))); [|exact Hf].
    by rewrite lookup_take.
  Qed.

  Lemma smaller s a s' : I s → pstep c a s = Some (Some s') → below (size s') (size s).
  Proof.
    intros Hi. destruct s as [inp st put om pub us] eqn:Es. destruct a as [|i| |o i|i| |i|i]; cbn [pstep].
    - destruct put as [|]; [|done]. destruct inp as [|[m e] r]; [done|]. destruct (process c e st m) as [[st' b]| |] eqn:Ep; [|done|done].
      intros [= <-]. apply below1. cbn. lia.
    - destruct (send_one i put us) as [[put' us']|] eqn:E; [|done]. intros [= <-].
      destruct (send_one_spec _ _ _ _ _ E) as (x & l & r & u & u' & -> & Hil & Hu & Ha & -> & ->).
      unfold size. cbn [q_in q_put]. apply below2. by apply cost_less.
    - destruct put as [|[x [|]] r] eqn:E; [done| |done]. intros [= <-]. unfold size. cbn [q_in q_put]. apply below2.
      unfold cost. cbn. lia.
    - destruct pub as [|] eqn:Epub; [|done]. destruct (us !! i) as [u|] eqn:Eu; [|done]. case_bool_decide as Hlt; [|done].
      destruct (u_buf u) as [|x b] eqn:Eb; [done|]. destruct (take_input x) as [y|] eqn:Ey; [|done].
      destruct (omp_step om (o, y)) as [om'| |] eqn:Est; [|done|done]. intros [= <-].
      unfold size. cbn [q_in q_put q_subs]. apply below3. eapply own_load_lt; [done|done|]. rewrite Eb. cbn. lia.
    - destruct (send_one i pub us) as [[pub' us']|] eqn:E; [|done]. intros [= <-].
      destruct (send_one_spec _ _ _ _ _ E) as (x & l & r & u & u' & -> & Hil & Hu & Ha & -> & ->).
      assert (Hge : 2 ≤ i).
      { destruct (decide (2 ≤ i)) as [|Hn]; [done|]. exfalso. destruct (own_off _ _ _ _ _ i u Hi Hu) as (_ & _ & Hki); [lia|].
        assert (Hs := kinds_of_fits _ _ _ _ _ i u (pi_pub _ _ _ _ _ Hi) Hil Hu). rewrite Hki in Hs. by case_bool_decide. }
      unfold size. cbn [q_in q_put q_subs q_pub]. rewrite own_load_ge by done. apply below4. by apply cost_less.
    - destruct pub as [|[x [|]] r] eqn:E; [done| |done]. intros [= <-]. unfold size. cbn [q_in q_put q_subs q_pub]. apply below4.
      unfold cost. cbn. lia.
    - destruct (us !! i) as [u|] eqn:Eu; [|done]. case_bool_decide as Hge; [|done]. destruct (u_on u) eqn:Eon; [|done]. cbn [andb].
      destruct (u_buf u) as [|x b] eqn:Eb; [done|]. destruct (u_hand u) as [|] eqn:Eh; [done|]. intros [= <-].
      unfold size. cbn [q_in q_put q_subs q_pub]. rewrite own_load_ge by done. apply below5. eapply app_load_lt; [done|done|].
      rewrite Eb, Eh. cbn. lia.
    - destruct (us !! i) as [u|] eqn:Eu; [|done]. destruct (u_hand u) as [x|] eqn:Eh; [|done]. intros [= <-].
      assert (Hge : 2 ≤ i).
      { destruct (decide (2 ≤ i)) as [|Hn]; [done|]. assert (H : u_hand u = None) by (eapply (pi_own _ _ _ _ _ Hi i u); [lia|done]). congruence. }
      unfold size. cbn [q_in q_put q_subs q_pub]. rewrite own_load_ge by done. apply below5. eapply app_load_lt; [done|done|].
      rewrite Eh. cbn. lia.
  Qed.

  Lemma comes_to_end (P : option pipe → Prop) s : I s → listening apps → (∀ s', I s' → all_done s' → P (Some s')) →
    (∀ s a, I s → (∀ o i, a = ATake o i → order_ok o) → pstep c a s = Some None → P None) →
    inevitably (pflow c) P (Some s).
  Proof.
    intros Hi Hl HP Hnone. revert Hi. induction (wf_inverse_image _ _ _ size below_wf s) as [s _ IH]. intros Hi.
    destruct (progress s Hi Hl) as [Hd|Hp]; [apply inev_now; by apply HP|]. apply inev_later; [done|].
    intros s' (p & a & [= <-] & Ha & Hs). destruct s' as [s'|]; [|by eapply inev_now, Hnone].
    apply IH; [by eapply smaller|by eapply keep_step].
  Qed.

  Lemma apps_kinds s : I s → map u_kind (apps_of s) = map u_kind apps.
  Proof.
    intros Hi. apply list_eq. intros i. change (map u_kind (apps_of s) !! i) with ((u_kind <$> apps_of s) !! i).
    change (map u_kind apps !! i) with ((u_kind <$> apps) !! i). rewrite !list_lookup_fmap. unfold apps_of. rewrite lookup_drop.
    apply (shape_kind _ _ (2 + i) (pi_shape _ _ _ _ _ Hi)).
  Qed.
  Lemma done_got s i u : I s → all_done s → q_subs s !! i = Some u → u_got u = fed s (u_kind u).
  Proof.
    intros Hi (_ & H1 & H2 & H3) Hu. rewrite <- (pi_del _ _ _ _ _ Hi i u Hu), H1, H2. rewrite Forall_forall in H3.
    destruct (H3 u) as [E1 E2]; [by eapply elem_of_list_lookup_2|]. unfold hold. rewrite E1, E2. cbn. by rewrite !app_nil_r.
  Qed.
  Lemma apps_got s u : I s → all_done s → u ∈ apps_of s → u_got u = fed s (u_kind u).
  Proof. intros Hi Hd Hu. apply elem_of_list_lookup in Hu as (i & Hu). unfold apps_of in Hu. rewrite lookup_drop in Hu. by eapply done_got. Qed.

  Lemma inevitable_end s : pstart c cfg ms apps s → listening apps →
    inevitably (pflow c) (λ r, r = None ∨ ∃ p, r = Some p ∧ all_done p ∧ map u_kind (apps_of p) = map u_kind apps ∧
      ∀ u, u ∈ apps_of p → u_got u = fed p (u_kind u)) (Some s).
  Proof.
    intros Hs Hl. apply pinv_start in Hs. apply comes_to_end; [done|done| |by left].
    intros s' Hi Hd. right. exists s'. split; [done|]. split; [done|]. split; [by apply apps_kinds|]. intros u Hu. by apply apps_got.
  Qed.

  Lemma done_taken s l : I s → all_done s → own_got l (q_subs s) → batches_of l = sent_batches (mp_out (q_mp s)).
  Proof.
    intros Hi Hd [G _]. destruct (own_there s 0 Hi) as [u Hu]; [lia|]. rewrite Hu in G. cbn in G. injection G as G.
    destruct (own_off _ _ _ _ s 0 u Hi Hu) as (_ & _ & Hk); [lia|]. cbn in Hk. assert (H := done_got s 0 u Hi Hd Hu).
    rewrite G, Hk in H. apply (f_equal (omap getb)) in H. unfold fed in H. by rewrite getb_map, getb_feed in H.
  Qed.
End live.

Lemma updates_fed s : updates_of (updates_in (fed s KUpdates)) = updates_of (o_out (q_omp s)).
Proof.
  unfold fed. rewrite on_feed_app, (on_feed_inl KUpdates) by done. cbn [app]. unfold on_feed, updates_in, updates_of.
  induction (o_out (q_omp s)) as [|x o IH]; [done|]. cbn [map]. destruct x as [a r|n h|n].
  - rewrite filter_cons_True by done. cbn [omap list_omap]. f_equal. exact IH.
  - rewrite filter_cons_False by done. cbn [omap list_omap]. exact IH.
  - rewrite filter_cons_False by done. cbn [omap list_omap]. exact IH.
Qed.
Lemma added_fed s : all_added (updates_in (fed s KUpdates)) = all_added (o_out (q_omp s)).
Proof. unfold all_added. by rewrite updates_fed. Qed.
Lemma removed_fed s : all_removed (updates_in (fed s KUpdates)) = all_removed (o_out (q_omp s)).
Proof. unfold all_removed. by rewrite updates_fed. Qed.

Lemma only_from_app mt bs l l' : only_from mt bs (l ++ l') → only_from mt bs l ∧ only_from mt bs l'.
Proof. intros H. split; intros m Hm; apply H, elem_of_app; ((by left) || (by right)). Qed.

(** A published chain is inevitably received by every listening subscriber. *)
Lemma chain_inevitable mt base num w old new c cfg ms apps s :
  let bs := old ++ new in
  chain_from base num w bs → NoDup (base :: map bk_hash bs) → (∀ b, b ∈ bs → wf_block mt b) →
  cfg_last_hash cfg = end_hash base old → cfg_last_weight cfg = end_weight w old → cfg_last_hash cfg ≠ zero_hash →
  (∀ b, b ∈ bs → (0 ≤ ba_num (bk_args b))%Z ∧
     ∀ h, cfg_whitelist cfg !! ba_num (bk_args b) = Some h → h = bk_hash b) →
  pstart c cfg ms apps s → listening apps → only_from mt bs (map fst ms) →
  (∀ b kd, b ∈ new → needed mt b (mc_tracked c) kd → delivered (map fst ms) kd) →
  inevitably (pflow c) (λ r, ∃ p, r = Some p ∧ all_done p ∧ map u_kind (apps_of p) = map u_kind apps ∧
    ∀ u, u ∈ apps_of p → u_kind u = KUpdates → all_removed (updates_in (u_got u)) = [] ∧
      Forall2 (λ b pb, exact mt b (mc_tracked c) pb) new (all_added (updates_in (u_got u)))) (Some s).
Proof.
  intros bs H1 H2 H3 H4 H5 H6 H7 Hs Hl Honly Hneed. apply pinv_start in Hs. apply (comes_to_end c cfg ms apps); [done|done| |].
  - intros p Hi Hd. exists p. split; [done|]. split; [done|]. split; [by eapply apps_kinds|]. intros u Hu Hk.
    rewrite (apps_got _ _ _ _ p u Hi Hd Hu), Hk, added_fed, removed_fed.
    destruct (pi_sys _ _ _ _ _ Hi) as (ins & l & Hr & Hms & Hg). destruct Hd as (Hin & Hrest). rewrite Hin in Hms. cbn in Hms.
    rewrite app_nil_r in Hms. rewrite <- Hms in *.
    destruct (end_to_end mt base num w old new c cfg H1 H2 H3 H4 H5 H6 H7 _ Hr Honly) as (E1 & _ & E3). cbn [y_ins y_omp y_taken y_mp] in *.
    split; [done|]. apply E3; [done|]. eapply done_taken; [exact Hi|by split|done].
  - intros p a Hi Ha Hp. exfalso. destruct (pi_sys _ _ _ _ _ Hi) as (ins & l & Hr & Hms & Hg). rewrite <- Hms in Honly.
    assert (Hall := Honly). apply only_from_app in Honly as [Ho1 Ho2].
    assert (Hin := pi_in _ _ _ _ _ Hi).
    assert (Hnext := λ i u x b y o, next_taken c cfg ms apps p ins l i u x b y o Hi Hr Hg).
    assert (Hlive := λ m e i, end_to_end_live mt base num w old new c cfg H1 H2 H3 H4 H5 H6 H7 _ Hr m e i Ho1).
    destruct p as [inp st put om pub us]. cbn [q_in q_mp q_put q_omp q_pub q_subs y_mp y_omp y_ins y_taken] in *.
    destruct a as [|i| |o i|i| |i|i]; cbn [pstep] in Hp.
    + destruct put; [|done]. destruct inp as [|[m e] r]; [done|]. cbn [map fst] in Ho2.
      apply (only_from_app mt bs [m] (map fst r)) in Ho2 as [Hm _]. apply Forall_cons in Hin as [[Hok _] _]. cbn [snd] in Hok.
      destruct (Hlive m e (id_order, InReorg 0 0)) as [Hx _]. destruct (Hx Hm Hok) as [[st' b] Hp']. rewrite Hp' in Hp. done.
    + destruct (send_one i put us) as [[? ?]|]; done.
    + destruct put as [|[? []]]; done.
    + destruct pub; [|done]. destruct (us !! i) as [u|] eqn:Eu; [|done]. case_bool_decide as Hlt; [|done].
      destruct (u_buf u) as [|x b] eqn:Eb; [done|]. destruct (take_input x) as [y|] eqn:Ey; [|done].
      destruct (Hnext i u x b y o Hlt Eu Eb Ey) as [Hc _].
      destruct (Hlive (Msg [] [] [] 0) id_env (o, y)) as [_ Hx]. destruct (Hx (Ha o i eq_refl) Hc) as [s' Hs']. rewrite Hs' in Hp. done.
    + destruct (send_one i pub us) as [[? ?]|]; done.
    + destruct pub as [|[? []]]; done.
    + destruct (us !! i) as [u|]; [|done]. destruct (bool_decide (2 ≤ i) && u_on u); [|done]. destruct (u_buf u); [done|].
      destruct (u_hand u); done.
    + destruct (us !! i) as [u|]; [|done]. destruct (u_hand u); done.
Qed.

Lemma published_inevitable mt base num w old new c cfg ms apps s rs :
  let bs := old ++ new in
  chain_from base num w bs → NoDup (base :: map bk_hash bs) → (∀ b, b ∈ bs → wf_block mt b) →
  (∀ b b' id, b ∈ bs → b' ∈ bs → announced b id → announced b' id → b' = b) →
  cfg_last_hash cfg = end_hash base old → cfg_last_weight cfg = end_weight w old → cfg_last_hash cfg ≠ zero_hash →
  (∀ b, b ∈ bs → (0 ≤ ba_num (bk_args b))%Z ∧
     ∀ h, cfg_whitelist cfg !! ba_num (bk_args b) = Some h → h = bk_hash b) →
  (∀ r, r ∈ rs → replica mt bs r) →
  pstart c cfg ms apps s → listening apps → (∀ m, m ∈ map fst ms → copies rs m) →
  (∀ b, b ∈ new → arrived rs (map fst ms) b) →
  inevitably (pflow c) (λ r, ∃ p, r = Some p ∧ all_done p ∧ map u_kind (apps_of p) = map u_kind apps ∧
    ∀ u, u ∈ apps_of p → u_kind u = KUpdates → all_removed (updates_in (u_got u)) = [] ∧
      Forall2 (λ b pb, exact mt b (mc_tracked c) pb) new (all_added (updates_in (u_got u)))) (Some s).
Proof.
  intros bs Hc Hnd Hwf Hu Hl Hw Hz Hwl Hrs Hs Hli Hms Harr.
  apply (chain_inevitable mt base num w old new c cfg ms apps); [done|done|done|done|done|done|done|done|done| |].
  - by eapply copies_only.
  - intros b kd Hb Hn. assert (Hb' : b ∈ bs) by (apply elem_of_app; by right).
    eapply (arrived_needed mt bs rs); [done|done|done| |by apply Harr|done]. intros b' id Hb2. by apply Hu.
Qed.

(** * An application that does not receive *)
Lemma full_off x u : u_on u = false → u_cap u ≤ length (u_buf u) → accept x u = None.
Proof.
  intros H1 H2. unfold accept. rewrite bool_decide_eq_false_2 by lia. rewrite H1. destruct (u_buf u); [|done]. by destruct (u_hand u).
Qed.
Lemma full_insert (us : list sub) (i j : nat) u u' : us !! j = Some u' → (∃ v, us !! i = Some v ∧ u_on v = false ∧ u_cap v ≤ length (u_buf v)) →
  (i = j → u_on u = u_on u' ∧ u_cap u = u_cap u' ∧ u_buf u = u_buf u') →
  ∃ v, <[j := u]> us !! i = Some v ∧ u_on v = false ∧ u_cap v ≤ length (u_buf v).
Proof.
  intros Hj (v & Hv & H1 & H2) Hs. destruct (decide (i = j)) as [->|Hn].
  - exists u. rewrite list_lookup_insert by (by eapply lookup_lt_Some). split; [done|]. destruct (Hs eq_refl) as (-> & -> & ->).
    rewrite Hj in Hv. injection Hv as ->. done.
  - exists v. by rewrite list_lookup_insert_ne.
Qed.
Lemma choked_step c i p a r : choked i p → pstep c a p = Some r →
  ∃ p', r = Some p' ∧ choked i p' ∧ q_in p' = q_in p ∧ q_mp p' = q_mp p ∧ q_omp p' = q_omp p.
Proof.
  intros [(x & l & rr & E1 & Hi) Ha (y & l' & rr' & E2 & H0) Ho]. destruct p as [inp st put om pub us].
  cbn [q_pub q_put q_subs q_in q_mp q_omp] in *. subst pub put. destruct a as [|j| |o j|j| |j|j]; cbn [pstep].
  - done.
  - destruct (send_one j _ us) as [[put' us']|] eqn:E; [|done]. intros [= <-].
    destruct (send_one_spec _ _ _ _ _ E) as (x1 & l1 & r1 & u & u' & [= <- <- <-] & Hj & Hu & Hac & -> & ->).
    eexists. split; [done|]. split; [|done].
    assert (Hfull : ∀ k, (∃ v, us !! k = Some v ∧ u_on v = false ∧ u_cap v ≤ length (u_buf v)) → k ≠ j).
    { intros k (v & Hv & F1 & F2) ->. rewrite Hu in Hv. injection Hv as <-. by rewrite full_off in Hac. }
    split; cbn [q_pub q_put q_subs].
    + by exists x, l, rr.
    + eapply full_insert; [done|done|]. intros ->. by apply Hfull in Ha.
    + exists y, (filter (λ k, k ≠ j) l'), rr'. split; [done|]. apply elem_of_list_filter. split; [by apply Hfull|done].
    + eapply full_insert; [done|done|]. intros <-. by apply Hfull in Ho.
  - destruct l'; [by apply elem_of_nil in H0|done].
  - done.
  - destruct (send_one j _ us) as [[pub' us']|] eqn:E; [|done]. intros [= <-].
    destruct (send_one_spec _ _ _ _ _ E) as (x1 & l1 & r1 & u & u' & [= <- <- <-] & Hj & Hu & Hac & -> & ->).
    eexists. split; [done|]. split; [|done].
    assert (Hfull : ∀ k, (∃ v, us !! k = Some v ∧ u_on v = false ∧ u_cap v ≤ length (u_buf v)) → k ≠ j).
    { intros k (v & Hv & F1 & F2) ->. rewrite Hu in Hv. injection Hv as <-. by rewrite full_off in Hac. }
    split; cbn [q_pub q_put q_subs].
    + exists x, (filter (λ k, k ≠ j) l), rr. split; [done|]. apply elem_of_list_filter. split; [by apply Hfull|done].
    + eapply full_insert; [done|done|]. intros ->. by apply Hfull in Ha.
    + by exists y, l', rr'.
    + eapply full_insert; [done|done|]. intros <-. by apply Hfull in Ho.
  - destruct l; [by apply elem_of_nil in Hi|done].
  - destruct (us !! j) as [u|] eqn:Eu; [|done]. case_bool_decide as Hge; [|done]. destruct (u_on u) eqn:Eon; [|done]. cbn [andb].
    destruct (u_buf u) as [|z b] eqn:Eb; [done|]. destruct (u_hand u) as [|] eqn:Eh; [done|]. intros [= <-].
    eexists. split; [done|]. split; [|done]. split; cbn [q_pub q_put q_subs].
    + by exists x, l, rr.
    + eapply full_insert; [done|done|]. intros ->. destruct Ha as (v & Hv & F1 & F2). congruence.
    + by exists y, l', rr'.
    + eapply full_insert; [done|done|]. lia.
  - destruct (us !! j) as [u|] eqn:Eu; [|done]. destruct (u_hand u) as [z|] eqn:Eh; [|done]. intros [= <-].
    eexists. split; [done|]. split; [|done]. split; cbn [q_pub q_put q_subs].
    + by exists x, l, rr.
    + by eapply full_insert.
    + by exists y, l', rr'.
    + by eapply full_insert.
Qed.
Lemma choked_forever c i p r : choked i p → rtc (pflow c) (Some p) r →
  ∃ p', r = Some p' ∧ choked i p' ∧ q_in p' = q_in p ∧ q_mp p' = q_mp p ∧ q_omp p' = q_omp p.
Proof.
  intros Hc Hr. remember (Some p) as s eqn:Es. revert p Es Hc. induction Hr as [s|s s1 r Hs Hr IH]; intros p -> Hc; [by exists p|].
  destruct Hs as (p0 & a & [= <-] & _ & Hs). destruct (choked_step c i p a s1 Hc Hs) as (p1 & -> & H1 & H2 & H3 & H4).
  destruct (IH p1 eq_refl H1) as (p' & -> & G1 & G2 & G3 & G4). exists p'. split; [done|]. split; [done|]. by rewrite G2, G3, G4.
Qed.
Lemma prun_rtc c l s r : Forall (λ a, ∀ o i, a = ATake o i → order_ok o) l → prun c l s = Some r → rtc (pflow c) (Some s) r.
Proof.
  revert s. induction l as [|a l IH]; intros s Hl; cbn [prun].
  - intros [= <-]. apply rtc_refl.
  - apply Forall_cons in Hl as [Ha Hl]. destruct (pstep c a s) as [[s1|]|] eqn:E; [| |done].
    + intros Hr. eapply rtc_l; [by exists s, a|]. by apply IH.
    + intros [= <-]. apply rtc_once. by exists s, a.
Qed.
