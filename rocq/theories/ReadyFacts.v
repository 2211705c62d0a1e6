(** C59, C60: the ready signal of a Kafka consumer and the topic of a reorganisation. *)
From Verif Require Import Base Lru Types Wire Consumer Kafka SpecKafka KafkaFacts Feed SpecFeed FeedFacts FeedFacts2 Ready SpecReady.

(** * Lists *)
Lemma sorted_split {A} (R : A → A → Prop) l1 l2 x y : StronglySorted R (l1 ++ l2) → x ∈ l1 → y ∈ l2 → R x y.
Proof.
  induction l1 as [|a l1 IH]; intros Hs Hx Hy; [by apply elem_of_nil in Hx|]. apply StronglySorted_inv in Hs as [Hs Ha].
  apply elem_of_cons in Hx as [->|Hx]; [|by apply IH]. rewrite Forall_forall in Ha. apply Ha. apply elem_of_app. by right.
Qed.
Lemma elem_put i x out : x ∈ put_out i out ↔ (i, x) ∈ out.
Proof.
  unfold put_out. rewrite elem_of_list_fmap. split.
  - intros ((j & y) & -> & H). apply elem_of_list_filter in H as [E H]. cbn in E. by subst j.
  - intros H. exists (i, x). split; [done|]. by apply elem_of_list_filter.
Qed.

(** * The message loop *)
Fixpoint wg_run (isReorg : bool) (ms : list fmsg) (wg : Z) : option Z :=
  match ms with
  | [] => Some wg
  | m :: r => match wg_after isReorg wg m with Some wg' => wg_run isReorg r wg' | None => None end
  end.
Lemma wg_run_app r l1 l2 wg : wg_run r (l1 ++ l2) wg = match wg_run r l1 wg with Some wg' => wg_run r l2 wg' | None => None end.
Proof. revert wg. induction l1 as [|m l1 IH]; intros wg; cbn; [done|]. destruct (wg_after r wg m); [apply IH|done]. Qed.
(** The same counter as in the model of the loop in Kafka.v *)
Lemma wg_agrees c r topic st now m e st' eff : kc_message c r topic st now m e = Ok (st', eff) →
  wg_after r (kc_wg st) (FM (m_off m) (m_key m) (m_val m)) = Some (kc_wg st').
Proof.
  unfold kc_message, wg_after. cbn [fm_key]. destruct (m_key m) as [|t k]; [by intros [= <- _]|].
  destruct (bool_decide (t = ReorgType)).
  - destruct r; [|by intros [= <- _]]. destruct (process c e (kc_mp st) m) as [[? ?]| |]; cbn; try done. by intros [= <- _].
  - destruct (bool_decide_reflect (t = PingType)) as [->|_]; [by intros [= <- _]|].
    destruct (bool_decide (t = ReorgCompleteType)).
    + destruct (bool_decide (kc_wg st <= 0)%Z); [done|]. by intros [= <- _].
    + destruct (process c e (kc_mp st) m) as [[? ?]| |]; cbn; try done. by intros [= <- _].
Qed.

(** * The invariant *)
Definition hold_list (p : cpart) : list fmsg := match cp_phase p with PhHold m => [m] | _ => [] end.
Definition wait_hand (p : cpart) : list fmsg := match cp_phase p with PhWait m => [m] | _ => [] end.
Definition seen (s : rstate) (i : nat) (p : cpart) : list fmsg := put_out i (rs_done s ++ rs_chan s) ++ hold_list p.
Definition after_timer (g : signal) : Prop := g = SgReorgs ∨ g = SgSent.
Record part_inv (s : rstate) (i : nat) (o : opened) (p : cpart) : Prop := PInv {
  pi_op : cp_op p = o;
  pi_all : seen s i p ++ wait_hand p ++ cp_todo p = op_msgs o;
  pi_once : cp_once p = true → ∃ m, m ∈ seen s i p ∧ (op_newest o - 1 ≤ fm_off m)%Z;
  pi_wait : wait_hand p ≠ [] → cp_warm p = false;
  pi_warm : Forall (λ m, op_start o ≤ fm_off m)%Z (op_msgs o) → cp_warm p = false → seen s i p = [];
  pi_last : rs_signal s ≠ SgSent → ∀ m, m ∈ seen s i p → fm_off m = (op_end o - 1)%Z → cp_once p = true
}.
Record rinv (prompt r : bool) (os : list opened) (s : rstate) : Prop := RInv {
  ri_len : length (rs_parts s) = length os;
  ri_part : ∀ i o p, os !! i = Some o → rs_parts s !! i = Some p → part_inv s i o p;
  ri_once : rs_signal s ≠ SgParts → Forall (λ p, cp_once p = true) (rs_parts s);
  ri_wg : wg_run r (rs_done s).*2 0 = Some (rs_wg s);
  ri_caught : after_timer (rs_signal s) → ∀ i o x, os !! i = Some o → opened_ok o → x ∈ op_msgs o →
    (fm_off x < op_newest o - (if prompt then 0 else 1))%Z → (i, x) ∈ rs_done s;
  ri_some : after_timer (rs_signal s) → prompt = true → ∀ i o, os !! i = Some o → put_out i (rs_done s) ≠ []
}.
Lemma rinv_init prompt r os : rinv prompt r os (ready_init os).
Proof.
  split; cbn [ready_init rs_parts rs_chan rs_done rs_wg rs_signal].
  - by rewrite map_length.
  - intros i o p Ho Hp. change (map ?f os) with (f <$> os) in Hp. rewrite list_lookup_fmap, Ho in Hp. injection Hp as <-.
    split; cbn; try done. intros _ m H. by apply elem_of_nil in H.
  - done.
  - done.
  - by intros [?|?].
  - by intros [?|?].
Qed.
(** A step of partition [i] that changes nothing else. *)
Lemma seen_same s i p p' ps' g : hold_list p' = hold_list p → seen (RSt ps' (rs_chan s) (rs_done s) (rs_wg s) g) i p' = seen s i p.
Proof. unfold seen. by intros ->. Qed.
Lemma rinv_part prompt r os s i p p' : rinv prompt r os s → rs_parts s !! i = Some p →
  (cp_once p = true → cp_once p' = true) →
  (∀ o, os !! i = Some o → part_inv s i o p → part_inv (RSt (<[i := p']> (rs_parts s)) (rs_chan s) (rs_done s) (rs_wg s) (rs_signal s)) i o p') →
  rinv prompt r os (RSt (<[i := p']> (rs_parts s)) (rs_chan s) (rs_done s) (rs_wg s) (rs_signal s)).
Proof.
  intros Hi Hp Ho Hn. split; cbn [rs_parts rs_chan rs_done rs_wg rs_signal].
  - rewrite insert_length. apply Hi.
  - intros j o q Hj Hq. destruct (decide (i = j)) as [<-|Hne].
    + rewrite list_lookup_insert in Hq by (by eapply lookup_lt_Some). injection Hq as <-. apply Hn; [done|]. by eapply (ri_part _ _ _ _ Hi).
    + rewrite list_lookup_insert_ne in Hq by done. destruct (ri_part _ _ _ _ Hi j o q Hj Hq) as [A1 A2 A3 A4 A5 A6]. by split.
  - intros Hs. apply Forall_insert; [by apply (ri_once _ _ _ _ Hi)|]. apply Ho.
    assert (H := ri_once _ _ _ _ Hi Hs). rewrite Forall_lookup in H. exact (H i p Hp).
  - apply Hi.
  - apply Hi.
  - apply Hi.
Qed.
Lemma check_true live hw m once : check_mark live hw m once = true → once = true ∨ (live = true ∧ (hw - fm_off m ≤ 1)%Z).
Proof. unfold check_mark. intros [?|[? H]%andb_prop]%orb_prop; [by left|right]. split; [done|]. by apply bool_decide_eq_true in H. Qed.
Lemma check_keeps live hw m once : once = true → check_mark live hw m once = true.
Proof. by intros ->. Qed.
(** Taking a message in hand *)
Lemma part_hold s i o p p' m hw todo warm ps' :
  part_inv s i o p → hold_list p = [] → wait_hand p ++ cp_todo p = m :: todo →
  p' = CP todo (PhHold m) warm (check_mark (is_live (rs_signal s)) hw m (cp_once p)) o →
  (fm_off m < hw)%Z → (op_newest o ≤ hw ≤ op_end o)%Z → (warm = true ∨ (fm_off m < op_start o)%Z) →
  part_inv (RSt ps' (rs_chan s) (rs_done s) (rs_wg s) (rs_signal s)) i o p'.
Proof.
  intros [A1 A2 A3 A4 A5 A6] Hh Hm -> Hhw Hb Hw. unfold seen in *. rewrite Hh, app_nil_r in *. rewrite Hm in A2. split; unfold seen; cbn [cp_op cp_phase cp_todo cp_warm cp_once hold_list wait_hand rs_done rs_chan rs_signal app].
  - done.
  - by rewrite <- app_assoc.
  - intros [Hc|[_ Hc]]%check_true.
    + destruct (A3 Hc) as (y & Hy & Hoff). exists y. split; [|done]. apply elem_of_app. by left.
    + exists m. split; [|lia]. apply elem_of_app. right. by apply elem_of_list_singleton.
  - done.
  - intros Hlow Hcold. destruct Hw as [?|Hlt]; [congruence|]. rewrite Forall_forall in Hlow. specialize (Hlow m).
    exfalso. cut (m ∈ op_msgs o); [intros ?%Hlow; lia|]. rewrite <- A2. apply elem_of_app. right. apply elem_of_list_here.
  - intros Hs y Hy Hoff. apply elem_of_app in Hy as [Hy| ->%elem_of_list_singleton].
    + apply check_keeps. by eapply A6.
    + unfold check_mark. apply orb_true_intro. right. destruct (rs_signal s); try done; cbn; apply bool_decide_eq_true; lia.
Qed.
Lemma rinv_step prompt r os s s' : rinv prompt r os s → ready_step prompt r s s' → rinv prompt r os s'.
Proof.
  intros Hi Hst.
  destruct Hst as [ps ch dn wg g i m todo once o Hp Hm|ps ch dn wg g i m todo once o hw Hp Hall Hhw Hb|ps ch dn wg g i m todo warm once o hw Hp Hw Hhw Hb
    |ps ch dn wg g i m todo warm once o Hp|ps i m ch dn wg wg' g Hwg|ps ch dn wg Hone|ps dn wg Hpr|ps ch dn].
  - apply (rinv_part prompt r os (RSt ps ch dn wg g) i _ (CP todo (PhWait m) false once o) Hi Hp); [done|]. intros o' Ho [A1 A2 A3 A4 A5 A6]. cbn in A1. subst o'.
    by split.
  - apply (rinv_part prompt r os (RSt ps ch dn wg g) i _ (CP todo (PhHold m) true (check_mark (is_live g) hw m once) o) Hi Hp); [cbn; apply check_keeps|].
    intros o' Ho Hpi. assert (Eo := pi_op _ _ _ _ Hpi). cbn in Eo. subst o'.
    eapply (part_hold (RSt ps ch dn wg g)); [exact Hpi|done|done|done|done|done|by left].
  - apply (rinv_part prompt r os (RSt ps ch dn wg g) i _ (CP todo (PhHold m) warm (check_mark (is_live g) hw m once) o) Hi Hp); [cbn; apply check_keeps|].
    intros o' Ho Hpi. assert (Eo := pi_op _ _ _ _ Hpi). cbn in Eo. subst o'.
    eapply (part_hold (RSt ps ch dn wg g)); [exact Hpi|done|done|done|done|done|done].
  - assert (Hseen : ∀ j q q', (j = i → hold_list q = [m] ∧ hold_list q' = []) → (j ≠ i → hold_list q' = hold_list q) →
      seen (RSt (<[i := CP todo PhNext warm once o]> ps) (ch ++ [(i, m)]) dn wg g) j q' = seen (RSt ps ch dn wg g) j q).
    { intros j q q' H1 H2. unfold seen. cbn [rs_done rs_chan]. rewrite app_assoc, (put_out_app j (dn ++ ch)), put_out_one.
      destruct (decide (i = j)) as [<-|Hne].
      - destruct (H1 eq_refl) as [-> ->]. by rewrite app_nil_r.
      - rewrite H2 by done. by rewrite app_nil_r. }
    destruct Hi as [B1 B2 B3 B4 B5 B6]. split; cbn [rs_parts rs_chan rs_done rs_wg rs_signal] in *; try done.
    + by rewrite insert_length.
    + intros j o' q Hj Hq. destruct (decide (i = j)) as [<-|Hne].
      * rewrite list_lookup_insert in Hq by (by eapply lookup_lt_Some). injection Hq as <-. destruct (B2 i o' _ Hj Hp) as [A1 A2 A3 A4 A5 A6].
        assert (E : seen (RSt (<[i := CP todo PhNext warm once o]> ps) (ch ++ [(i, m)]) dn wg g) i (CP todo PhNext warm once o) =
          seen (RSt ps ch dn wg g) i (CP todo (PhHold m) warm once o)) by (by apply Hseen).
        split; rewrite ?E; try done.
      * rewrite list_lookup_insert_ne in Hq by done. destruct (B2 j o' q Hj Hq) as [A1 A2 A3 A4 A5 A6].
        assert (E : seen (RSt (<[i := CP todo PhNext warm once o]> ps) (ch ++ [(i, m)]) dn wg g) j q = seen (RSt ps ch dn wg g) j q)
          by (apply Hseen; [intros ->; done|done]).
        split; rewrite ?E; done.
    + intros Hs. specialize (B3 Hs). apply Forall_insert; [done|]. rewrite Forall_lookup in B3. exact (B3 i _ Hp).
  - assert (Hseen : ∀ j q, seen (RSt ps ch (dn ++ [(i, m)]) wg' g) j q = seen (RSt ps ((i, m) :: ch) dn wg g) j q).
    { intros j q. unfold seen. cbn [rs_done rs_chan]. by rewrite <- app_assoc. }
    destruct Hi as [B1 B2 B3 B4 B5 B6]. split; cbn [rs_parts rs_chan rs_done rs_wg rs_signal] in *; try done.
    + intros j o q Hj Hq. destruct (B2 j o q Hj Hq) as [A1 A2 A3 A4 A5 A6]. split; rewrite ?Hseen; done.
    + rewrite fmap_app, wg_run_app, B4. cbn. by rewrite Hwg.
    + intros Hs j o x Hj Hok Hx Hoff. apply elem_of_app. left. by eapply B5.
    + intros Hs Hpr j o Hj. rewrite put_out_app. intros [E _]%app_nil. by eapply B6.
  - destruct Hi as [B1 B2 B3 B4 B5 B6]. split; cbn [rs_parts rs_chan rs_done rs_wg rs_signal] in *; try done.
    + intros j o q Hj Hq. destruct (B2 j o q Hj Hq) as [A1 A2 A3 A4 A5 A6]. split; try done. intros _. by apply A6.
    + by intros [?|?].
    + by intros [?|?].
  - destruct Hi as [B1 B2 B3 B4 B5 B6]. split; cbn [rs_parts rs_chan rs_done rs_wg rs_signal] in *; try done.
    + intros j o q Hj Hq. destruct (B2 j o q Hj Hq) as [A1 A2 A3 A4 A5 A6]. split; try done. intros _. by apply A6.
    + intros _. by apply B3.
    + intros _ i o x Hio Hok Hx Hoff. destruct (lookup_lt_is_Some_2 ps i) as [p Hp]; [rewrite B1; by eapply lookup_lt_Some|].
      destruct (B2 i o p Hio Hp) as [A1 A2 A3 _ _ _].
      assert (Hone : cp_once p = true) by (specialize (B3 ltac:(done)); rewrite Forall_lookup in B3; exact (B3 i p Hp)).
      destruct (A3 Hone) as (m & Hm & Hmoff). unfold seen in *. cbn [rs_done rs_chan] in *. rewrite app_nil_r in *. apply elem_put.
      rewrite <- A2 in Hx. rewrite <- app_assoc in A2. assert (Hso := oo_sorted o Hok). rewrite <- A2 in Hso.
      rewrite <- app_assoc in Hx. apply elem_of_app in Hx as [Hx|Hx]; [done|]. exfalso.
      apply elem_of_app in Hm as [Hm|Hm].
      * assert (H := sorted_split _ _ _ _ _ Hso Hm Hx). cbn in H. destruct prompt; lia.
      * destruct prompt.
        { specialize (Hpr eq_refl). rewrite Forall_lookup in Hpr. specialize (Hpr i p Hp). unfold hold_list in Hm.
          destruct (cp_phase p); [by apply elem_of_nil in Hm..|]. by eapply Hpr. }
        apply elem_of_app in Hx as [Hx|Hx].
        { unfold hold_list in Hm, Hx. destruct (cp_phase p); [by apply elem_of_nil in Hm..|]. apply elem_of_list_singleton in Hm, Hx. subst. lia. }
        rewrite app_assoc in Hso. assert (H := sorted_split _ _ _ m x Hso). feed specialize H; [apply elem_of_app; by right|done|]. cbn in H. lia.
    + intros _ -> i o Hio. destruct (lookup_lt_is_Some_2 ps i) as [p Hp]; [rewrite B1; by eapply lookup_lt_Some|].
      destruct (B2 i o p Hio Hp) as [A1 A2 A3 _ _ _].
      assert (Hone : cp_once p = true) by (specialize (B3 ltac:(done)); rewrite Forall_lookup in B3; exact (B3 i p Hp)).
      destruct (A3 Hone) as (m & Hm & Hmoff). unfold seen in *. cbn [rs_done rs_chan] in *. rewrite app_nil_r in *.
      apply elem_of_app in Hm as [Hm|Hm]; [intros E; rewrite E in Hm; by apply elem_of_nil in Hm|].
      specialize (Hpr eq_refl). rewrite Forall_lookup in Hpr. specialize (Hpr i p Hp). unfold hold_list in Hm.
      destruct (cp_phase p); [by apply elem_of_nil in Hm..|]. exfalso. by eapply Hpr.
  - destruct Hi as [B1 B2 B3 B4 B5 B6]. split; cbn [rs_parts rs_chan rs_done rs_wg rs_signal] in *; try done.
    + intros j o q Hj Hq. destruct (B2 j o q Hj Hq) as [A1 A2 A3 A4 A5 A6]. split; done.
    + intros _. by apply B3.
    + intros _. apply B5. by left.
    + intros _. apply B6. by left.
Qed.
Lemma rinv_reach prompt r os s : rtc (ready_step prompt r) (ready_init os) s → rinv prompt r os s.
Proof.
  intros H. cut (∀ s0, rtc (ready_step prompt r) s0 s → rinv prompt r os s0 → rinv prompt r os s).
  { intros Hc. eapply Hc; [exact H|]. apply rinv_init. }
  clear H. intros s0 H. induction H as [|x y z Hxy _ IH]; intros Hi; [done|]. apply IH. by eapply rinv_step.
Qed.

(** * The signal *)
Lemma ready_order prompt r os s i o : rtc (ready_step prompt r) (ready_init os) s → os !! i = Some o → handled s i `prefix_of` op_msgs o.
Proof.
  intros H Ho. assert (Hi := rinv_reach _ _ _ _ H). destruct (lookup_lt_is_Some_2 (rs_parts s) i) as [p Hp].
  { rewrite (ri_len _ _ _ _ Hi). by eapply lookup_lt_Some. }
  rewrite <- (pi_all _ _ _ _ (ri_part _ _ _ _ Hi i o p Ho Hp)). unfold handled, seen. rewrite put_out_app. eexists. by rewrite <- !app_assoc.
Qed.
Lemma ready_caught_up prompt r os s i o x : rtc (ready_step prompt r) (ready_init os) s → sent s → os !! i = Some o → opened_ok o → x ∈ op_msgs o →
  (fm_off x < op_newest o - (if prompt then 0 else 1))%Z → x ∈ handled s i.
Proof.
  intros H Hs Ho Hok Hx Hoff. apply elem_put. eapply (ri_caught _ _ _ _ (rinv_reach _ _ _ _ H)); [right; exact Hs|done|done|done|done].
Qed.
Lemma wg_run_main ms : Forall no_reorg_done ms → ∀ wg, wg_run false ms wg = Some wg.
Proof.
  induction 1 as [|m ms Hm _ IH]; intros wg; [done|]. cbn. unfold wg_after. unfold no_reorg_done, key_type in Hm.
  destruct (fm_key m) as [|t k]; [apply IH|]. cbn in Hm. destruct (bool_decide (t = ReorgType)); [apply IH|].
  rewrite bool_decide_eq_false_2; [apply IH|]. congruence.
Qed.
Lemma ready_wg prompt os s : Forall (λ o, Forall no_reorg_done (op_msgs o)) os → rtc (ready_step prompt false) (ready_init os) s →
  rs_wg s = 0%Z ∧ ∀ i m, (i, m) ∈ rs_done s ++ rs_chan s → (∃ o, os !! i = Some o) → no_reorg_done m.
Proof.
  intros Hn H. assert (Hi := rinv_reach _ _ _ _ H).
  assert (Hall : ∀ i m, (i, m) ∈ rs_done s ++ rs_chan s → (∃ o, os !! i = Some o) → no_reorg_done m).
  { intros i m Hm [o Ho]. destruct (lookup_lt_is_Some_2 (rs_parts s) i) as [p Hp]; [rewrite (ri_len _ _ _ _ Hi); by eapply lookup_lt_Some|].
    assert (E := pi_all _ _ _ _ (ri_part _ _ _ _ Hi i o p Ho Hp)). rewrite Forall_lookup in Hn. specialize (Hn i o Ho). rewrite Forall_forall in Hn.
    apply Hn. rewrite <- E. unfold seen. rewrite !elem_of_app. left. left. by apply elem_put. }
  split; [|done].
  assert (Hidx : ∀ i m, (i, m) ∈ rs_done s ++ rs_chan s → ∃ o, os !! i = Some o).
  { clear Hall Hn Hi. cut (∀ s0, rtc (ready_step prompt false) s0 s →
      (length (rs_parts s0) = length os ∧ ∀ i m, (i, m) ∈ rs_done s0 ++ rs_chan s0 → ∃ o, os !! i = Some o) →
      (length (rs_parts s) = length os ∧ ∀ i m, (i, m) ∈ rs_done s ++ rs_chan s → ∃ o, os !! i = Some o)).
    { intros Hc. eapply Hc; [exact H|]. split; [cbn; by rewrite map_length|]. intros i m Hm. by apply elem_of_nil in Hm. }
    clear H. intros s0 H. induction H as [|x y z Hxy _ IH]; intros Hinv; [done|]. apply IH. clear IH. destruct Hinv as [Hl Hinv].
    destruct Hxy as [ps ch dn wg g i m todo once o Hp Hm|ps ch dn wg g i m todo once o hw Hp Hall Hhw Hb|ps ch dn wg g i m todo warm once o hw Hp Hw Hhw Hb
    |ps ch dn wg g i m todo warm once o Hp|ps i m ch dn wg wg' g Hwg|ps ch dn wg Hone|ps dn wg Hpr|ps ch dn];
      cbn [rs_parts rs_done rs_chan] in *; rewrite ?insert_length; (split; [done|]); try exact Hinv.
    - intros j y. rewrite app_assoc, elem_of_app. intros [Hy|Hy]; [by eapply Hinv|]. apply elem_of_list_singleton in Hy. injection Hy as -> ->.
      apply lookup_lt_is_Some_2. rewrite <- Hl. by eapply lookup_lt_Some.
    - intros j y Hy. apply (Hinv j y). by rewrite <- app_assoc in Hy. }
  assert (Hw := ri_wg _ _ _ _ Hi). rewrite wg_run_main in Hw; [by injection Hw|].
  apply Forall_forall. intros m ((i & m') & -> & Hm)%elem_of_list_fmap. apply (Hall i).
  - apply elem_of_app. by left.
  - eapply Hidx. apply elem_of_app. by left.
Qed.

(** * The signal is sent *)
Lemma ready_idx prompt r os s : rtc (ready_step prompt r) (ready_init os) s → ∀ i m, (i, m) ∈ rs_done s ++ rs_chan s → ∃ o, os !! i = Some o.
Proof.
  intros H. cut (∀ s0, rtc (ready_step prompt r) s0 s →
    (length (rs_parts s0) = length os ∧ ∀ i m, (i, m) ∈ rs_done s0 ++ rs_chan s0 → ∃ o, os !! i = Some o) →
    (∀ i m, (i, m) ∈ rs_done s ++ rs_chan s → ∃ o, os !! i = Some o)).
  { intros Hc. eapply Hc; [exact H|]. split; [cbn; by rewrite map_length|]. intros i m Hm. by apply elem_of_nil in Hm. }
  clear H. intros s0 H. induction H as [|x y z Hxy _ IH]; intros Hinv; [by apply Hinv|]. apply IH. clear IH. destruct Hinv as [Hl Hinv].
  destruct Hxy as [ps ch dn wg g i m todo once o Hp Hm|ps ch dn wg g i m todo once o hw Hp Hall Hhw Hb|ps ch dn wg g i m todo warm once o hw Hp Hw Hhw Hb
  |ps ch dn wg g i m todo warm once o Hp|ps i m ch dn wg wg' g Hwg|ps ch dn wg Hone|ps dn wg Hpr|ps ch dn];
    cbn [rs_parts rs_done rs_chan] in *; rewrite ?insert_length; (split; [done|]); try exact Hinv.
  - intros j y. rewrite app_assoc, elem_of_app. intros [Hy|Hy]; [by eapply Hinv|]. apply elem_of_list_singleton in Hy. injection Hy as -> ->.
    apply lookup_lt_is_Some_2. rewrite <- Hl. by eapply lookup_lt_Some.
  - intros j y Hy. apply (Hinv j y). by rewrite <- app_assoc in Hy.
Qed.
Lemma last_in {A} (l : list A) x : last l = Some x → x ∈ l.
Proof. intros H. apply last_Some in H as [l' ->]. apply elem_of_app. right. by apply elem_of_list_singleton. Qed.
Lemma ready_progress_gen prompt r os s : Forall (λ o, opened_ok o ∧ ends_held o) os →
  rtc (ready_step prompt r) (ready_init os) s →
  (∀ i m ch, rs_chan s = (i, m) :: ch → is_Some (wg_after r (rs_wg s) m)) →
  (rs_chan s = [] → (∀ i p, rs_parts s !! i = Some p → hold_list p = [] ∧ wait_hand p = [] ∧ cp_todo p = []) → rs_wg s = 0%Z) →
  ¬ sent s → ∃ s', ready_step prompt r s s'.
Proof.
  intros Hos H Htake Hend Hns. assert (Hi := rinv_reach _ _ _ _ H).
  assert (Hop : ∀ i p, rs_parts s !! i = Some p → opened_ok (cp_op p) ∧ ends_held (cp_op p) ∧ part_inv s i (cp_op p) p).
  { intros i p Hp. destruct (lookup_lt_is_Some_2 os i) as [o Ho]; [rewrite <- (ri_len _ _ _ _ Hi); by eapply lookup_lt_Some|].
    assert (Hpi := ri_part _ _ _ _ Hi i o p Ho Hp). rewrite (pi_op _ _ _ _ Hpi). rewrite Forall_lookup in Hos. by destruct (Hos i o Ho) as (? & ?). }
  destruct s as [ps ch dn wg g]. cbn [rs_parts rs_done rs_chan rs_wg rs_signal] in *. unfold sent in Hns. cbn in Hns.
  destruct ch as [|[i m] ch].
  2: { destruct (Htake i m ch eq_refl) as [wg' Ew]. eexists. by eapply RTake. }
  destruct (decide (Exists (λ p, hold_list p ≠ []) ps)) as [(p & Hp & Hh)%Exists_exists|Hnh].
  { apply elem_of_list_lookup in Hp as [i Hp]. destruct p as [todo [|m|m] warm once o]; try done. eexists. by eapply RPut. }
  assert (Hnh' : ∀ i p, ps !! i = Some p → hold_list p = []).
  { intros i p Hp. destruct (hold_list p) eqn:E; [done|]. exfalso. apply Hnh. apply Exists_exists. exists p. split; [by eapply elem_of_list_lookup_2|]. by rewrite E. }
  destruct (decide (Exists (λ p, wait_hand p = [] ∧ cp_todo p ≠ []) ps)) as [(p & Hp & Hw & Ht)%Exists_exists|Hnn].
  { apply elem_of_list_lookup in Hp as [i Hp]. assert (Hh := Hnh' i p Hp). destruct (Hop i p Hp) as (Hok & _ & Hpi).
    destruct p as [[|m todo] [|m'|m'] warm once o]; try done. cbn in Hok.
    assert (Hm : m ∈ op_msgs o). { assert (E := pi_all _ _ _ _ Hpi). cbn in E. rewrite <- E. rewrite !elem_of_app. right. apply elem_of_list_here. }
    assert (Hhi := oo_high o Hok). rewrite Forall_forall in Hhi. specialize (Hhi m Hm). assert (Hle := oo_end o Hok).
    assert (Hlo := oo_low o Hok). rewrite Forall_forall in Hlo. specialize (Hlo m Hm).
    destruct warm; [|eexists; by eapply RArrive]. eexists. eapply (RPass _ _ _ _ _ _ _ _ _ _ _ _ _ (op_end o)); [exact Hp|by left|done|lia]. }
  assert (Hnn' : ∀ i p, ps !! i = Some p → wait_hand p = [] → cp_todo p = []).
  { intros i p Hp Hw. destruct (cp_todo p) eqn:E; [done|]. exfalso. apply Hnn. apply Exists_exists. exists p. split; [by eapply elem_of_list_lookup_2|]. by rewrite E. }
  (* every partition has received something *)
  assert (Hwarm : Forall warmed ps).
  { apply Forall_lookup. intros i p Hp. unfold warmed. destruct (cp_warm p) eqn:Ew; [by left|]. right.
    destruct (Hop i p Hp) as (Hok & (m & Hl & _) & Hpi). assert (E := pi_all _ _ _ _ Hpi).
    rewrite (pi_warm _ _ _ _ Hpi (oo_low _ Hok) Ew) in E. destruct (wait_hand p) as [|m' l] eqn:Ewt.
    - rewrite (Hnn' i p Hp Ewt) in E. cbn in E. by rewrite <- E in Hl.
    - unfold wait_hand in Ewt. destruct (cp_phase p) as [|m''|m'']; try done. by exists m''. }
  destruct (decide (Exists (λ p, wait_hand p ≠ []) ps)) as [(p & Hp & Hw)%Exists_exists|Hnw].
  { apply elem_of_list_lookup in Hp as [i Hp]. destruct (Hop i p Hp) as (Hok & _ & Hpi). assert (Hcold := pi_wait _ _ _ _ Hpi Hw).
    destruct p as [todo [|m|m] warm once o]; try done. cbn in Hcold, Hok. subst warm.
    assert (Hm : m ∈ op_msgs o). { assert (E := pi_all _ _ _ _ Hpi). cbn in E. rewrite <- E. rewrite !elem_of_app. right. apply elem_of_list_here. }
    assert (Hhi := oo_high o Hok). rewrite Forall_forall in Hhi. specialize (Hhi m Hm). assert (Hle := oo_end o Hok).
    eexists. eapply (RRelease _ _ _ _ _ _ _ _ _ _ _ _ (op_end o)); [exact Hp|done|done|lia]. }
  assert (Hnw' : ∀ i p, ps !! i = Some p → wait_hand p = []).
  { intros i p Hp. destruct (wait_hand p) eqn:E; [done|]. exfalso. apply Hnw. apply Exists_exists. exists p. split; [by eapply elem_of_list_lookup_2|]. by rewrite E. }
  destruct g.
  - eexists. apply RParts. apply Forall_lookup. intros i p Hp. destruct (Hop i p Hp) as (Hok & (m & Hl & Hoff) & Hpi).
    eapply (pi_last _ _ _ _ Hpi); [done| |exact Hoff]. apply last_in in Hl. rewrite <- (pi_all _ _ _ _ Hpi) in Hl.
    assert (Ew := Hnw' i p Hp).
    rewrite Ew, (Hnn' i p Hp Ew), !app_nil_r in Hl. done.
  - eexists. apply RTimer. intros _. apply Forall_lookup. intros i p Hp m Em. assert (E := Hnh' i p Hp). unfold hold_list in E. by rewrite Em in E.
  - assert (wg = 0%Z) as ->; [|eexists; apply RReady]. apply (Hend eq_refl). intros i p Hp. split; [by eapply Hnh'|]. split; [by eapply Hnw'|]. eapply Hnn'; [done|]. by eapply Hnw'.
  - done.
Qed.
Lemma ready_progress prompt os s : Forall (λ o, opened_ok o ∧ ends_held o ∧ Forall no_reorg_done (op_msgs o)) os →
  rtc (ready_step prompt false) (ready_init os) s → ¬ sent s → ∃ s', ready_step prompt false s s'.
Proof.
  intros Hos H. destruct (ready_wg prompt os s) as [Hwg Hnd]; [eapply Forall_impl; [exact Hos|]; intros o Ho; apply Ho|done|].
  apply (ready_progress_gen prompt false os); [eapply Forall_impl; [exact Hos|]; intros o Ho; split; apply Ho|done| |done].
  intros i m ch Ech. rewrite Hwg. assert (Hin : (i, m) ∈ rs_done s ++ rs_chan s) by (rewrite Ech; apply elem_of_app; right; apply elem_of_list_here).
  assert (E := wg_run_main [m] (proj2 (Forall_singleton _ _) (Hnd i m Hin (ready_idx _ _ _ _ H i m Hin))) 0%Z). cbn in E.
  destruct (wg_after false 0 m); [by eexists|done].
Qed.
Definition pcost (p : cpart) : nat := 4 * length (cp_todo p) + match cp_phase p with PhNext => 0 | PhWait _ => 3 | PhHold _ => 2 end.
Definition scost (g : signal) : nat := match g with SgParts => 3 | SgTimer => 2 | SgReorgs => 1 | SgSent => 0 end.
Definition rcost (s : rstate) : nat := sum_list_with pcost (rs_parts s) + length (rs_chan s) + scost (rs_signal s).
Lemma pcost_insert ps i p p' : ps !! i = Some p → sum_list_with pcost (<[i := p']> ps) + pcost p = sum_list_with pcost ps + pcost p'.
Proof.
  revert i. induction ps as [|x ps IH]; intros [|i] Hi; try done.
  - injection Hi as ->. change (<[0 := p']> (p :: ps)) with (p' :: ps). cbn [sum_list_with]. lia.
  - specialize (IH i Hi). change (<[S i := p']> (x :: ps)) with (x :: <[i := p']> ps). cbn [sum_list_with]. lia.
Qed.
Lemma rcost_step prompt r s s' : ready_step prompt r s s' → rcost s' < rcost s.
Proof.
  intros Hst. destruct Hst as [ps ch dn wg g i m todo once o Hp Hm|ps ch dn wg g i m todo once o hw Hp Hall Hhw Hb|ps ch dn wg g i m todo warm once o hw Hp Hw Hhw Hb
    |ps ch dn wg g i m todo warm once o Hp|ps i m ch dn wg wg' g Hwg|ps ch dn wg Hone|ps dn wg Hpr|ps ch dn]; unfold rcost; cbn [rs_parts rs_chan rs_signal length scost]; try lia;
    match goal with |- context [<[?i := ?p']> ?ps] => pose proof (pcost_insert ps i _ p' Hp) as E end; unfold pcost at 2 4 in E; cbn [cp_todo cp_phase length] in E; rewrite ?app_length; cbn [length]; lia.
Qed.
Lemma ready_bounded prompt r os n s : nsteps (ready_step prompt r) n (ready_init os) s → n ≤ 4 * sum_list_with (λ o, length (op_msgs o)) os + 3.
Proof.
  intros H. assert (Hc : rcost (ready_init os) = 4 * sum_list_with (λ o, length (op_msgs o)) os + 3).
  { unfold rcost. cbn [ready_init rs_parts rs_chan rs_signal length scost]. rewrite Nat.add_0_r. f_equal.
    clear. induction os as [|o os IH]; [done|]. cbn [map sum_list_with]. rewrite IH. unfold pcost at 1. cbn [cp_todo cp_phase]. lia. }
  rewrite <- Hc. clear Hc. revert H. generalize (ready_init os) as s0. intros s0 H. induction H as [|n x y z Hxy H IH]; [lia|].
  apply rcost_step in Hxy. lia.
Qed.
Lemma ready_never prompt r os s i o : rtc (ready_step prompt r) (ready_init os) s → os !! i = Some o → Forall (λ m, fm_off m < op_newest o - 1)%Z (op_msgs o) → rs_signal s = SgParts.
Proof.
  intros H Ho Hn. assert (Hi := rinv_reach _ _ _ _ H). assert (Hd : rs_signal s = SgParts ∨ rs_signal s ≠ SgParts) by (destruct (rs_signal s); auto). destruct Hd as [?|Hne]; [done|]. exfalso.
  assert (Hone := ri_once _ _ _ _ Hi). feed specialize Hone; [done|].
  destruct (lookup_lt_is_Some_2 (rs_parts s) i) as [p Hp]; [rewrite (ri_len _ _ _ _ Hi); by eapply lookup_lt_Some|].
  assert (Hpi := ri_part _ _ _ _ Hi i o p Ho Hp). rewrite Forall_lookup in Hone. destruct (pi_once _ _ _ _ Hpi (Hone i p Hp)) as (m & Hm & Hge).
  rewrite <- (pi_all _ _ _ _ Hpi), !Forall_app in Hn. destruct Hn as [Hn _]. rewrite Forall_forall in Hn. specialize (Hn m Hm). lia.
Qed.

Lemma sorted_filter {A} (R : A → A → Prop) (P : A → Prop) `{∀ x, Decision (P x)} l : StronglySorted R l → StronglySorted R (filter P l).
Proof.
  induction 1 as [|x l Hs IH Hx]; [constructor|]. rewrite filter_cons. case_decide; [|exact IH]. constructor; [exact IH|].
  apply Forall_forall. intros y [_ Hy]%elem_of_list_filter. rewrite Forall_forall in Hx. by apply Hx.
Qed.
Lemma open_ok entry rb start get l new fin o : log_ok l → arrives l new fin → open_part entry rb start get l new fin = Some o → opened_ok o.
Proof.
  intros Hok (Hs & Hb & Hf) H. unfold open_part in H. destruct (warm_start _ _ _ _ _) as [[s so]|] eqn:Ew; [|done]. injection H as <-.
  assert (Hle : ∀ m, m ∈ from_offset l s → (so ≤ fm_off m)%Z) by (intros m; by eapply warm_start_le). assert (Hsn : (so ≤ pt_newest (fl_part l))%Z).
  { clear Hle. destruct Hok as [Hp _]. unfold partition_ok in Hp. unfold warm_start in Ew.
    destruct (match entry with Some o => _ | None => _ end) as [offset so0]. 
    destruct (consume_partition _ so0) as [s1|] eqn:E1; [|destruct (consume_partition _ offset) as [s2|] eqn:E2; [|done]]; simplify_eq;
      unfold consume_partition, OffsetNewest, OffsetOldest in *; repeat case_bool_decide; simplify_eq; try done; lia. }
  destruct Hok as (Hp & Hso & Hh). constructor; cbn.
  - assert (Hsf : StronglySorted (λ a b, fm_off a < fm_off b)%Z (from_offset l s)) by (by apply sorted_filter).
    assert (Hlt : ∀ x y, x ∈ from_offset l s → y ∈ new → (fm_off x < fm_off y)%Z).
    { intros x y [_ Hx]%elem_of_list_filter Hy. rewrite Forall_forall in Hh, Hb. specialize (Hh x Hx). specialize (Hb y Hy). unfold held in Hh. lia. }
    clear Hle Hh Hso. induction Hsf as [|x l' Hsf IH Hx]; [done|]. cbn. constructor.
    + apply IH. intros a b Ha. apply Hlt. by apply elem_of_list_further.
    + apply Forall_app. split; [done|]. apply Forall_forall. intros y. apply Hlt. apply elem_of_list_here.
  - apply Forall_app. split; apply Forall_forall; [done|]. intros m Hm. rewrite Forall_forall in Hb. specialize (Hb m Hm). lia.
  - apply Forall_app. split; apply Forall_forall; intros m Hm.
    + apply elem_of_list_filter in Hm as [_ Hm]. rewrite Forall_forall in Hh. specialize (Hh m Hm). unfold held in Hh. lia.
    + rewrite Forall_forall in Hb. specialize (Hb m Hm). lia.
  - done.
Qed.
Lemma opened_from_ok o : opened_from o → opened_ok o.
Proof. intros (entry & rb & start & get & l & new & fin & H1 & H2 & H3). by eapply open_ok. Qed.

(** * The topic of a reorganisation *)
Lemma sorted_none_from (l : list fmsg) e : Forall (λ m, fm_off m < e)%Z l → filter (λ m, (e ≤ fm_off m)%Z) l = [].
Proof. induction 1 as [|m l Hm _ IH]; [done|]. rewrite filter_cons_False by lia. exact IH. Qed.
Lemma sorted_last_from (l : list fmsg) e : StronglySorted (λ a b, fm_off a < fm_off b)%Z (l ++ [e]) → filter (λ m, (fm_off e ≤ fm_off m)%Z) (l ++ [e]) = [e].
Proof.
  intros Hs. rewrite filter_app, sorted_none_from.
  - by rewrite filter_cons_True by lia.
  - apply Forall_forall. intros x Hx. apply (sorted_split _ _ _ x e Hs Hx). by apply elem_of_list_singleton.
Qed.
Lemma open_late l new fin o e : log_ok l → last (fl_msgs l) = Some e → pt_newest (fl_part l) = (fm_off e + 1)%Z →
  open_reorg true l new fin = Some o → op_msgs o = e :: new.
Proof.
  intros (Hp & Hs & Hh) Hl Hn H. unfold open_reorg, open_part, warm_start in H. apply last_Some in Hl as [l' El].
  rewrite El in Hh. apply Forall_app in Hh as [_ Hh]. rewrite Forall_singleton in Hh. unfold held, partition_ok in *.
  rewrite bool_decide_eq_true_2 in H by done. rewrite bool_decide_eq_true_2 in H by lia. cbn [andb] in H.
  assert (E : consume_partition (fl_part l) (pt_newest (fl_part l) - 1) = Some (fm_off e)).
  { unfold consume_partition, OffsetNewest, OffsetOldest. rewrite Hn. repeat case_bool_decide; try (exfalso; lia); f_equal; lia. }
  rewrite E in H. injection H as <-. cbn [op_msgs]. unfold from_offset. rewrite El in *. by rewrite sorted_last_from.
Qed.
Lemma open_early get l new fin o : log_ok l → opened_early l → get = true ∨ fl_msgs l = [] → open_reorg get l new fin = Some o →
  op_msgs o = fl_msgs l ++ new.
Proof.
  intros Hok [Hnil|(m & Hm & Hn)] Hg H.
  - unfold open_reorg, open_part in H. destruct (warm_start _ _ _ _ _) as [[s so]|]; [|done]. injection H as <-. cbn [op_msgs]. unfold from_offset. by rewrite Hnil.
  - destruct Hg as [->|Hg]; [|by rewrite Hm in Hg]. rewrite (open_late l new fin o m); [by rewrite Hm|done|by rewrite Hm|done|done].
Qed.
(** Only one partition *)
Lemma put_out_only (o : opened) out : (∀ i m, (i, m) ∈ out → ∃ o', [o] !! i = Some o') → put_out 0 out = out.*2.
Proof.
  intros H. induction out as [|[i m] out IH]; [done|].
  assert (i = 0) as ->. { destruct (H i m (elem_of_list_here _ _)) as [o' Ho]. destruct i; [done|]. by destruct i. }
  change ((0, m) :: out) with ([(0, m)] ++ out). rewrite put_out_app, put_out_one, fmap_app. cbn. f_equal. apply IH.
  intros i m' Hm. apply (H i m'). by apply elem_of_list_further.
Qed.
Lemma ready_single prompt r o s : rtc (ready_step prompt r) (ready_init [o]) s → handled s 0 = (rs_done s).*2.
Proof.
  intros H. apply (put_out_only o). intros i m Hm. eapply (ready_idx _ _ _ _ H). apply elem_of_app. by left.
Qed.
Lemma reorg_late_lost prompt l new fin o s : log_ok l → opened_late l → open_reorg true l new fin = Some o →
  rtc (ready_step prompt true) (ready_init [o]) s → rs_done s = [].
Proof.
  intros Hok (e & Hl & Ht & Hn) Ho H. assert (E := open_late _ _ _ _ _ Hok Hl Hn Ho).
  destruct (ready_order _ _ _ _ 0 o H eq_refl) as [rest Er]. rewrite E in Er. rewrite (ready_single _ _ _ _ H) in Er.
  assert (Hw := ri_wg _ _ _ _ (rinv_reach _ _ _ _ H)). destruct (rs_done s) as [|[i m] dn]; [done|]. cbn in Er, Hw. injection Er as <- _.
  unfold wg_after in Hw. unfold key_type in Ht. destruct (fm_key e) as [|t k]; [done|]. cbn in Ht. injection Ht as ->. done.
Qed.
Lemma reorg_late_panic prompt l new fin o : log_ok l → opened_late l → (pt_newest (fl_part l) ≤ fin)%Z → open_reorg true l new fin = Some o →
  ∃ s i m ch, rtc (ready_step prompt true) (ready_init [o]) s ∧ rs_chan s = (i, m) :: ch ∧ wg_after true (rs_wg s) m = None.
Proof.
  intros Hok (e & Hl & Ht & Hn) Hfin Ho. assert (E := open_late _ _ _ _ _ Hok Hl Hn Ho).
  assert (Hs : (op_start o ≤ fm_off e ∧ op_newest o = pt_newest (fl_part l) ∧ op_end o = fin)%Z).
  { assert (Hok' := Hok). unfold open_reorg, open_part in Ho. destruct (warm_start _ _ _ _ _) as [[s so]|] eqn:Ew; [|done]. injection Ho as <-. cbn in *.
    split; [|done]. eapply (warm_start_le _ _ _ _ l s so e Hok Ew).
    assert (Hin : e ∈ from_offset l s ++ new) by (rewrite E; apply elem_of_list_here).
    destruct Hok' as (Hp & Hso & Hh). apply elem_of_list_filter. split; [|by apply last_in].
    unfold warm_start in Ew. apply last_Some in Hl as [l' El]. rewrite El in Hh. apply Forall_app in Hh as [_ Hh]. rewrite Forall_singleton in Hh. unfold held, partition_ok in *.
    rewrite bool_decide_eq_true_2 in Ew by done. rewrite bool_decide_eq_true_2 in Ew by lia. cbn [andb] in Ew.
    unfold consume_partition, OffsetNewest, OffsetOldest in Ew. rewrite Hn in Ew. repeat case_bool_decide; simplify_eq; lia. }
  destruct Hs as (Hs1 & Hs2 & Hs3). destruct o as [ms st nw en]. cbn in E, Hs1, Hs2, Hs3. subst ms nw en.
  eexists _, 0, e, []. split; [|split].
  - eapply rtc_l. { eapply (RArrive _ _ _ _ _ _ _ 0); [reflexivity|exact Hs1]. }
    eapply rtc_l. { eapply (RRelease _ _ _ _ _ _ _ 0 e new false _ fin); [reflexivity| |lia|cbn; lia]. constructor; [right; by eexists|constructor]. }
    eapply rtc_l. { eapply (RPut _ _ _ _ _ _ _ 0); reflexivity. }
    apply rtc_refl.
  - reflexivity.
  - cbn. unfold wg_after, key_type in *. destruct (fm_key e) as [|t k]; [done|]. cbn in Ht. injection Ht as ->. done.
Qed.
(** The counter along a topic *)
Lemma wg_data ds wg : Forall (λ m, key_type m ≠ Some ReorgType ∧ key_type m ≠ Some ReorgCompleteType) ds → wg_run true ds wg = Some wg.
Proof.
  intros H. revert wg. induction H as [|m ds [H1 H2] _ IH]; intros wg; [done|]. cbn. unfold wg_after, key_type in *. destruct (fm_key m) as [|t k]; [apply IH|].
  cbn in H1, H2. rewrite !bool_decide_eq_false_2 by congruence. apply IH.
Qed.
Lemma reorg_counter ms pre rest : reorg_topic ms → ms = pre ++ rest → pre ≠ [] → wg_run true pre 0 = Some 0%Z → rest = [].
Proof.
  intros (b & ds & e & -> & Hb & He & Hds) E Hne Hw. destruct rest as [|x rest _] using rev_ind; [done|]. exfalso.
  destruct pre as [|b' pre]; [done|]. cbn in E. injection E as <- E. rewrite app_assoc in E. apply app_inj_2 in E as [E _]; [|done].
  rewrite E in Hds. apply Forall_app in Hds as [Hds _]. cbn [wg_run] in Hw. unfold wg_after in Hw. unfold key_type in Hb. destruct (fm_key b) as [|t k]; [done|].
  cbn in Hb. injection Hb as ->. rewrite bool_decide_eq_true_2 in Hw by done. rewrite wg_data in Hw by done. done.
Qed.
(** The signal waits for the end of the reorganisation. *)
Lemma reorg_early_complete l new fin get o s : log_ok l → opened_early l → get = true ∨ fl_msgs l = [] → open_reorg get l new fin = Some o →
  reorg_topic (fl_msgs l ++ new) → rtc (ready_step true true) (ready_init [o]) s → sent s → (rs_done s).*2 = fl_msgs l ++ new.
Proof.
  intros Hok He Hg Ho Hr H. assert (E := open_early _ _ _ _ _ Hok He Hg Ho). rewrite <- E in *. clear E Hok He Hg Ho.
  revert s H. apply (rtc_ind_r (λ s, sent s → (rs_done s).*2 = op_msgs o)); [done|]. intros s1 s2 H1 Hst IH Hs.
  assert (H2 : rtc (ready_step true true) (ready_init [o]) s2) by (by eapply rtc_r).
  assert (P1 := ready_order _ _ _ _ 0 o H1 eq_refl). assert (P2 := ready_order _ _ _ _ 0 o H2 eq_refl).
  rewrite (ready_single _ _ _ _ H1) in P1. rewrite (ready_single _ _ _ _ H2) in P2. assert (Hi := rinv_reach _ _ _ _ H1).
  destruct Hst as [| | | |ps i m ch dn wg wg' g Hwg| | |ps ch dn]; try (by apply IH); try done.
  - cbn [rs_done] in *. specialize (IH Hs). exfalso. destruct P2 as [r Er]. rewrite fmap_app, IH in Er. apply (f_equal length) in Er.
    rewrite !app_length in Er. cbn in Er. lia.
  - cbn [rs_done] in *. clear IH. destruct P2 as [rest Er]. assert (rest = []) as ->; [|by rewrite app_nil_r in Er].
    eapply reorg_counter; [exact Hr|exact Er| |apply (ri_wg _ _ _ _ Hi)].
    assert (Hne := ri_some _ _ _ _ Hi (or_introl eq_refl) eq_refl 0 o eq_refl). cbn [rs_done] in Hne.
    assert (E := ready_single _ _ _ _ H1). unfold handled in E. cbn [rs_done] in E. by rewrite <- E.
Qed.
(** ... and it comes. *)
Lemma reorg_wg_prefix ms pre m rest : reorg_topic ms → ms = pre ++ m :: rest → ∃ wg, wg_run true pre 0 = Some wg ∧ is_Some (wg_after true wg m).
Proof.
  intros (b & ds & e & -> & Hb & He & Hds) E. unfold key_type in *.
  assert (Hwb : wg_after true 0 b = Some 1%Z). { unfold wg_after. destruct (fm_key b) as [|t k]; [done|]. cbn in Hb. injection Hb as ->. by rewrite bool_decide_eq_true_2. }
  destruct pre as [|b' pre]; [exists 0%Z; split; [done|]; cbn in E; injection E as <- _; rewrite Hwb; by eexists|].
  cbn in E. injection E as <- E. exists 1%Z. destruct rest as [|x rest _] using rev_ind.
  - apply app_inj_2 in E as [<- Em]; [|done]. injection Em as <-. cbn [wg_run]. rewrite Hwb. rewrite wg_data by done. split; [done|].
    unfold wg_after. destruct (fm_key e) as [|t k]; [done|]. cbn in He. injection He as ->. by eexists.
  - rewrite app_comm_cons, app_assoc in E. apply app_inj_2 in E as [E _]; [|done]. rewrite E in Hds. apply Forall_app in Hds as [H1 H2]. cbn [wg_run]. rewrite Hwb.
    rewrite wg_data by done. split; [done|]. inversion H2 as [|? ? [Hm1 Hm2] _]. subst. unfold wg_after. destruct (fm_key m) as [|t k]; [by eexists|].
    cbn in Hm1, Hm2. rewrite !bool_decide_eq_false_2 by congruence. by eexists.
Qed.
Lemma reorg_wg_all ms : reorg_topic ms → wg_run true ms 0 = Some 0%Z.
Proof.
  intros (b & ds & e & -> & Hb & He & Hds). unfold key_type in *.
  assert (Hwb : wg_after true 0 b = Some 1%Z). { unfold wg_after. destruct (fm_key b) as [|t k]; [done|]. cbn in Hb. injection Hb as ->. by rewrite bool_decide_eq_true_2. }
  cbn [wg_run]. rewrite Hwb, wg_run_app, wg_data by done. cbn. unfold wg_after. destruct (fm_key e) as [|t k]; [done|]. cbn in He. by injection He as ->.
Qed.
Lemma reorg_early_progress prompt l new fin get o s : log_ok l → opened_early l → get = true ∨ fl_msgs l = [] → open_reorg get l new fin = Some o →
  reorg_topic (fl_msgs l ++ new) → opened_ok o → ends_held o → rtc (ready_step prompt true) (ready_init [o]) s → ¬ sent s → ∃ s', ready_step prompt true s s'.
Proof.
  intros Hok He Hg Ho Hr Hoo Heh H. assert (E := open_early _ _ _ _ _ Hok He Hg Ho). rewrite <- E in Hr. clear E Hok He Hg Ho.
  assert (Hi := rinv_reach _ _ _ _ H). assert (Hw := ri_wg _ _ _ _ Hi). assert (E1 := ready_single _ _ _ _ H). unfold handled in E1.
  destruct (lookup_lt_is_Some_2 (rs_parts s) 0) as [p Hp]; [rewrite (ri_len _ _ _ _ Hi); cbn; lia|].
  assert (Hpi := pi_all _ _ _ _ (ri_part _ _ _ _ Hi 0 o p eq_refl Hp)). unfold seen in Hpi. rewrite put_out_app, E1 in Hpi.
  apply (ready_progress_gen prompt true [o]); [by apply Forall_singleton|done| |].
  - intros i m ch Ech. assert (Hin : (i, m) ∈ rs_done s ++ rs_chan s) by (rewrite Ech; apply elem_of_app; right; apply elem_of_list_here).
    destruct (ready_idx _ _ _ _ H i m Hin) as [o' Hi0]. assert (i = 0) as -> by (destruct i; [done|by destruct i]).
    rewrite Ech in Hpi. change ((0, m) :: ch) with ([(0, m)] ++ ch) in Hpi. rewrite put_out_app, put_out_one in Hpi.
    destruct (reorg_wg_prefix (op_msgs o) ((rs_done s).*2) m (put_out 0 ch ++ hold_list p ++ wait_hand p ++ cp_todo p) Hr) as (wg & Hw' & Hm).
    + rewrite <- Hpi. rewrite <- !app_assoc. done.
    + rewrite Hw' in Hw. injection Hw as ->. done.
  - intros Ech Hq. destruct (Hq 0 p Hp) as (Hh & Hwt & Htd). rewrite Ech, Hh, Hwt, Htd in Hpi. cbn in Hpi. rewrite !app_nil_r in Hpi.
    rewrite Hpi, (reorg_wg_all _ Hr) in Hw. by injection Hw.
Qed.
