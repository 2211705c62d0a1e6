(** Proofs for C75. *)
From Verif Require Import Base Types Kafka Counting SpecPipeline SpecCounting.

Definition pend (w : writer) : list (hash * Z) := match w with WIdle => [] | WTimed h t | WIn h t => [(h, t)] end.
Definition wf (s : counting) : Prop :=
  (∀ h v, ct_pt s !! h = Some v → (v ≤ ct_now s)%Z) ∧
  ∀ x, x ∈ pend (ct_wr s) → (x.2 ≤ ct_now s)%Z ∧ ∀ h v, ct_pt s !! h = Some v → (v ≤ x.2)%Z.
Definition rel (pt : gmap hash Z) (bs : list (hash * Z)) : Prop :=
  (∀ h v, pt !! h = Some v → (h, v) ∈ bs) ∧ (∀ h v, (h, v) ∈ bs → ∃ v', pt !! h = Some v' ∧ (v ≤ v')%Z).
Definition grown (pt pt' : gmap hash Z) : Prop := ∀ h v, pt !! h = Some v → ∃ v', pt' !! h = Some v' ∧ (v ≤ v')%Z.
Lemma grown_refl pt : grown pt pt.
Proof. intros h v H. exists v. split; [done|lia]. Qed.

Lemma upd_eq (pt : gmap hash Z) h t : (tracker_update pt h t : gmap hash Z) !! h = Some t.
Proof. apply lookup_insert. Qed.
Lemma upd_ne (pt : gmap hash Z) h h' t : h ≠ h' → (tracker_update pt h t : gmap hash Z) !! h' = pt !! h'.
Proof. apply lookup_insert_ne. Qed.

(** The parts of the state other than the calls. *)
Lemma next_same i k s s' : c_step (ANext i k) s = Some (Some s') → ct_now s' = ct_now s ∧ ct_pt s' = ct_pt s ∧ ct_wr s' = ct_wr s ∧ length (ct_calls s') = length (ct_calls s).
Proof.
  cbn [c_step]. destruct (ct_calls s !! i) as [[d seen todo n|n]|]; [|done|done]. destruct k as [h|].
  - destruct (ct_pt s !! h) as [v|]; [|done]. cbn [mbind option_bind]. case_bool_decide; [done|]. destruct (ct_wr s) eqn:E; intros H'; simplify_eq; cbn; by rewrite insert_length.
  - case_bool_decide; [|done]. destruct (ct_wr s) eqn:E; intros H'; simplify_eq; cbn; by rewrite insert_length.
Qed.
Lemma wf_step a s s' : wf s → c_step a s = Some (Some s') → wf s' ∧ grown (ct_pt s) (ct_pt s') ∧ (ct_now s ≤ ct_now s')%Z.
Proof.
  intros [W1 W2] H. destruct a as [dt|h| | |d|i k].
  - injection H as <-. split; [|split; [apply grown_refl|cbn; lia]]. split; cbn.
    + intros h v Hh. specialize (W1 _ _ Hh). lia.
    + intros x Hx. destruct (W2 x Hx) as [G1 G2]. split; [lia|done].
  - cbn in H. destruct (ct_wr s) eqn:E; [|done|done]. injection H as <-. split; [|split; [apply grown_refl|cbn; lia]]. split; cbn; [done|].
    intros x Hx. apply (proj1 (elem_of_list_singleton _ _)) in Hx as ->. cbn. split; [lia|done].
  - cbn in H. destruct (ct_wr s) eqn:E; [done| |done]. injection H as <-. split; [|split; [apply grown_refl|cbn; lia]]. split; cbn; [done|]. exact W2.
  - cbn in H. destruct (ct_wr s) as [| |h t] eqn:E; [done|done|]. injection H as <-. destruct (W2 (h, t)) as [G1 G2]; [by left|]. cbn in G1, G2. split; [|split; [|cbn; lia]].
    + split; cbn [ct_pt ct_now ct_wr pend]; [|intros x Hx; by apply elem_of_nil in Hx].  intros h' v Hh.
      destruct (decide (h = h')) as [<-|Hn]; [rewrite upd_eq in Hh; by injection Hh as <-|]. rewrite upd_ne in Hh by done. by eapply W1.
    + cbn [ct_pt].  intros h' v Hh. destruct (decide (h = h')) as [<-|Hn].
      * exists t. rewrite upd_eq. split; [done|]. by eapply G2.
      * exists v. rewrite upd_ne by done. split; [done|lia].
  - injection H as <-. split; [done|]. split; [apply grown_refl|cbn; lia].
  - destruct (next_same _ _ _ _ H) as (E1 & E2 & E3 & _). unfold wf. rewrite E1, E2, E3. split; [done|]. split; [apply grown_refl|lia].
Qed.
Lemma c_run_cons a l s s' : c_run s (a :: l) = Some (Some s') ↔ ∃ s1, c_step a s = Some (Some s1) ∧ c_run s1 l = Some (Some s').
Proof.
  cbn. destruct (c_step a s) as [[s1|]|].
  - split; [by exists s1|]. by intros (? & [= <-] & ?).
  - split; [by case_bool_decide|]. by intros (? & [=] & _).
  - split; [done|]. by intros (? & [=] & _).
Qed.
Lemma c_run_app l l' s s' : c_run s (l ++ l') = Some (Some s') → ∃ s1, c_run s l = Some (Some s1) ∧ c_run s1 l' = Some (Some s').
Proof.
  revert s. induction l as [|a l IH]; intros s H; [by exists s|]. cbn [app] in H. apply c_run_cons in H as (s1 & H1 & H2).
  destruct (IH _ H2) as (s2 & H3 & H4). exists s2. split; [|done]. apply c_run_cons. eauto.
Qed.
(** What a step adds to the heartbeats dealt with. *)
Lemma heard_step a l s s' : c_step a s = Some (Some s') →
  heard_from (ct_now s) (pend (ct_wr s)) (a :: l) = (match a with AWritten => pend (ct_wr s) | _ => [] end) ++ heard_from (ct_now s') (pend (ct_wr s')) l.
Proof.
  intros H. destruct a as [dt|h| | |d|i k].
  - by injection H as <-.
  - cbn in H. destruct (ct_wr s) eqn:E; [|done|done]. by injection H as <-.
  - cbn in H. destruct (ct_wr s) eqn:E; [done| |done]. by injection H as <-.
  - cbn in H. destruct (ct_wr s) as [| |h t] eqn:E; [done|done|]. by injection H as <-.
  - by injection H as <-.
  - destruct (next_same _ _ _ _ H) as (E1 & E2 & E3 & _). by rewrite E1, E3.
Qed.
Lemma rel_step a s s' bs : wf s → rel (ct_pt s) bs → c_step a s = Some (Some s') →
  rel (ct_pt s') (bs ++ match a with AWritten => pend (ct_wr s) | _ => [] end).
Proof.
  intros W R H. destruct a as [dt|h| | |d|i k].
  - injection H as <-. by rewrite app_nil_r.
  - cbn in H. destruct (ct_wr s) eqn:E; [|done|done]. injection H as <-. by rewrite app_nil_r.
  - cbn in H. destruct (ct_wr s) eqn:E; [done| |done]. injection H as <-. by rewrite app_nil_r.
  - cbn in H. destruct W as [_ W]. destruct (ct_wr s) as [| |h t] eqn:E; [done|done|]. injection H as <-. cbn [ct_pt pend].  destruct R as [R1 R2].
    destruct (W (h, t)) as [_ G]; [by left|]. cbn in G. split.
    + intros h' v Hh. apply elem_of_app. destruct (decide (h = h')) as [<-|Hn].
      * rewrite upd_eq in Hh. injection Hh as <-. right. left.
      * rewrite upd_ne in Hh by done. left. by apply R1.
    + intros h' v [Hv|Hv]%elem_of_app.
      * destruct (R2 _ _ Hv) as (v' & Hv' & Hle). destruct (decide (h = h')) as [<-|Hn].
        -- exists t. rewrite upd_eq. split; [done|]. specialize (G _ _ Hv'). lia.
        -- exists v'. by rewrite upd_ne.
      * apply (proj1 (elem_of_list_singleton _ _)) in Hv. injection Hv as -> ->. exists t. rewrite upd_eq. split; [done|lia].
  - injection H as <-. by rewrite app_nil_r.
  - destruct (next_same _ _ _ _ H) as (E1 & E2 & E3 & _). by rewrite E2, app_nil_r.
Qed.
Lemma run_facts l s s' bs : wf s → rel (ct_pt s) bs → c_run s l = Some (Some s') →
  wf s' ∧ rel (ct_pt s') (bs ++ heard_from (ct_now s) (pend (ct_wr s)) l) ∧ ct_now s' = time_after (ct_now s) l ∧ length (ct_calls s') = length (ct_calls s) + begun l ∧
  ∀ l', heard_from (ct_now s) (pend (ct_wr s)) (l ++ l') = heard_from (ct_now s) (pend (ct_wr s)) l ++ heard_from (ct_now s') (pend (ct_wr s')) l'.
Proof.
  revert s bs. induction l as [|a l IH]; intros s bs W R H.
  - injection H as <-. cbn. rewrite app_nil_r. split; [done|]. split; [done|]. split; [done|]. split; [lia|done].
  - apply c_run_cons in H as (s1 & H1 & H2). destruct (wf_step _ _ _ W H1) as (W1 & _ & _). assert (R1 := rel_step _ _ _ _ W R H1).
    destruct (IH _ _ W1 R1 H2) as (G1 & G2 & G3 & G4 & G5). split; [done|]. split.
    { rewrite (heard_step a l s s1 H1), app_assoc. exact G2. }
    split.
    { rewrite G3. destruct a as [dt|h| | |d|i k]; try (by cbn in H1; destruct (ct_wr s); simplify_eq).
      destruct (next_same _ _ _ _ H1) as (E1 & _). cbn. by rewrite E1. }
    split.
    { rewrite G4. destruct a as [dt|h| | |d|i k]; try (by cbn in H1; destruct (ct_wr s); simplify_eq).
      - injection H1 as <-. cbn. rewrite app_length. cbn. lia.
      - destruct (next_same _ _ _ _ H1) as (_ & _ & _ & E1). cbn. by rewrite E1. }
    intros l'. cbn [app]. rewrite (heard_step a (l ++ l') s s1 H1), (heard_step a l s s1 H1), G5. by rewrite app_assoc.
Qed.

(** * One call *)
Definition tally (t0 : Z) (pt0 : gmap hash Z) (d : Z) (s : counting) (seen todo : gset hash) (n : nat) : Prop :=
  ∃ C : gset hash, size C = n ∧ C ⊆ seen ∧ (∀ h, h ∈ C → ∃ v, ct_pt s !! h = Some v ∧ (t0 - v < d)%Z) ∧
    ∀ h v, pt0 !! h = Some v → h ∉ todo → h ∈ C ∨ (d ≤ ct_now s - v)%Z.
Definition kinv (t0 : Z) (pt0 : gmap hash Z) (d : Z) (i : nat) (s : counting) : Prop :=
  (t0 ≤ ct_now s)%Z ∧ grown pt0 (ct_pt s) ∧
  match ct_calls s !! i with
  | Some (CRun d' seen todo n) => d' = d ∧ tally t0 pt0 d s seen todo n
  | Some (CDone n) => ∃ seen, tally t0 pt0 d s seen ∅ n
  | None => False
  end.
Lemma tally_mono t0 pt0 d s s' seen todo n : grown (ct_pt s) (ct_pt s') → (ct_now s ≤ ct_now s')%Z → tally t0 pt0 d s seen todo n → tally t0 pt0 d s' seen todo n.
Proof.
  intros G T (C & E & Hs & H1 & H2). exists C. split; [done|]. split; [done|]. split.
  - intros h Hh. destruct (H1 h Hh) as (v & Hv & Hd). destruct (G _ _ Hv) as (v' & Hv' & Hle). exists v'. split; [done|lia].
  - intros h v Hv Ht. destruct (H2 h v Hv Ht); [by left|right; lia].
Qed.
Lemma grown_trans a b c : grown a b → grown b c → grown a c.
Proof. intros H1 H2 h v Hh. destruct (H1 _ _ Hh) as (v1 & E1 & L1). destruct (H2 _ _ E1) as (v2 & E2 & L2). exists v2. split; [done|lia]. Qed.
Lemma kinv_step t0 pt0 d i a s s' : wf s → kinv t0 pt0 d i s → c_step a s = Some (Some s') → kinv t0 pt0 d i s'.
Proof.
  intros W (K1 & K2 & K3) H. destruct (wf_step _ _ _ W H) as (_ & Hg & Ht). split; [lia|]. split; [by eapply grown_trans|].
  assert (Keep : ct_calls s' !! i = ct_calls s !! i → match ct_calls s' !! i with
    | Some (CRun d' seen todo n) => d' = d ∧ tally t0 pt0 d s' seen todo n | Some (CDone n) => ∃ seen, tally t0 pt0 d s' seen ∅ n | None => False end).
  { intros ->. destruct (ct_calls s !! i) as [[d' seen todo n|n]|]; [|destruct K3 as [seen K3]; exists seen|done].
    - destruct K3 as [-> K3]. split; [done|]. by eapply tally_mono.
    - by eapply tally_mono. }
  destruct a as [dt|h| | |d0|j k].
  - apply Keep. by injection H as <-.
  - apply Keep. cbn in H. destruct (ct_wr s); simplify_eq; done.
  - apply Keep. cbn in H. destruct (ct_wr s); simplify_eq; done.
  - apply Keep. cbn in H. destruct (ct_wr s); simplify_eq; done.
  - apply Keep. injection H as <-. cbn [ct_calls]. rewrite lookup_app_l; [done|]. apply lookup_lt_is_Some. destruct (ct_calls s !! i); [eauto|done].
  - destruct (decide (j = i)) as [->|Hn].
    2: { apply Keep. cbn [c_step] in H. destruct (ct_calls s !! j) as [[d' seen todo n|n]|]; [|done|done]. destruct k as [h|].
         - destruct (ct_pt s !! h); [|done]. cbn [mbind option_bind] in H. case_bool_decide; [done|]. destruct (ct_wr s); simplify_eq; cbn [ct_calls]; by rewrite list_lookup_insert_ne.
         - case_bool_decide; [|done]. destruct (ct_wr s); simplify_eq; cbn [ct_calls]; by rewrite list_lookup_insert_ne. }
    destruct (next_same _ _ _ _ H) as (E1 & E2 & _ & _). cbn [c_step] in H. destruct (ct_calls s !! i) as [[d' seen todo n|n]|] eqn:Ei; [|done|done].
    assert (Hlt : i < length (ct_calls s)) by (by eapply lookup_lt_Some). destruct K3 as [-> (C & Es & Hs & H1 & H2)]. destruct k as [h|].
    + destruct (ct_pt s !! h) as [v|] eqn:Ev; [|done]. cbn [mbind option_bind] in H. case_bool_decide as Hh; [done|].
      assert (T : tally t0 pt0 d s ({[h]} ∪ seen) (todo ∖ {[h]}) (if bool_decide (ct_now s - v < d)%Z then S n else n)).
      { case_bool_decide as Hd.
        - exists ({[h]} ∪ C). split; [rewrite size_union, size_singleton by set_solver; lia|]. split; [set_solver|]. split.
          + intros h' [->%elem_of_singleton|Hh']%elem_of_union; [|by apply H1]. exists v. split; [done|lia].
          + intros h' v' Hv' Ht'. destruct (decide (h' = h)) as [->|Hn]; [left; set_solver|]. destruct (H2 h' v' Hv'); [set_solver|left; set_solver|by right].
        - exists C. split; [done|]. split; [set_solver|]. split; [done|]. intros h' v' Hv' Ht'. destruct (decide (h' = h)) as [->|Hn].
          + right. destruct (K2 _ _ Hv') as (v2 & Hv2 & Hle). rewrite Ev in Hv2. injection Hv2 as <-. lia.
          + apply (H2 h' v' Hv'). set_solver. }
      destruct (ct_wr s); simplify_eq; cbn [ct_calls]; rewrite list_lookup_insert by done; split; done.
    + case_bool_decide as Ht'; [|done]. subst todo. assert (T : ∃ seen, tally t0 pt0 d s seen ∅ n) by (exists seen, C; done).
      destruct (ct_wr s); simplify_eq; cbn [ct_calls]; rewrite list_lookup_insert by done; done.
Qed.
Lemma kinv_run t0 pt0 d i l s s' : wf s → kinv t0 pt0 d i s → c_run s l = Some (Some s') → kinv t0 pt0 d i s'.
Proof.
  revert s. induction l as [|a l IH]; intros s W K H; [by injection H as <-|]. apply c_run_cons in H as (s1 & H1 & H2).
  destruct (wf_step _ _ _ W H1) as (W1 & _). apply (IH s1 W1); [by apply (kinv_step _ _ _ _ a s s1)|done].
Qed.

Lemma counted now l1 d l2 s n : c_run (ct_new now) (l1 ++ ABegin d :: l2) = Some (Some s) → ct_calls s !! begun l1 = Some (CDone n) →
  at_most (alive (heard now l1) (time_after now (l1 ++ ABegin d :: l2)) d) n ∧
  at_least (alive (heard now (l1 ++ ABegin d :: l2)) (time_after now l1) d) n.
Proof.
  intros H Hc. assert (W0 : wf (ct_new now)) by (split; [intros h v Hh; cbn in Hh; by rewrite lookup_empty in Hh|intros x Hx; by apply elem_of_nil in Hx]).
  assert (R0 : rel (ct_pt (ct_new now)) []) by (split; [intros h v Hh; cbn in Hh; by rewrite lookup_empty in Hh|intros h v Hx; by apply elem_of_nil in Hx]).
  destruct (run_facts _ _ _ _ W0 R0 H) as (_ & [RA _] & TA & _). apply c_run_app in H as (s1 & H1 & H2).
  destruct (run_facts _ _ _ _ W0 R0 H1) as (W1 & [_ RB] & TB & LB & _). apply c_run_cons in H2 as (s1' & E & H2). injection E as <-.
  assert (K : kinv (ct_now s1) (ct_pt s1) d (begun l1) s).
  { eapply kinv_run; [|shelve|exact H2]. exact W1.
    Unshelve. split; [cbn; lia|]. split; [apply grown_refl|]. cbn [ct_calls]. cbn in LB. rewrite <- LB, lookup_app_r, Nat.sub_diag by done. cbn.
    split; [done|]. exists ∅. split; [apply size_empty|]. split; [done|]. split; [set_solver|]. intros h v Hv Ht. cbn in Ht. destruct Ht. by eapply elem_of_dom_2. }
  destruct K as (K1 & K2 & K3). rewrite Hc in K3. destruct K3 as (seen & C & Es & _ & C1 & C2). split.
  - intros X HX. rewrite <- Es. apply subseteq_size. intros h Hh. destruct (HX h Hh) as (v & Hv & Hd). destruct (RB h v Hv) as (v0 & Hv0 & Hle).
    destruct (C2 h v0 Hv0) as [?|Hx]; [set_solver|done|]. cbn in TA. rewrite <- TA in Hd. lia.
  - exists C. split; [done|]. intros h Hh. destruct (C1 h Hh) as (v & Hv & Hd). exists v. split; [by apply RA|]. cbn in TB. by rewrite <- TB.
Qed.

(** * A call comes to its end *)
Lemma call_ends i s d seen todo n : ct_calls s !! i = Some (CRun d seen todo n) → todo ⊆ dom (ct_pt s) ∖ seen → (∀ h t, ct_wr s ≠ WIn h t) →
  inevitably (loops i) (λ s', ∃ n, ct_calls s' !! i = Some (CDone n)) s.
Proof.
  remember (size (dom (ct_pt s) ∖ seen)) as m eqn:Em. revert s seen todo n Em. induction (lt_wf m) as [m _ IH]. intros s seen todo n -> Hi Ht Hw.
  assert (Hlt : i < length (ct_calls s)) by (by eapply lookup_lt_Some).
  apply inev_later.
  - destruct (decide (todo = ∅)) as [->|Hne].
    + destruct (ct_wr s) as [| |h t] eqn:Ew; [| |by destruct (Hw h t)]; eexists; exists None; cbn [c_step]; rewrite Hi, bool_decide_eq_true_2 by done; by rewrite Ew.
    + apply set_choose_L in Hne as [h Hh]. assert (Hd : h ∈ dom (ct_pt s)) by set_solver. apply elem_of_dom in Hd as [v Hv].
      destruct (ct_wr s) as [| |h' t] eqn:Ew; [| |by destruct (Hw h' t)]; eexists; exists (Some h); cbn [c_step]; rewrite Hi, Hv; cbn [mbind option_bind];
        rewrite bool_decide_eq_false_2 by set_solver; by rewrite Ew.
  - intros s' [k Hk]. assert (Hs := next_same _ _ _ _ Hk). destruct Hs as (_ & E2 & E3 & _). cbn [c_step] in Hk. rewrite Hi in Hk. destruct k as [h|].
    + destruct (ct_pt s !! h) as [v|] eqn:Hv; [|done]. cbn [mbind option_bind] in Hk. case_bool_decide as Hh; [done|].
      assert (Hc : ∃ n', ct_calls s' !! i = Some (CRun d ({[h]} ∪ seen) (todo ∖ {[h]}) n')).
      { destruct (ct_wr s); simplify_eq; cbn [ct_calls]; rewrite list_lookup_insert by done; eauto. }
      destruct Hc as [n' Hc]. eapply IH; [|done|exact Hc| |by rewrite E3].
      * rewrite E2. apply subset_size. apply elem_of_dom_2 in Hv. set_solver.
      * rewrite E2. set_solver.
    + case_bool_decide; [|done]. apply inev_now. destruct (ct_wr s); simplify_eq; cbn [ct_calls]; rewrite list_lookup_insert by done; eauto.
Qed.
Definition going (s : counting) : Prop := ∀ i d seen todo n, ct_calls s !! i = Some (CRun d seen todo n) → todo ⊆ dom (ct_pt s) ∖ seen.
Lemma grown_dom pt pt' : grown pt pt' → dom pt ⊆ dom pt'.
Proof. intros G h [v Hv]%elem_of_dom. destruct (G _ _ Hv) as (v' & Hv' & _). by eapply elem_of_dom_2. Qed.
Lemma going_step a s s' : wf s → going s → c_step a s = Some (Some s') → going s'.
Proof.
  intros W G H. destruct (wf_step _ _ _ W H) as (_ & Hg & _). apply grown_dom in Hg. intros i d seen todo n Hi.
  assert (Keep : ct_calls s !! i = Some (CRun d seen todo n) → todo ⊆ dom (ct_pt s') ∖ seen) by (intros Hi'; specialize (G _ _ _ _ _ Hi'); set_solver).
  destruct a as [dt|h| | |d0|j k].
  - apply Keep. by injection H as <-.
  - apply Keep. cbn in H. destruct (ct_wr s); simplify_eq; done.
  - apply Keep. cbn in H. destruct (ct_wr s); simplify_eq; done.
  - apply Keep. cbn in H. destruct (ct_wr s); simplify_eq; done.
  - injection H as <-. cbn [ct_calls ct_pt] in *. apply lookup_app_Some in Hi as [Hi|[_ Hi]]; [by apply Keep|].
    apply list_lookup_singleton_Some in Hi as [_ Hi]. injection Hi as <- <- <- <-. set_solver.
  - destruct (next_same _ _ _ _ H) as (_ & E2 & _ & _). cbn [c_step] in H. destruct (ct_calls s !! j) as [[d' seen' todo' n'|n']|] eqn:Ej; [|done|done].
    assert (Hlt : j < length (ct_calls s)) by (by eapply lookup_lt_Some). destruct k as [h|].
    + destruct (ct_pt s !! h) as [v|] eqn:Hv; [|done]. cbn [mbind option_bind] in H. case_bool_decide as Hh; [done|].
      assert (Hc : ∃ n1, ct_calls s' = <[j := CRun d' ({[h]} ∪ seen') (todo' ∖ {[h]}) n1]> (ct_calls s)) by (destruct (ct_wr s); simplify_eq; cbn [ct_calls]; eauto).
      destruct Hc as [n1 Hc]. rewrite Hc in Hi. destruct (decide (j = i)) as [->|Hn]; [|rewrite list_lookup_insert_ne in Hi by done; by apply Keep].
      rewrite list_lookup_insert in Hi by done. injection Hi as <- <- <- <-. specialize (G _ _ _ _ _ Ej). rewrite E2. set_solver.
    + case_bool_decide; [|done]. assert (Hc : ct_calls s' = <[j := CDone n']> (ct_calls s)) by (destruct (ct_wr s); simplify_eq; done).
      rewrite Hc in Hi. destruct (decide (j = i)) as [->|Hn]; [|rewrite list_lookup_insert_ne in Hi by done; by apply Keep].
      rewrite list_lookup_insert in Hi by done. done.
Qed.
Lemma counting_ends now l s i : c_run (ct_new now) l = Some (Some s) → i < begun l → (∀ h t, ct_wr s ≠ WIn h t) →
  inevitably (loops i) (λ s', ∃ n, ct_calls s' !! i = Some (CDone n)) s.
Proof.
  intros H Hi Hw. assert (W0 : wf (ct_new now)) by (split; [intros h v Hh; cbn in Hh; by rewrite lookup_empty in Hh|intros x Hx; by apply elem_of_nil in Hx]).
  assert (R0 : rel (ct_pt (ct_new now)) []) by (split; [intros h v Hh; cbn in Hh; by rewrite lookup_empty in Hh|intros h v Hx; by apply elem_of_nil in Hx]).
  destruct (run_facts _ _ _ _ W0 R0 H) as (_ & _ & _ & Hl & _). cbn in Hl.
  assert (G : going s).
  { assert (G0 : going (ct_new now)) by done. clear -W0 G0 H. revert W0 G0 H. generalize (ct_new now). induction l as [|a l IH]; intros s0 W G H; [by injection H as <-|].
    apply c_run_cons in H as (s1 & H1 & H2). destruct (wf_step _ _ _ W H1) as (W1 & _). apply (IH s1 W1); [by apply (going_step a s0 s1)|done]. }
  destruct (ct_calls s !! i) as [[d seen todo n|n]|] eqn:E.
  - eapply call_ends; [done|by eapply G|done].
  - apply inev_now. by exists n.
  - apply lookup_ge_None in E. lia.
Qed.
