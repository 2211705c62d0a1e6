(** Minimality of reorgs and growth of the head (C21, C22, C23). *)
From Verif Require Import Base Lru LruFacts Types Ordering SpecChain OrderingBase.

Lemma top_weight_app w l1 l2 : top_weight w (l1 ++ l2) = top_weight (top_weight w l1) l2.
Proof. revert w; induction l1 as [|[] l1 IH]; intros w; cbn; auto. Qed.
Lemma top_weight_evicts w l : Forall is_evict l → top_weight w l = w.
Proof. intros H; revert w; induction H as [|[] l He _ IH]; intros w; cbn in *; auto; done. Qed.
Lemma rising_app w l1 l2 : rising w (l1 ++ l2) ↔ rising w l1 ∧ rising (top_weight w l1) l2.
Proof.
  revert w; induction l1 as [|[a r|n h|n] l1 IH]; intros w; cbn; [naive_solver| |auto|auto].
  destruct (last a); [|naive_solver]. rewrite IH. naive_solver.
Qed.
Lemma rising_evicts w l : Forall is_evict l → rising w l.
Proof. intros H; revert w; induction H as [|[] l He _ IH]; intros w; cbn in *; auto; done. Qed.

Lemma top_cons base b l : top base (b :: l) = top (pb_hash b) l.
Proof. unfold top. rewrite last_cons. by destruct (last l). Qed.

Lemma chain_up_app base l1 l2 : chain_up base (l1 ++ l2) ↔ chain_up base l1 ∧ chain_up (top base l1) l2.
Proof.
  revert base; induction l1 as [|b l1 IH]; intros base; cbn [chain_up app].
  - unfold top; cbn. tauto.
  - rewrite IH, top_cons. tauto.
Qed.

Lemma top_snoc base l b : top base (l ++ [b]) = pb_hash b.
Proof. unfold top. by rewrite last_snoc. Qed.

Section grow.
Context (T : tree) (G : pending_batch → Prop) (HG : ∀ b, G b → agree T b).
Context (HGrow : ∀ b, G b → growing T (pb_hash b)).

Lemma G_num b : G b → pb_num b = (t_num T (pb_parent b) + 1)%Z.
Proof.
  intros Hb. destruct (HG _ Hb) as (_ & -> & -> & _). by destruct (HGrow _ Hb) as [-> _].
Qed.
Lemma G_wt b : G b → (t_wt T (pb_parent b) < pb_weight b)%N.
Proof.
  intros Hb. destruct (HG _ Hb) as (_ & -> & _ & ->). by destruct (HGrow _ Hb) as [_ ?].
Qed.
Lemma G_num' b : G b → pb_num b = t_num T (pb_hash b).
Proof. intros Hb. by destruct (HG _ Hb) as (_ & _ & ? & _). Qed.
Lemma G_wt' b : G b → pb_weight b = t_wt T (pb_hash b).
Proof. intros Hb. by destruct (HG _ Hb) as (_ & _ & _ & ?). Qed.
Lemma G_par b : G b → pb_parent b = t_par T (pb_hash b).
Proof. intros Hb. by destruct (HG _ Hb) as (_ & ? & _). Qed.

Lemma chain_up_num base l b :
  chain_up base l → Forall G l → b ∈ l → (t_num T base < pb_num b)%Z.
Proof.
  revert base; induction l as [|x l IH]; intros base Hc HGl Hb; [by apply elem_of_nil in Hb|].
  destruct Hc as [<- Hc]. apply Forall_cons in HGl as [Hx Hl].
  pose proof (G_num x Hx). pose proof (G_num' x Hx). apply elem_of_cons in Hb as [->|Hb]; [lia|].
  specialize (IH _ Hc Hl Hb). lia.
Qed.

Lemma chain_up_NoDup base l : chain_up base l → Forall G l → NoDup (map pb_hash l).
Proof.
  revert base; induction l as [|x l IH]; intros base Hc HGl; cbn; [constructor|].
  destruct Hc as [<- Hc]. apply Forall_cons in HGl as [Hx Hl]. constructor; [|by eapply IH].
  intros (y & Hy & Hin)%elem_of_list_fmap.
  pose proof (chain_up_num _ _ _ Hc Hl Hin). rewrite Forall_forall in Hl.
  rewrite (G_num' y) in H by auto. rewrite Hy in H. lia.
Qed.

(** In a path, the parent of each block is the base or a block of the path. *)
Lemma chain_up_parent base l b :
  chain_up base l → b ∈ l → pb_parent b = base ∨ ∃ b', b' ∈ l ∧ pb_hash b' = pb_parent b.
Proof.
  revert base; induction l as [|x l IH]; intros base Hc Hb; [by apply elem_of_nil in Hb|].
  destruct Hc as [<- Hc]. apply elem_of_cons in Hb as [->|Hb]; [by left|]. right.
  destruct (IH _ Hc Hb) as [E|(b' & Hb' & E)].
  - exists x. split; [apply elem_of_list_here|done].
  - exists b'. split; [by apply elem_of_list_further|done].
Qed.

Definition disj (l1 l2 : list pending_batch) : Prop :=
  ∀ x y, x ∈ l1 → y ∈ l2 → pb_hash x ≠ pb_hash y.

(** Extending the added path keeps it disjoint from the removed path. *)
Lemma disj_extend base new old b :
  new ≠ [] → chain_up base new → chain_up base old → Forall G new → Forall G old → G b →
  disj new old → pb_parent b = top base new → disj (new ++ [b]) old.
Proof.
  intros Hne Hn Ho HGn HGo Hb Hd Hp x y [Hx|Hx%elem_of_list_singleton]%elem_of_app Hy; [by apply Hd|].
  subst x. intros E.
  assert (HGy : G y) by (rewrite Forall_forall in HGo; auto).
  assert (Hpy : pb_parent y = pb_parent b) by (rewrite (G_par y), (G_par b); congruence).
  assert (∃ z, last new = Some z ∧ z ∈ new) as (z & Hz & Hzin).
  { destruct (last new) as [z|] eqn:Ez; [|by apply last_None in Ez].
    exists z. split; [done|]. apply last_Some in Ez as [l ->]. apply elem_of_app. right.
    by apply elem_of_list_singleton. }
  unfold top in Hp. rewrite Hz in Hp.
  destruct (chain_up_parent _ _ _ Ho Hy) as [Hbase|(y' & Hy' & Ey')].
  - pose proof (chain_up_num _ _ _ Hn HGn Hzin) as Hlt.
    assert (HGz : G z) by (rewrite Forall_forall in HGn; auto).
    rewrite (G_num' z HGz) in Hlt. rewrite <- Hp, <- Hpy, Hbase in Hlt. lia.
  - apply (Hd z y' Hzin Hy'). congruence.
Qed.

Lemma ancestor_chain base l x :
  chain_up base l → Forall G l → ancestor T x (top base l) →
  ancestor T x base ∨ ∃ b, b ∈ l ∧ pb_hash b = x.
Proof.
  induction l as [|b l IH] using rev_ind; intros Hc HGl Ha; [by left|].
  apply chain_up_app in Hc as [Hc [Hp _]]. apply Forall_app in HGl as [HGl Hb].
  apply Forall_cons in Hb as [Hb _].
  rewrite top_snoc in Ha. inversion Ha as [|a h Ha' E1 E2]; subst.
  - right. exists b. split; [|done]. apply elem_of_app. right. by apply elem_of_list_singleton.
  - rewrite <- (G_par b Hb), Hp in Ha'. destruct (IH Hc HGl Ha') as [?|(b' & ? & ?)]; [by left|].
    right. exists b'. split; [|done]. apply elem_of_app. by left.
Qed.

Lemma minimal_intro base new old :
  new ≠ [] → chain_up base new → chain_up base old → Forall G new → Forall G old → disj new old →
  minimal_update T new old.
Proof.
  intros Hne Hn Ho HGn HGo Hd. exists base. split_and!; try done.
  intros x Hx1 Hx2.
  destruct (ancestor_chain _ _ _ Ho HGo Hx1) as [?|(y & Hy & E1)]; [done|].
  destruct (ancestor_chain _ _ _ Hn HGn Hx2) as [?|(z & Hz & E2)]; [done|].
  exfalso. apply (Hd z y Hz Hy). congruence.
Qed.

(** [prepareReorg] *)
Lemma reorg_walk_min p f pb lw :
  (∀ h b, p !! h = Some b → pb_hash b = h ∧ G b) → (lw < pb_weight pb)%N →
  ∀ nh oh newb rev0 removed added,
  G nh → G oh → Forall G newb → Forall G rev0 →
  (pb_weight oh <= lw)%N →
  (newb = [pb] ∨ (pb_num oh < pb_num nh)%Z) →
  (∃ r, newb = nh :: r) → last newb = Some pb →
  chain_up (pb_parent nh) newb → chain_up (pb_hash oh) rev0 →
  match rev0 with
  | [] => True
  | r0 :: _ => (pb_num nh ≤ pb_num r0 + 1)%Z ∧ pb_parent nh ≠ pb_hash r0
  end →
  disj newb rev0 →
  reorg_walk f p nh oh newb rev0 = Ok (RgOk removed added) →
  ∃ base, last added = Some pb ∧ chain_up base added ∧ chain_up base removed ∧
    Forall G added ∧ Forall G removed ∧ disj added removed.
Proof.
  intros Hp Hlw. induction f as [|f IH];
    intros nh oh newb rev0 removed added Hnh Hoh HGn HGr Hw Hcase [r Enew] Hlast Hcn Hcr Hr0 Hd;
    cbn [reorg_walk]; [discriminate|].
  case_bool_decide as Hnum.
  - destruct (p !! pb_parent nh) as [nh'|] eqn:E; [|discriminate].
    apply Hp in E as [Eh Ha].
    assert (Hn' : pb_num nh' = (pb_num nh - 1)%Z).
    { rewrite (G_num' nh' Ha), Eh. pose proof (G_num nh Hnh). lia. }
    apply IH; try done.
    + by constructor.
    + right. lia.
    + by eexists.
    + destruct newb; [done|exact Hlast].
    + cbn. split; [done|]. by rewrite Eh.
    + destruct rev0 as [|r0 rr]; [done|]. destruct Hr0 as [Hr1 Hr2].
      apply Forall_cons in HGr as [HGr0 HGr]. destruct Hcr as [Hr0p _].
      pose proof (G_num r0 HGr0). rewrite Hr0p, <- (G_num' oh Hoh) in H.
      split; [lia|]. intros E2. pose proof (G_num nh' Ha). rewrite E2, <- (G_num' r0 HGr0) in H0. lia.
    + intros x y [->|Hx]%elem_of_cons Hy; [|by apply Hd].
      destruct rev0 as [|r0 rr]; [by apply elem_of_nil in Hy|]. destruct Hr0 as [Hr1 Hr2].
      apply elem_of_cons in Hy as [->|Hy]; [congruence|].
      apply Forall_cons in HGr as [HGr0 HGr]. destruct Hcr as [Hr0p Hcr].
      pose proof (chain_up_num _ _ _ Hcr HGr Hy) as Hlt.
      intros E2. rewrite (G_num' nh' Ha), E2 in Hn'.
      rewrite Forall_forall in HGr. rewrite <- (G_num' y (HGr y Hy)) in Hn'.
      rewrite <- (G_num' r0 HGr0) in Hlt. lia.
  - case_bool_decide as Hpar.
    + intros [= <- <-]. exists (pb_hash oh). rewrite Hpar at 1. done.
    + destruct (p !! pb_parent oh) as [oh'|] eqn:E; [|discriminate].
      apply Hp in E as [Eh Ha].
      assert (Hn' : pb_num oh' = (pb_num oh - 1)%Z).
      { rewrite (G_num' oh' Ha), Eh. pose proof (G_num oh Hoh). lia. }
      assert (Hw' : (pb_weight oh' < pb_weight oh)%N).
      { rewrite (G_wt' oh' Ha), Eh. apply G_wt, Hoh. }
      apply IH; try done.
      * by constructor.
      * lia.
      * destruct Hcase; [by left|right; lia].
      * by eexists.
      * split; [lia|]. congruence.
      * intros x y Hx [->|Hy]%elem_of_cons; [|by apply Hd].
        intros E2.
        assert (HGx : G x) by (rewrite Forall_forall in HGn; auto).
        destruct Hcase as [Hc|Hc].
        -- rewrite Hc in Hx. apply elem_of_list_singleton in Hx as ->.
           rewrite (G_wt' pb HGx), E2, <- (G_wt' oh Hoh) in Hlw. lia.
        -- subst newb. apply elem_of_cons in Hx as [->|Hx].
           ++ rewrite (G_num' nh Hnh), E2, <- (G_num' oh Hoh) in Hc. lia.
           ++ destruct Hcn as [_ Hcn]. apply Forall_cons in HGn as [_ HGn].
              pose proof (chain_up_num _ _ _ Hcn HGn Hx) as Hlt.
              rewrite (G_num' x HGx), E2, <- (G_num' oh Hoh), <- (G_num' nh Hnh) in Hlt. lia.
Qed.

Lemma prepare_reorg_min s pb lb removed added :
  stored G s → G pb → G lb → (pb_weight lb < pb_weight pb)%N →
  prepare_reorg s pb lb = Ok (RgOk removed added) →
  ∃ base, last added = Some pb ∧ chain_up base added ∧ chain_up base removed ∧
    Forall G added ∧ Forall G removed ∧ disj added removed.
Proof.
  intros Hst Hpb Hlb Hw. unfold prepare_reorg.
  apply (reorg_walk_min _ _ pb (pb_weight lb)); try done.
  - intros h b. apply (st_pending _ _ Hst).
  - by repeat constructor.
  - by left.
  - by eexists.
  - intros x y _ Hy. by apply elem_of_nil in Hy.
Qed.

(** * Invariant *)
Record grow_inv (nr : Prop) (w0 : N) (s : omp) : Prop := {
  gr_stored : stored G s;
  gr_w : o_lastw s = top_weight w0 (o_out s);
  gr_le : (t_wt T (o_last s) <= o_lastw s)%N;
  gr_min : Forall (λ u, minimal_update T u.1 u.2) (updates_of (o_out s));
  gr_nr : nr → o_empty s = false ∧ t_wt T (o_last s) = o_lastw s ∧ rising w0 (o_out s)
}.

Lemma grow_sub nr w0 s s' : grow_inv nr w0 s → sub s s' → grow_inv nr w0 s'.
Proof.
  intros [H1 H2 H3 H4 H5] Hs. pose proof (sub_out _ _ Hs) as (evs & E & Hev). split.
  - by eapply stored_sub.
  - rewrite (sub_lastw _ _ Hs), E, top_weight_app, (top_weight_evicts _ evs) by done. done.
  - by rewrite (sub_lastw _ _ Hs), (sub_last _ _ Hs).
  - by rewrite (sub_updates _ _ Hs).
  - intros Hnr. destruct (H5 Hnr) as (? & ? & ?).
    rewrite (sub_lastw _ _ Hs), (sub_last _ _ Hs), (sub_empty _ _ Hs), E.
    split_and!; try done. apply rising_app. split; [done|]. by apply rising_evicts.
Qed.

Lemma grow_queue nr w0 s pb : grow_inv nr w0 s → G pb → grow_inv nr w0 (queue s pb).
Proof. intros [H1 H2 H3 H4 H5] Hpb. split; try done. by apply stored_queue. Qed.

Lemma emit_loop_grow o f s new s' new' base b :
  order_ok o → stored G s → Forall G new → chain_up base new → last new = Some b →
  o_last s = pb_hash b → o_lastw s = pb_weight b →
  emit_loop f o s new = Ok (s', new') →
  ∃ b', last new' = Some b' ∧ o_last s' = pb_hash b' ∧ o_lastw s' = pb_weight b' ∧
    (pb_weight b <= pb_weight b')%N ∧ Forall G new' ∧ chain_up base new' ∧ stored G s' ∧
    ∀ old, chain_up base old → Forall G old → disj new old → disj new' old.
Proof.
  intros Ho. revert s new b; induction f as [|f IH]; intros s new b Hst HGn Hc Hl Hlast Hlw;
    cbn [emit_loop]; [discriminate|].
  destruct (get_child f o s (o_last s)) as [[h|]| |] eqn:Eg; ob; [| |discriminate|discriminate].
  2: { intros [= <- <-]. exists b. split_and!; try done. }
  destruct (o_pending s !! h) as [pb|] eqn:Ep; [|discriminate].
  destruct (emit_child_parent T G HG _ _ _ _ _ Ho Hst Eg Ep) as (Hpar & Ha & Eh).
  destruct (finish_siblings o s pb) as [s1| |] eqn:E1; ob; [|discriminate|discriminate].
  apply finish_siblings_sub in E1.
  destruct (fin_add _ _ _) as [s2| |] eqn:E2; ob; [|discriminate|discriminate].
  apply fin_add_sub in E2 as [E2 _].
  assert (Hst1 : stored G s2).
  { eapply stored_sub; [|exact E2]. eapply stored_ext; [..|eapply stored_sub; [exact Hst|exact E1]]; done. }
  intros Hrec.
  assert (Htop : top base new = pb_hash b) by (unfold top; by rewrite Hl).
  assert (HGb : G b).
  { rewrite Forall_forall in HGn. apply HGn. apply last_Some in Hl as [l ->].
    apply elem_of_app. right. by apply elem_of_list_singleton. }
  apply (IH s2 (new ++ [pb]) pb) in Hrec as (b' & R1 & R2 & R3 & R4 & R5 & R6 & R7 & R8).
  - exists b'. split_and!; try done.
    + etrans; [|exact R4]. pose proof (G_wt pb Ha). rewrite Hpar, Hlast, <- (G_wt' b HGb) in H. lia.
    + intros old Hco HGo Hd. apply R8; try done. apply disj_extend with (base := base); try done.
      * by intros ->.
      * by rewrite Htop, <- Hlast.
  - done.
  - apply Forall_app. split; [done|]. by repeat constructor.
  - apply chain_up_app. split; [done|]. cbn. split; [|done]. congruence.
  - apply last_snoc.
  - rewrite (sub_last _ _ E2). done.
  - rewrite (sub_lastw _ _ E2). done.
Qed.

Lemma prepare_emit_grow nr w0 o s new old s' base b :
  order_ok o → grow_inv nr w0 s → Forall G new → Forall G old →
  chain_up base new → chain_up base old → last new = Some b → disj new old →
  (nr → o_lastw s < pb_weight b)%N →
  prepare_emit o s new old = Ok s' → grow_inv nr w0 s'.
Proof.
  intros Ho [H1 H2 H3 H4 H5] HGn HGo Hcn Hco Hl Hd Hw. unfold prepare_emit. rewrite Hl.
  destruct (finish_siblings o _ b) as [s1| |] eqn:E1; ob; [|discriminate|discriminate].
  apply finish_siblings_sub in E1.
  destruct (fin_add o s1 _) as [s2| |] eqn:E2; ob; [|discriminate|discriminate].
  apply fin_add_sub in E2 as [E2 _].
  assert (E12 := sub_trans _ _ _ E1 E2). clear E1 E2.
  destruct (emit_loop _ o s2 new) as [[s3 new']| |] eqn:E3; ob; [|discriminate|discriminate].
  intros [= <-].
  assert (Hst2 : stored G s2).
  { eapply stored_sub; [|exact E12]. eapply stored_ext; [..|exact H1]; done. }
  pose proof (emit_loop_frame _ _ _ _ _ _ E3) as (Hem & _ & _ & _ & _ & ev3 & Hev3 & Hf3).
  eapply emit_loop_grow in E3 as (b' & R1 & R2 & R3 & R4 & R5 & R6 & R7 & R8);
    [|done|done|done|exact Hcn|exact Hl|by rewrite (sub_last _ _ E12)|by rewrite (sub_lastw _ _ E12)].
  pose proof (sub_out _ _ E12) as (ev2 & Hev2 & Hf2). cbn in Hev2.
  assert (HGb' : G b').
  { rewrite Forall_forall in R5. apply R5. apply last_Some in R1 as [l ->].
    apply elem_of_app. right. by apply elem_of_list_singleton. }
  assert (Hout : o_out (send s3 (EvUpdate new' old)) = o_out s ++ (ev2 ++ ev3) ++ [EvUpdate new' old]).
  { cbn. rewrite Hev3, Hev2, !app_assoc. done. }
  assert (Hf : Forall is_evict (ev2 ++ ev3)) by (by apply Forall_app).
  assert (Htw : top_weight w0 (o_out (send s3 (EvUpdate new' old))) = pb_weight b').
  { rewrite Hout, !top_weight_app. cbn [top_weight]. by rewrite R1. }
  split; cbn [fst snd] in *.
  - eapply stored_ext; [..|exact R7]; done.
  - rewrite Htw. exact R3.
  - cbn. rewrite R2, R3, (G_wt' b' HGb'). lia.
  - rewrite Hout, (updates_of_app (o_out s)), (updates_of_app (ev2 ++ ev3)), (updates_of_evicts _ Hf). cbn.
    apply Forall_app. split; [done|]. repeat constructor. cbn.
    apply minimal_intro with (base := base); auto. intros ->. done.
  - intros Hnr. destruct (H5 Hnr) as (Ha & Hb & Hc).
    split; [cbn; rewrite Hem, (sub_empty _ _ E12); done|].
    split; [cbn; by rewrite R2, R3, (G_wt' b' HGb')|].
    rewrite Hout. apply rising_app. split; [done|]. apply rising_app. split; [by apply rising_evicts|].
    cbn. rewrite R1. split; [|done]. rewrite (top_weight_evicts _ _ Hf), <- H2.
    specialize (Hw Hnr). lia.
Qed.

Lemma handle_grow nr w0 f o s pb r s' :
  order_ok o → grow_inv nr w0 s → (excluded (o_wl s) pb = false → G pb) →
  handle f o s pb r = Ok s' → grow_inv nr w0 s'.
Proof.
  intros Ho. revert s pb r s'; induction f as [|f IH]; intros s pb r s' Hok Hpb0; cbn [handle]; [discriminate|].
  destruct (excluded (o_wl s) pb) eqn:Hexcl.
  { intros [= <-]. destruct Hok as [H1 H2 H3 H4 H5]. split; try done.
    eapply stored_ext; [..|exact H1]; done. }
  assert (Hpb := Hpb0 eq_refl).
  case_bool_decide as Hbl.
  { intros [= <-]. destruct Hok as [H1 H2 H3 H4 H5]. split; try done.
    eapply stored_ext; [..|exact H1]; done. }
  set (s1 := set_pending s _).
  assert (Hok1 : grow_inv nr w0 s1).
  { destruct Hok as [H1 H2 H3 H4 H5]. split; try done. by apply stored_pending. }
  assert (Hst1 := gr_stored _ _ _ Hok1).
  destruct (finished s1 (pb_hash pb) && negb r); [by intros [= <-]|].
  case_bool_decide as Hlast.
  { eapply (prepare_emit_grow nr w0 o s1 [pb] [] s' (pb_parent pb) pb); try done.
    - by repeat constructor.
    - intros x y _ Hy. by apply elem_of_nil in Hy.
    - intros Hnr. destruct (gr_nr _ _ _ Hok1 Hnr) as (_ & <- & _). rewrite <- Hlast.
      by apply G_wt. }
  destruct (o_empty s1 && _ && _) eqn:Hemp.
  { eapply (prepare_emit_grow nr w0 o s1 [pb] [] s' (pb_parent pb) pb); try done.
    - by repeat constructor.
    - intros x y _ Hy. by apply elem_of_nil in Hy.
    - intros Hnr. destruct (gr_nr _ _ _ Hok1 Hnr) as (He & _ & _). by rewrite He in Hemp. }
  destruct (finished s1 (pb_parent pb)).
  - assert (Hlight : ∀ s',
      (s ← fin_add o s1 (pb_hash pb);
        c ← get_child 0 o s (pb_hash pb);
        match c with
        | Some child =>
          s ← match o_pending s !! child with
              | Some cpb => handle f o s cpb true
              | None => Ok s
              end;
          Ok (queue s pb)
        | None => Ok (queue s pb)
        end) = Ok s' → grow_inv nr w0 s').
    { intros s2. destruct (fin_add o s1 _) as [s3| |] eqn:E3; ob; [|discriminate|discriminate].
      apply fin_add_sub in E3 as [E3 _]. assert (Hok3 := grow_sub _ _ _ _ Hok1 E3).
      destruct (get_child _ _ _ _) as [[child|]| |]; ob; [| |discriminate|discriminate].
      - destruct (o_pending s3 !! child) as [cpb|] eqn:Ec.
        + destruct (handle f o s3 cpb true) as [s4| |] eqn:E4; ob; [|discriminate|discriminate].
          intros [= <-]. apply IH in E4; [|exact Hok3|].
          * by apply grow_queue.
          * intros _. by apply (st_pending _ _ (gr_stored _ _ _ Hok3)) in Ec as [_ ?].
        + cbn. intros [= <-]. by apply grow_queue.
      - intros [= <-]. by apply grow_queue. }
    destruct (o_pending s1 !! o_last s1) as [lb|] eqn:El; [|exact (Hlight s')].
    destruct (_ <? _)%N eqn:Hw; [|exact (Hlight s')].
    apply N.ltb_lt in Hw.
    destruct (st_pending _ _ Hst1 _ _ El) as [Elh Hlb].
    destruct (prepare_reorg s1 pb lb) as [[removed added| |]| |] eqn:Er; ob; try discriminate.
    + apply prepare_reorg_min in Er as (base & R1 & R2 & R3 & R4 & R5 & R6); try done.
      * eapply (prepare_emit_grow nr w0 o s1 added removed s' base pb); done.
      * rewrite (G_wt' lb Hlb), Elh. pose proof (gr_le _ _ _ Hok1). lia.
    + intros [= <-]. by apply grow_queue.
    + by intros [= <-].
  - destruct (_ <? _)%N.
    + match goal with |- (if ?b then _ else _) = _ → _ => destruct b end.
      * intros [= <-]. destruct Hok1 as [H1 H2 H3 H4 H5]. split; try done. by apply stored_delete.
      * destruct (fin_add o s1 _) as [s3| |] eqn:E3; ob; [|discriminate|discriminate].
        apply fin_add_sub in E3 as [E3 _].
        intros [= <-]. apply grow_queue; [|done]. by eapply grow_sub.
    + intros [= <-]. by apply grow_queue.
Qed.

Lemma handle_wl f o s pb r s' : handle f o s pb r = Ok s' → o_wl s' = o_wl s.
Proof.
  revert s pb r s'; induction f as [|f IH]; intros s pb r s'; cbn [handle]; [discriminate|].
  destruct (excluded (o_wl s) pb); [by intros [= <-]|].
  case_bool_decide; [by intros [= <-]|].
  set (s1 := set_pending s _).
  destruct (finished s1 (pb_hash pb) && negb r); [by intros [= <-]|].
  case_bool_decide; [intros Hx; by apply prepare_emit_frame in Hx as (_ & ? & _)|].
  destruct (_ && _ && _); [intros Hx; by apply prepare_emit_frame in Hx as (_ & ? & _)|].
  destruct (finished s1 (pb_parent pb)).
  - assert (Hlight : ∀ s',
      (s ← fin_add o s1 (pb_hash pb);
        c ← get_child 0 o s (pb_hash pb);
        match c with
        | Some child =>
          s ← match o_pending s !! child with
              | Some cpb => handle f o s cpb true
              | None => Ok s
              end;
          Ok (queue s pb)
        | None => Ok (queue s pb)
        end) = Ok s' → o_wl s' = o_wl s).
    { intros s2. destruct (fin_add _ _ _) as [s3| |] eqn:E3; ob; [|discriminate|discriminate].
      apply fin_add_sub in E3 as [E3 _].
      destruct (get_child _ _ _ _) as [[child|]| |]; ob; [| |discriminate|discriminate].
      - destruct (o_pending s3 !! child).
        + destruct (handle _ _ _ _ _) as [s4| |] eqn:E4; ob; [|discriminate|discriminate].
          intros [= <-]. apply IH in E4. cbn. rewrite E4. apply E3.
        + cbn. intros [= <-]. cbn. apply E3.
      - intros [= <-]. cbn. apply E3. }
    destruct (o_pending s1 !! o_last s1) as [lb|] eqn:El; [|exact (Hlight s')].
    destruct (_ <? _)%N eqn:Hw; [|exact (Hlight s')].
    destruct (prepare_reorg _ _ _) as [[]| |]; ob; try discriminate.
    + intros Hx; by apply prepare_emit_frame in Hx as (_ & ? & _).
    + by intros [= <-].
    + by intros [= <-].
  - destruct (_ <? _)%N; [|by intros [= <-]].
    match goal with |- (if ?b then _ else _) = _ → _ => destruct b end; [by intros [= <-]|].
    destruct (fin_add _ _ _) as [s3| |] eqn:E3; ob; [|discriminate|discriminate].
    apply fin_add_sub in E3 as [E3 _]. intros [= <-]. cbn. apply E3.
Qed.

Lemma omp_run_grow (nr : Prop) w0 l s s' :
  orders_ok l → (∀ b, b ∈ batches_of l → excluded (o_wl s) b = false → G b) →
  (nr → no_reorgs l) →
  (∀ l1 o n h l2 s1, l = l1 ++ (o, InReorg n h) :: l2 → omp_run s l1 = Ok s1 →
     (t_wt T h <= top_weight w0 (o_out s1))%N) →
  grow_inv nr w0 s → omp_run s l = Ok s' → grow_inv nr w0 s'.
Proof.
  revert s; induction l as [|[o i] l IH]; intros s Hord Hag Hnr Hsane Hok; unfold omp_run; cbn [foldM]; [by intros [= <-]|].
  apply Forall_cons in Hord as [Ho Hord]. cbn in Ho.
  assert (Hag2 : ∀ b, b ∈ batches_of l → excluded (o_wl s) b = false → G b).
  { intros b Hb. apply Hag. unfold batches_of. destruct i; cbn; [by apply elem_of_list_further|done]. }
  assert (Hnr2 : nr → no_reorgs l).
  { intros H. specialize (Hnr H). unfold no_reorgs, reorgs_of in *. destruct i; cbn in *; done. }
  destruct (omp_step s (o, i)) as [s1| |] eqn:E; ob; [|discriminate|discriminate].
  intros Hrun.
  assert (Hsane2 : ∀ l1 o n h l2 s2, l = l1 ++ (o, InReorg n h) :: l2 → omp_run s1 l1 = Ok s2 →
     (t_wt T h <= top_weight w0 (o_out s2))%N).
  { intros l1 o' n h l2 s2 El Er. eapply (Hsane ((o, i) :: l1) o' n h l2 s2); [by rewrite El|].
    unfold omp_run; cbn [foldM]. rewrite E. exact Er. }
  destruct i as [pb|n h]; unfold omp_step in E; cbn [fst snd] in *.
  - unfold handle_batch in E. pose proof (handle_wl _ _ _ _ _ _ E) as Hwl.
    apply (handle_grow nr w0) in E; try done.
    + apply (IH s1); [exact Hord|by rewrite Hwl|exact Hnr2|exact Hsane2|exact E|exact Hrun].
    + apply Hag. apply elem_of_list_here.
  - injection E as <-. destruct Hok as [H1 H2 H3 H4 H5].
    apply (IH (handle_reorg s n h)); [exact Hord|exact Hag2|exact Hnr2|exact Hsane2| |exact Hrun].
    specialize (Hsane [] o n h l s eq_refl eq_refl).
    split; cbn.
    + eapply stored_ext; [..|exact H1]; done.
    + rewrite top_weight_app. done.
    + rewrite H2. done.
    + rewrite updates_of_app. cbn. by rewrite app_nil_r.
    + intros Hn. specialize (Hnr Hn). done.
Qed.

Lemma grow_init (nr : Prop) w0 cfg s0 :
  new_omp cfg = Ok s0 → w0 = cfg_last_weight cfg → (t_wt T (cfg_last_hash cfg) <= w0)%N →
  (nr → cfg_last_hash cfg ≠ zero_hash ∧ t_wt T (cfg_last_hash cfg) = w0) → grow_inv nr w0 s0.
Proof.
  intros H -> Hle Hnr. assert (Hst := stored_init G _ _ H). revert H Hst.
  unfold new_omp. case_bool_decide; [discriminate|]. intros [= <-] Hst.
  split; cbn in *; try done.
  intros Hn. destruct (Hnr Hn). split_and!; try done. by rewrite bool_decide_eq_false_2.
Qed.

(** A chain the client holds has consecutive numbers and no repetition. *)
Lemma linked_numbers base l :
  linked base l → Forall G l →
  ∀ i x y, l !! i = Some x → l !! S i = Some y → pb_num x = (pb_num y + 1)%Z ∧ pb_parent x = pb_hash y.
Proof.
  revert base; induction l as [|b l IH]; intros base Hl HGl i x y; [done|].
  apply Forall_cons in HGl as [Hb HGl]. destruct Hl as [Hp Hl].
  destruct i as [|i]; cbn.
  - intros [= <-] Hy. destruct l as [|z l]; [done|]. cbn in Hy. injection Hy as ->.
    apply Forall_cons in HGl as [Hy _]. rewrite (G_num b Hb), Hp, <- (G_num' y Hy). done.
  - by eapply IH.
Qed.

Lemma linked_gt base l b : linked base (b :: l) → Forall G (b :: l) → Forall (λ x, pb_num x < pb_num b)%Z l.
Proof.
  revert b; induction l as [|y l IH]; intros b Hl HGl; [constructor|].
  apply Forall_cons in HGl as [Hb HGl]. destruct Hl as [Hp Hl].
  assert (pb_num b = pb_num y + 1)%Z.
  { apply Forall_cons in HGl as [Hy _]. rewrite (G_num b Hb), Hp, <- (G_num' y Hy). done. }
  constructor; [lia|]. eapply Forall_impl; [by apply IH|]. intros z Hz. cbn in Hz. lia.
Qed.

Lemma linked_NoDup base l : linked base l → Forall G l → NoDup (map pb_hash l).
Proof.
  induction l as [|b l IH]; intros Hl HGl; cbn; [constructor|].
  pose proof (linked_gt _ _ _ Hl HGl) as Hgt. rewrite Forall_forall in Hgt.
  apply Forall_cons in HGl as [Hb HGl]. destruct Hl as [Hp Hl]. constructor; [|auto].
  intros (y & Hy & Hin)%elem_of_list_fmap. specialize (Hgt y Hin).
  rewrite Forall_forall in HGl. rewrite (G_num' b Hb), (G_num' y), Hy in Hgt by auto. lia.
Qed.
End grow.
