(** C28, first half: the recursion budgets of the ordering model are never exhausted when
    numbers increase along the chain. *)
From Verif Require Import Base Lru LruFacts Types Ordering SpecChain OrderingBase OrderingGrow OrderingFacts.

(** Number of keys of a map at height [n] or above, and below [n]. *)
Definition above {A} (T : tree) (q : gmap hash A) (n : Z) : nat :=
  size (filter (λ p, (n <= t_num T p)%Z) (dom q) : gset hash).
Definition below {A} (T : tree) (q : gmap hash A) (n : Z) : nat :=
  size (filter (λ p, (t_num T p < n)%Z) (dom q) : gset hash).

Lemma map_size_sub {A} (m m' : gmap hash A) : m' ⊆ m → size m' ≤ size m.
Proof. intros H. rewrite <- !size_dom. apply subseteq_size. by apply subseteq_dom. Qed.

Section count.
Context {A : Type} (T : tree).
Implicit Types q : gmap hash A.

Lemma above_mono q q' n n' : q' ⊆ q → (n <= n')%Z → above T q' n' ≤ above T q n.
Proof.
  intros Hq Hn. apply subseteq_size. intros x. rewrite !elem_of_filter.
  intros [H1 H2]. split; [lia|]. by apply (subseteq_dom _ _ Hq).
Qed.
Lemma above_lt q q' n n' h :
  q' ⊆ q → is_Some (q !! h) → (n <= t_num T h < n')%Z → above T q' n' < above T q n.
Proof.
  intros Hq Hh Hn. apply subset_size. split.
  - intros x. rewrite !elem_of_filter. intros [H1 H2]. split; [lia|]. by apply (subseteq_dom _ _ Hq).
  - intros H. assert (h ∈ (filter (λ p, (n' <= t_num T p)%Z) (dom q') : gset hash)) as Hx.
    { apply H. apply elem_of_filter. split; [lia|]. by apply elem_of_dom. }
    apply elem_of_filter in Hx as [Hx _]. lia.
Qed.
Lemma above_size q n : above T q n ≤ size q.
Proof. unfold above. rewrite <- (size_dom q). apply subseteq_size. set_solver. Qed.

Lemma below_size q n : below T q n ≤ size q.
Proof. unfold below. rewrite <- (size_dom q). apply subseteq_size. set_solver. Qed.
Lemma below_lt q n n' h : is_Some (q !! h) → (n' <= t_num T h < n)%Z → below T q n' < below T q n.
Proof.
  intros Hh Hn. apply subset_size. split.
  - intros x. rewrite !elem_of_filter. intros [H1 H2]. split; [lia|done].
  - intros H. assert (h ∈ (filter (λ p, (t_num T p < n')%Z) (dom q) : gset hash)) as Hx.
    { apply H. apply elem_of_filter. split; [lia|]. by apply elem_of_dom. }
    apply elem_of_filter in Hx as [Hx _]. lia.
Qed.
End count.

(** Not out of budget. *)
Definition live {A} (x : outcome A) : Prop := x ≠ Hang.

Lemma live_bind {A B} (x : outcome A) (k : A → outcome B) :
  live x → (∀ a, x = Ok a → live (k a)) → live (x ≫= k).
Proof. unfold live. destruct x as [a| |]; ob; [|done|done]. intros _ H. by apply H. Qed.

Lemma live_foldM {A S} (P : S → Prop) (f : S → A → outcome S) l s :
  (∀ s x, x ∈ l → P s → live (f s x) ∧ ∀ s', f s x = Ok s' → P s') →
  P s → live (foldM f l s).
Proof.
  revert s; induction l as [|x l IH]; intros s Hf HP; cbn [foldM]; [done|].
  destruct (Hf s x) as [H1 H2]; [apply elem_of_list_here|done|].
  apply live_bind; [done|]. intros s1 E. apply IH; [|by apply H2].
  intros s2 y Hy. apply Hf. by apply elem_of_list_further.
Qed.

Section total.
Context (T : tree) (G : pending_batch → Prop).
Context (HG : ∀ b, G b → agree T b) (HGrow : ∀ b, G b → growing T (pb_hash b)).

Definition keyed' (s : omp) : Prop := ∀ h b, o_pending s !! h = Some b → pb_hash b = h.

Lemma evict_live f o s h : keyed' s → size (o_pending s) < f → live (evict f o s h).
Proof.
  revert s h; induction f as [|f IH]; intros s h Hk Hf; [lia|]. cbn [evict].
  destruct (o_pending s !! h) as [pb|] eqn:Hp; [|done].
  rewrite (Hk _ _ Hp). set (s1 := send _ _).
  assert (Hk1 : keyed' s1).
  { intros x b Hb. apply Hk. cbn in Hb. by eapply lookup_weaken, delete_subseteq. }
  assert (Hs1 : size (o_pending s1) < f).
  { cbn. assert (Hne : size (o_pending s) ≠ 0) by (intros H0; apply map_size_empty_inv in H0; rewrite H0 in Hp; done).
    rewrite map_size_delete_Some; [lia|by eexists]. }
  apply live_bind; [by apply IH|]. intros s2 E2. apply evict_sub in E2 as [E2 _].
  destruct (o_queued s2 !! h) as [cs|]; [|done].
  apply live_bind; [|done].
  apply (live_foldM (λ x, sub s1 x)).
  - intros x c _ Hx. destruct (finished x c).
    + split; [done|]. by intros ? [= <-].
    + assert (Hkx : keyed' x).
      { intros y b Hb. apply Hk1. eapply lookup_weaken; [exact Hb|apply Hx]. }
      split.
      * apply IH; [done|]. eapply Nat.le_lt_trans; [|exact Hs1]. apply map_size_sub. apply Hx.
      * intros x' E. apply evict_sub in E as [E _]. by eapply sub_trans.
  - done.
Qed.

Lemma stored_keyed s : stored G s → keyed' s.
Proof. intros H h b Hb. by apply (st_pending _ _ H) in Hb as [? _]. Qed.

Lemma fin_add_live o s h : stored G s → live (fin_add o s h).
Proof.
  intros Hst. unfold fin_add. destruct (lru_add _ _) as [l [k|]]; [|done].
  apply evict_live; [exact (stored_keyed _ Hst)|cbn; lia].
Qed.

Lemma child_num s h cs c :
  stored G s → o_queued s !! h = Some cs → c ∈ cs → t_num T c = (t_num T h + 1)%Z.
Proof.
  intros Hst Hq Hc. destruct (st_queued _ _ Hst _ _ _ Hq Hc) as (b & Hb & <- & <-).
  destruct (HGrow _ Hb) as [-> _]. by destruct (HG _ Hb) as (_ & -> & _).
Qed.

Lemma finish_children_live f o s h :
  order_ok o → stored G s → above T (o_queued s) (t_num T h) < f → live (finish_children f o s h).
Proof.
  intros Ho. revert s h; induction f as [|f IH]; intros s h Hst Hf; [lia|]. cbn [finish_children].
  apply live_bind; [by apply fin_add_live|]. intros s1 E1. apply fin_add_sub in E1 as [E1 _].
  destruct (o_queued s !! h) as [cs|] eqn:Hq; [|done].
  apply (live_foldM (λ x, sub s x)); [|done].
  intros x c Hc Hx. apply order_elem in Hc; [|done]. apply elem_of_elements in Hc.
  split.
  - apply IH; [by eapply stored_sub|].
    eapply Nat.lt_le_trans; [|apply Nat.lt_succ_r; exact Hf].
    apply above_lt with (h := h); [apply Hx|by eexists|].
    rewrite (child_num _ _ _ _ Hst Hq Hc). lia.
  - intros x' E. apply finish_children_sub in E. by eapply sub_trans.
Qed.

Lemma finish_siblings_live o s pb : order_ok o → stored G s → live (finish_siblings o s pb).
Proof.
  intros Ho Hst. unfold finish_siblings. destruct (o_queued s !! pb_parent pb) as [cs|]; [|done].
  apply (live_foldM (λ x, sub s x)); [|apply sub_refl].
  intros x c _ Hx. case_bool_decide.
  - split.
    + apply finish_children_live; [done|by eapply stored_sub|].
      unfold qfuel. apply Nat.lt_succ_r. etrans; [apply above_size|]. apply map_size_sub. apply Hx.
    + intros x' E. apply finish_children_sub in E. by eapply sub_trans.
  - split; [done|]. by intros ? [= <-].
Qed.

Lemma difficulty_live f o s h :
  order_ok o → stored G s → above T (o_queued s) (t_num T h) < f →
  live (difficulty f o s h) ∧ ∃ w, difficulty f o s h = Ok w.
Proof.
  intros Ho Hst. revert h; induction f as [|f IH]; intros h Hf; [lia|]. cbn [difficulty].
  destruct (o_queued s !! h) as [cs|] eqn:Hq.
  - cut (∃ w, foldM (λ max c, w ← difficulty f o s c; Ok (if (max <? w)%N then w else max))
            (o SDiff f h (elements cs)) 0%N = Ok w).
    { intros [w ->]. split; [done|by eexists]. }
    destruct (foldM_ok (λ _ : N, True) (λ max c, w ← difficulty f o s c; Ok (if (max <? w)%N then w else max))
      (o SDiff f h (elements cs)) 0%N) as (w & Hw & _); [|done|by eexists].
    intros m c Hc _. apply order_elem in Hc; [|done]. apply elem_of_elements in Hc.
    destruct (IH c) as [_ [w ->]].
    + eapply Nat.lt_le_trans; [|apply Nat.lt_succ_r; exact Hf].
      apply above_lt with (h := h); [done|by eexists|].
      rewrite (child_num _ _ _ _ Hst Hq Hc). lia.
    + ob. by eexists.
  - destruct (o_pending s !! h); split; try done; by eexists.
Qed.

Lemma get_child_ok n o s h : order_ok o → stored G s → ∃ r, get_child n o s h = Ok r.
Proof.
  intros Ho Hst. unfold get_child. destruct (o_queued s !! h) as [cs|]; [|by eexists].
  destruct (foldM_ok (λ _ : N * hash, True) (λ (acc : N * hash) c,
                 td ← difficulty (qfuel s) o s c;
                 Ok (if (acc.1 <? td)%N then (td, c) else acc))
              (o SChild n h (elements cs)) (0%N, zero_hash)) as (r & -> & _); [|done|].
  - intros a c _ _. destruct (difficulty_live (qfuel s) o s c) as [_ [w ->]]; [done|done| |].
    + unfold qfuel. apply Nat.lt_succ_r. apply above_size.
    + ob. by eexists.
  - ob. by eexists.
Qed.

Lemma emit_loop_live f o s new :
  order_ok o → stored G s → above T (o_queued s) (t_num T (o_last s)) < f → live (emit_loop f o s new).
Proof.
  intros Ho. revert s new; induction f as [|f IH]; intros s new Hst Hf; [lia|]. cbn [emit_loop].
  destruct (get_child_ok f o s (o_last s) Ho Hst) as [[h|] Eg]; rewrite Eg; ob; [|done].
  destruct (o_pending s !! h) as [pb|] eqn:Ep; [|done].
  destruct (emit_child_parent T G HG _ _ _ _ _ Ho Hst Eg Ep) as (Hpar & Ha & Eh).
  apply get_child_elem in Eg as (cs & Hq & _); [|done].
  apply live_bind; [by apply finish_siblings_live|]. intros s1 E1. apply finish_siblings_sub in E1.
  apply live_bind.
  { apply fin_add_live. eapply stored_ext; [..|eapply stored_sub; [exact Hst|exact E1]]; done. }
  intros s2 E2. apply fin_add_sub in E2 as [E2 _].
  apply IH.
  - eapply stored_sub; [|exact E2]. eapply stored_ext; [..|eapply stored_sub; [exact Hst|exact E1]]; done.
  - rewrite (sub_last _ _ E2). cbn.
    eapply Nat.lt_le_trans; [|apply Nat.lt_succ_r; exact Hf].
    apply above_lt with (h := o_last s).
    + etrans; [apply E2|]. apply E1.
    + by eexists.
    + destruct (HGrow _ Ha) as [Hn _]. destruct (HG _ Ha) as (_ & Hp & _). rewrite Hn, <- Hp, Hpar. lia.
Qed.

Lemma prepare_emit_live o s new old : order_ok o → stored G s → live (prepare_emit o s new old).
Proof.
  intros Ho Hst. unfold prepare_emit.
  assert (Hloop : ∀ s2, stored G s2 → live (r ← emit_loop (S (qfuel s2)) o s2 new; Ok (send r.1 (EvUpdate r.2 old)))).
  { intros s2 Hst2. apply live_bind; [|done]. apply emit_loop_live; [done|done|].
    unfold qfuel. pose proof (above_size T (o_queued s2) (t_num T (o_last s2))). lia. }
  apply live_bind.
  - destruct (last new) as [b|]; [|done].
    apply live_bind; [apply finish_siblings_live; [done|]; eapply stored_ext; [..|exact Hst]; done|].
    intros s1 E1. apply finish_siblings_sub in E1.
    apply fin_add_live. eapply stored_sub; [|exact E1]. eapply stored_ext; [..|exact Hst]; done.
  - intros s2 E. apply Hloop. destruct (last new) as [b|]; [|by injection E as <-].
    destruct (finish_siblings _ _ _) as [s1| |] eqn:E1; revert E; ob; [|discriminate|discriminate].
    intros E. apply finish_siblings_sub in E1. apply fin_add_sub in E as [E _].
    eapply stored_sub; [|exact E]. eapply stored_sub; [|exact E1]. eapply stored_ext; [..|exact Hst]; done.
Qed.

Lemma reorg_walk_live f p nh oh newb rv :
  (∀ h pb, p !! h = Some pb → pb_hash pb = h ∧ G pb) → G nh → G oh →
  below T p (t_num T (pb_hash nh)) + below T p (t_num T (pb_hash oh)) < f →
  live (reorg_walk f p nh oh newb rv).
Proof.
  intros Hp. revert nh oh newb rv; induction f as [|f IH]; intros nh oh newb rv Hn Ho Hf; [lia|].
  cbn [reorg_walk]. 
  assert (Hdown : ∀ b b', G b → p !! pb_parent b = Some b' → G b' ∧
    below T p (t_num T (pb_hash b')) < below T p (t_num T (pb_hash b))).
  { intros b b' Hb Hb'. destruct (Hp _ _ Hb') as [E HGb']. split; [done|].
    apply below_lt with (h := pb_hash b').
    - rewrite E. by eexists.
    - destruct (HGrow _ Hb) as [-> _]. destruct (HG _ Hb) as (_ & Hpar & _). rewrite <- Hpar, E. lia. }
  case_bool_decide.
  - destruct (p !! pb_parent nh) as [nh'|] eqn:E; [|done].
    destruct (Hdown _ _ Hn E). apply IH; [done|done|lia].
  - case_bool_decide; [done|].
    destruct (p !! pb_parent oh) as [oh'|] eqn:E; [|done].
    destruct (Hdown _ _ Ho E). apply IH; [done|done|lia].
Qed.

Lemma prepare_reorg_live s nh oh : stored G s → G nh → G oh → live (prepare_reorg s nh oh).
Proof.
  intros Hst Hn Ho. unfold prepare_reorg. apply reorg_walk_live; try done.
  - intros h b. apply (st_pending _ _ Hst).
  - pose proof (below_size T (o_pending s) (t_num T (pb_hash nh))).
    pose proof (below_size T (o_pending s) (t_num T (pb_hash oh))). lia.
Qed.

Lemma handle_live f o s pb r :
  order_ok o → stored G s → (excluded (o_wl s) pb = false → pb_parent pb ∉ o_bl s → G pb) →
  above T (o_queued s) (t_num T (pb_hash pb)) < f →
  live (handle f o s pb r).
Proof.
  intros Ho. revert s pb r; induction f as [|f IH]; intros s pb r Hst Hpb0 Hf; [lia|]. cbn [handle].
  destruct (excluded (o_wl s) pb) eqn:Hex; [done|].
  case_bool_decide as Hbl; [done|]. assert (Hpb := Hpb0 eq_refl Hbl).
  set (s1 := set_pending s _).
  assert (Hst1 : stored G s1) by (by apply stored_pending).
  destruct (finished s1 (pb_hash pb) && negb r); [done|].
  case_bool_decide; [by apply prepare_emit_live|].
  destruct (_ && _ && _); [by apply prepare_emit_live|].
  destruct (finished s1 (pb_parent pb)).
  - assert (Hlight :
      live (s ← fin_add o s1 (pb_hash pb);
        c ← get_child 0 o s (pb_hash pb);
        match c with
        | Some child =>
          s ← match o_pending s !! child with
              | Some cpb => handle f o s cpb true
              | None => Ok s
              end;
          Ok (queue s pb)
        | None => Ok (queue s pb)
        end)).
    { apply live_bind; [by apply fin_add_live|]. intros s3 E3. apply fin_add_sub in E3 as [E3 _].
      assert (Hst3 : stored G s3) by (by eapply stored_sub).
      destruct (get_child_ok 0 o s3 (pb_hash pb) Ho Hst3) as [[child|] Eg]; rewrite Eg; ob; [|done].
      apply live_bind; [|done]. destruct (o_pending s3 !! child) as [cpb|] eqn:Ec; [|done].
      destruct (st_pending _ _ Hst3 _ _ Ec) as [Ech HGc].
      apply IH; [done|done|].
      apply get_child_elem in Eg as (cs & Hq & Hin); [|done].
      assert (Hin' : child ∈ cs).
      { destruct Hin as [?| ->]; [done|]. by destruct (HG _ HGc) as (Hz & _). }
      eapply Nat.lt_le_trans; [|apply Nat.lt_succ_r; exact Hf].
      apply above_lt with (h := pb_hash pb).
      - apply E3.
      - exists cs. pose proof (sub_queued _ _ E3) as Hqs. cbn in Hqs. by eapply lookup_weaken.
      - rewrite Ech, (child_num _ _ _ _ Hst3 Hq Hin'). lia. }
    destruct (o_pending s1 !! o_last s1) as [lb|] eqn:El; [|exact Hlight].
    destruct (_ <? _)%N eqn:Hw; [|exact Hlight].
    destruct (st_pending _ _ Hst1 _ _ El) as [Elh Hlb].
    apply live_bind; [by apply prepare_reorg_live|].
    intros [rm ad| |] _; [by apply prepare_emit_live|done|done].
  - destruct (_ <? _)%N; [|done].
    match goal with |- live (if ?b then _ else _) => destruct b end; [done|].
    apply live_bind; [by apply fin_add_live|done].
Qed.

Lemma handle_batch_live o s pb :
  order_ok o → stored G s → (excluded (o_wl s) pb = false → pb_parent pb ∉ o_bl s → G pb) →
  live (handle_batch o s pb).
Proof.
  intros Ho Hst Hpb. apply handle_live; [done|done|done|].
  unfold qfuel. pose proof (above_size T (o_queued s) (t_num T (pb_hash pb))). lia.
Qed.

Lemma omp_run_live c0 l s :
  orders_ok l → (∀ b, b ∈ batches_of l → excluded (o_wl s) b = false → G b) →
  ok20 G c0 s → live (omp_run s l).
Proof.
  revert s; induction l as [|[o i] l IH]; intros s Hord Hb Hok; unfold omp_run; cbn [foldM]; [done|].
  assert (Hord0 := Hord). apply Forall_cons in Hord as [Ho Hord]. cbn in Ho.
  assert (Hstep : live (omp_step s (o, i))).
  { unfold omp_step. destruct i; cbn [fst snd]; [|done]. apply handle_batch_live; [done|apply Hok|].
    intros He _. apply Hb; [apply elem_of_list_here|done]. }
  apply live_bind; [done|]. intros s1 E.
  assert (Hok1 : ok20 G c0 s1 ∧ o_wl s1 = o_wl s).
  { apply (omp_run_ok20 T G HG c0 [(o, i)]).
    - by apply Forall_singleton.
    - intros b Hin. apply Hb. unfold batches_of in *. destruct i; cbn in *; [|inversion Hin].
      apply elem_of_list_singleton in Hin as ->. apply elem_of_list_here.
    - done.
    - unfold omp_run. cbn [foldM]. rewrite E. done. }
  destruct Hok1 as [Hok1 Hwl]. apply IH; [done| |done].
  rewrite Hwl. intros b Hin. apply Hb. unfold batches_of in *. destruct i; cbn in *; [|done].
  by apply elem_of_list_further.
Qed.
End total.

Lemma never_hangs (T : tree) cfg s0 l :
  new_omp cfg = Ok s0 → orders_ok l → Forall (agree T) (batches_of l) →
  Forall (λ b, growing T (pb_hash b)) (batches_of l) → omp_run s0 l ≠ Hang.
Proof.
  intros H0 Hord Hag Hgr.
  apply (omp_run_live T (Gg T)) with (c0 := Client (cfg_last_hash cfg) []).
  - by intros b [? _].
  - by intros b [_ ?].
  - done.
  - intros b Hb He. by eapply Gg_all.
  - by apply ok20_init.
Qed.
