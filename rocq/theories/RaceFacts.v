(** Facts for C67: the ordering layer under interference by HandleReorg. *)
From Verif Require Import Base Lru LruFacts Types Ordering SpecChain OrderingBase OrderingGrow OrderingFacts OrderingTotal Race SpecRace.

(** * Without interference *)
Lemma emit_loop_alone f o s new :
  emit_loop_x f o s [] new = (r ← emit_loop f o s new; Ok (r.1, [], r.2)).
Proof.
  revert s new; induction f as [|f IH]; intros s new; cbn [emit_loop_x emit_loop poke]; [done|].
  destruct (get_child f o s (o_last s)) as [[h|]| |]; ob; try done.
  destruct (o_pending s !! h) as [pb|]; [|done].
  destruct (finish_siblings o s pb) as [s1| |]; ob; try done.
  destruct (fin_add _ _ _) as [s2| |]; ob; [apply IH|done|done].
Qed.

Lemma prepare_emit_alone o s new old :
  prepare_emit_x o s [] new old = (s' ← prepare_emit o s new old; Ok (s', [])).
Proof.
  assert (Hl : ∀ s2, (r ← emit_loop_x (S (qfuel s2) * 1) o s2 [] new;
      (let '(s, x) := poke r.1.1 r.1.2 in Ok (send s (EvUpdate r.2 old), x))) =
    (s' ← (r ← emit_loop (S (qfuel s2)) o s2 new; Ok (send r.1 (EvUpdate r.2 old))); Ok (s', []))).
  { intros s2. rewrite Nat.mul_1_r, emit_loop_alone. by destruct (emit_loop _ _ _ _) as [[]| |]. }
  unfold prepare_emit_x, prepare_emit. destruct (last new) as [b|]; [|apply Hl].
  cbn [poke]. destruct (finish_siblings _ _ _) as [s1| |]; ob; try done.
  destruct (fin_add _ _ _) as [s2| |]; ob; [apply Hl|done|done].
Qed.

Lemma handle_alone f o s pb r :
  handle_x f o s [] pb r = (s' ← handle f o s pb r; Ok (s', [])).
Proof.
  revert s pb r; induction f as [|f IH]; intros s pb r; cbn [handle_x handle poke]; [done|].
  destruct (excluded _ _); [done|]. case_bool_decide; [done|].
  set (s1 := set_pending s _). destruct (_ && negb r); [done|].
  case_bool_decide; [apply prepare_emit_alone|].
  destruct (_ && _ && _); [apply prepare_emit_alone|].
  destruct (finished s1 (pb_parent pb)).
  - assert (Hl :
      (s ← fin_add o s1 (pb_hash pb);
        c ← get_child 0 o s (pb_hash pb);
        match c with
        | Some child =>
          r ← match o_pending s !! child with
              | Some cpb => handle_x f o s [] cpb true
              | None => Ok (s, [])
              end;
          Ok (queue r.1 pb, r.2)
        | None => Ok (queue s pb, [])
        end) = (s' ← (s ← fin_add o s1 (pb_hash pb);
        c ← get_child 0 o s (pb_hash pb);
        match c with
        | Some child =>
          s ← match o_pending s !! child with
              | Some cpb => handle f o s cpb true
              | None => Ok s
              end;
          Ok (queue s pb)
        | None => Ok (queue s pb)
        end); Ok (s', []))).
    { destruct (fin_add _ _ _) as [s3| |]; ob; try done.
      destruct (get_child _ _ _ _) as [[c|]| |]; ob; try done.
      destruct (o_pending s3 !! c) as [cpb|]; [|done]. rewrite IH. by destruct (handle _ _ _ _ _). }
    destruct (o_pending s1 !! o_last s1) as [lb|]; [|exact Hl].
    destruct (_ <? _)%N; [|exact Hl].
    destruct (prepare_reorg _ _ _) as [[rm ad| |]| |]; ob; try done. apply prepare_emit_alone.
  - destruct (_ <? _)%N; [|done].
    match goal with |- context [if ?b then _ else _] => destruct b end; [done|].
    by destruct (fin_add _ _ _).
Qed.

Lemma run_alone l s :
  Forall (λ i : order * noise * omp_input, i.1.2 = []) l →
  omp_run_x s l = omp_run s (map (λ i, (i.1.1, i.2)) l).
Proof.
  revert s; induction l as [|[[o x] i] l IH]; intros s Hl; [done|].
  apply Forall_cons in Hl as [Ex Hl]. cbn in Ex.
  unfold omp_run_x, omp_run. cbn [map foldM fst snd].
  assert (E : omp_step_x s (o, x, i) = omp_step s (o, i)).
  { subst x. unfold omp_step_x, omp_step, handle_batch. cbn [fst snd]. destruct i as [pb|n h]; [|done].
    rewrite handle_alone. by destruct (handle _ _ _ _ _). }
  rewrite E. destruct (omp_step s (o, i)) as [s1| |]; ob; [|done|done]. apply IH. done.
Qed.

(** * What a point of interference changes *)
Lemma notices_pend s l :
  o_pending (foldl (λ s (n : Z * hash), handle_reorg s n.1 n.2) s l) = o_pending s ∧
  o_queued (foldl (λ s (n : Z * hash), handle_reorg s n.1 n.2) s l) = o_queued s.
Proof. revert s; induction l as [|n l IH]; intros s; [done|]. cbn [foldl]. destruct (IH (handle_reorg s n.1 n.2)) as [-> ->]. done. Qed.
Lemma notices_out s l :
  o_out (foldl (λ s (n : Z * hash), handle_reorg s n.1 n.2) s l) = o_out s ++ map (λ n, EvReorg n.1 n.2) l.
Proof.
  revert s; induction l as [|n l IH]; intros s; cbn [foldl map]; [by rewrite app_nil_r|].
  rewrite IH. cbn. by rewrite <- app_assoc.
Qed.
Lemma notices_last s l :
  o_last (foldl (λ s (n : Z * hash), handle_reorg s n.1 n.2) s l) = o_last s ∨
  o_last (foldl (λ s (n : Z * hash), handle_reorg s n.1 n.2) s l) ∈ map snd l.
Proof.
  revert s; induction l as [|n l IH]; intros s; cbn [foldl map]; [by left|].
  right. destruct (IH (handle_reorg s n.1 n.2)) as [->|H]; [|by apply elem_of_list_further].
  cbn. apply elem_of_list_here.
Qed.

(** What was published and what was given between two states. *)
Definition evs_ok (G : pending_batch → Prop) (c : noise) (evs : list omp_event) : Prop :=
  published_notices evs = concat c ∧
  Forall G (all_added evs) ∧ Forall G (all_removed evs) ∧
  all_breaks evs `sublist_of` map snd (concat c) ∧
  Forall (λ u, breaks u.2 = []) (updates_of evs).

Lemma all_breaks_app l1 l2 : all_breaks (l1 ++ l2) = all_breaks l1 ++ all_breaks l2.
Proof. unfold all_breaks. by rewrite updates_of_app, map_app, concat_app. Qed.

Lemma evs_ok_app G c1 c2 e1 e2 : evs_ok G c1 e1 → evs_ok G c2 e2 → evs_ok G (c1 ++ c2) (e1 ++ e2).
Proof.
  intros (A1 & B1 & C1 & D1 & F1) (A2 & B2 & C2 & D2 & F2). unfold evs_ok.
  unfold published_notices in *. rewrite omap_app, A1, A2, concat_app. split; [done|].
  rewrite all_added_app, all_removed_app, all_breaks_app, updates_of_app, map_app.
  split; [by apply Forall_app|]. split; [by apply Forall_app|].
  split; [by apply sublist_app|]. by apply Forall_app.
Qed.

Lemma evs_ok_evicts G evs : Forall is_evict evs → evs_ok G [] evs.
Proof.
  intros H. unfold evs_ok, published_notices, all_added, all_removed, all_breaks.
  rewrite (updates_of_evicts _ H). split; [|split; [by constructor|split; [by constructor|split; [apply sublist_nil_l|by constructor]]]].
  induction H as [|e l He _ IH]; [done|]. by destruct e.
Qed.

Lemma notices_evs_ok G l : evs_ok G [l] (map (λ n : Z * hash, EvReorg n.1 n.2) l).
Proof.
  assert (Hu : updates_of (map (λ n : Z * hash, EvReorg n.1 n.2) l) = []) by (induction l; done).
  unfold evs_ok, all_added, all_removed, all_breaks. rewrite Hu. cbn. rewrite app_nil_r. split; [|split; [done|split; [done|split; [|done]]]].
  - unfold published_notices. induction l as [|[n h] l IH]; [done|]. cbn in *. by rewrite IH.
  - apply sublist_nil_l.
Qed.

(** * From state to state *)
Record prog (G : pending_batch → Prop) (s : omp) (x : noise) (s' : omp) (x' : noise) : Prop := {
  pr_stored : stored G s → stored G s';
  pr_evs : ∃ c evs, x = c ++ x' ∧ o_out s' = o_out s ++ evs ∧ evs_ok G c evs
}.

Section prog.
Context (G : pending_batch → Prop).

Lemma prog_trans s x s1 x1 s2 x2 : prog G s x s1 x1 → prog G s1 x1 s2 x2 → prog G s x s2 x2.
Proof.
  intros [A1 (c1 & e1 & -> & E1 & B1)] [A2 (c2 & e2 & -> & E2 & B2)]. split; [by eauto|].
  exists (c1 ++ c2), (e1 ++ e2). rewrite E2, E1, !app_assoc. split; [done|]. split; [done|]. by apply evs_ok_app.
Qed.
Lemma prog_same s x s' : (stored G s → stored G s') → o_out s' = o_out s → prog G s x s' x.
Proof.
  intros H E. split; [done|]. exists [], []. rewrite E, app_nil_r. split; [done|]. split; [done|].
  by apply evs_ok_evicts.
Qed.
Lemma prog_sub s s' x : sub s s' → prog G s x s' x.
Proof.
  intros H. split; [intros; by eapply stored_sub|]. destruct (sub_out _ _ H) as (evs & E & Hev).
  exists [], evs. split; [done|]. split; [done|]. by apply evs_ok_evicts.
Qed.
Lemma prog_poke s x s' x' : poke s x = (s', x') → prog G s x s' x'.
Proof.
  unfold poke. destruct x as [|l r]; intros [= <- <-]; [by apply prog_same|].
  destruct (notices_pend s l) as [Ep Eq].
  split; [by apply stored_ext|]. exists [l], (map (λ n, EvReorg n.1 n.2) l).
  split; [done|]. split; [apply notices_out|]. apply notices_evs_ok.
Qed.
Lemma poke_last s x s' x' : poke s x = (s', x') → o_last s' = o_last s ∨
  ∃ c, x = c :: x' ∧ o_last s' ∈ map snd c.
Proof.
  unfold poke. destruct x as [|l r]; intros [= <- <-]; [by left|].
  destruct (notices_last s l) as [?|?]; [by left|]. right. by exists l.
Qed.
Lemma poke_pend s x s' x' : poke s x = (s', x') →
  o_pending s' = o_pending s ∧ o_queued s' = o_queued s ∧ (x = [] ∧ s' = s ∧ x' = [] ∨ ∃ c, x = c :: x').
Proof.
  unfold poke. destruct x as [|l r]; intros [= <- <-].
  - split; [done|]. split; [done|]. by left.
  - destruct (notices_pend s l) as [-> ->]. split; [done|]. split; [done|]. right. by eexists.
Qed.

Lemma breaks_snoc l b c : last l = Some b →
  breaks (l ++ [c]) = breaks l ++ (if decide (pb_parent c = pb_hash b) then [] else [pb_parent c]).
Proof.
  induction l as [|a l IH]; [done|]. destruct l as [|a' l].
  - cbn. intros [= ->]. by rewrite app_nil_r.
  - intros E. change (last (a' :: l) = Some b) in E.
    change (breaks ((a :: a' :: l) ++ [c])) with
      ((if decide (pb_parent a' = pb_hash a) then [] else [pb_parent a']) ++ breaks ((a' :: l) ++ [c])).
    rewrite (IH E), app_assoc. done.
Qed.

Context (T : tree) (HG : ∀ b, G b → agree T b).

(** The loop of prepareEmit sends no update. *)
Definition loop_prog (s : omp) (x : noise) (new : list pending_batch) (s' : omp) (x' : noise) (new' : list pending_batch) : Prop :=
  stored G s' ∧ Forall G new' ∧
  ∃ c evs k, x = c ++ x' ∧ o_out s' = o_out s ++ evs ∧ evs_ok G c evs ∧ updates_of evs = [] ∧
    breaks new' = breaks new ++ k ∧ k `sublist_of` map snd (concat c).

Lemma poke_evs s x s' x' : poke s x = (s', x') →
  ∃ c evs, x = c ++ x' ∧ o_out s' = o_out s ++ evs ∧ evs_ok G c evs ∧ updates_of evs = [] ∧
    (o_last s' = o_last s ∨ o_last s' ∈ map snd (concat c)).
Proof.
  intros E. pose proof (poke_last _ _ _ _ E) as Hl. revert E.
  unfold poke. destruct x as [|l r]; intros [= <- <-].
  - exists [], []. split; [done|]. split; [by rewrite app_nil_r|]. split; [by apply evs_ok_evicts|]. split; [done|]. by left.
  - exists [l], (map (λ n, EvReorg n.1 n.2) l). split; [done|]. split; [apply notices_out|].
    split; [apply notices_evs_ok|]. split; [clear; by induction l|]. cbn. rewrite app_nil_r.
    destruct Hl as [?|(c & [= ->] & ?)]; [by left|by right].
Qed.

Lemma emit_loop_prog f o s x new s' x' new' b :
  order_ok o → stored G s → Forall G new → last new = Some b → o_last s = pb_hash b →
  emit_loop_x f o s x new = Ok (s', x', new') → loop_prog s x new s' x' new'.
Proof.
  intros Ho. revert s x new b; induction f as [|f IH]; intros s x new b Hst Hnew Hb Hlast; cbn [emit_loop_x]; [discriminate|].
  destruct (poke s x) as [s1 x1] eqn:E1.
  pose proof (pr_stored _ _ _ _ _ (prog_poke _ _ _ _ E1) Hst) as Hst1.
  destruct (poke_evs _ _ _ _ E1) as (c1 & e1 & -> & O1 & V1 & U1 & L1).
  destruct (get_child f o s1 (o_last s1)) as [[h|]| |] eqn:Eg; ob; try discriminate.
  2: { intros [= <- <- <-]. split; [done|]. split; [done|]. exists c1, e1, []. rewrite app_nil_r.
       split; [done|]. split; [done|]. split; [done|]. split; [done|]. split; [done|]. apply sublist_nil_l. }
  destruct (o_pending s1 !! h) as [pb|] eqn:Ep; [|discriminate].
  destruct (emit_child_parent T G HG _ _ _ _ _ Ho Hst1 Eg Ep) as (Hpar & Hpb & _).
  destruct (finish_siblings o s1 pb) as [s2| |] eqn:E2; ob; try discriminate.
  apply finish_siblings_sub in E2.
  assert (Hst2 := stored_sub G _ _ Hst1 E2).
  destruct (poke s2 x1) as [s3 x3] eqn:E3.
  pose proof (pr_stored _ _ _ _ _ (prog_poke _ _ _ _ E3) Hst2) as Hst3.
  destruct (poke_evs _ _ _ _ E3) as (c3 & e3 & -> & O3 & V3 & U3 & _).
  destruct (fin_add _ _ _) as [s4| |] eqn:E4; ob; try discriminate.
  apply fin_add_sub in E4 as [E4 _].
  assert (Hst4 : stored G s4).
  { eapply stored_sub; [|exact E4]. by eapply stored_ext; [..|exact Hst3]. }
  intros E. apply (IH s4 x3 _ pb) in E; [|done| | |].
  2: { apply Forall_app. split; [done|]. by apply Forall_singleton. }
  2: { by rewrite last_snoc. }
  2: { by rewrite (sub_last _ _ E4). }
  destruct E as (Hst' & Hnew' & c & evs & k & -> & O & V & U & B & K).
  split; [done|]. split; [done|].
  destruct (sub_out _ _ E2) as (e2 & O2 & W2). destruct (sub_out _ _ E4) as (e4 & O4 & W4). cbn in O4.
  exists (c1 ++ [] ++ c3 ++ [] ++ c), (e1 ++ e2 ++ e3 ++ e4 ++ evs), ((if decide (pb_parent pb = pb_hash b) then [] else [pb_parent pb]) ++ k).
  split; [by rewrite <- !app_assoc|].
  split; [by rewrite O, O4, O3, O2, O1, <- !app_assoc|].
  split.
  { apply evs_ok_app; [done|]. apply evs_ok_app; [by apply evs_ok_evicts|]. apply evs_ok_app; [done|].
    apply evs_ok_app; [by apply evs_ok_evicts|done]. }
  split.
  { by rewrite !updates_of_app, U1, U3, U, !updates_of_evicts. }
  split.
  { rewrite B, (breaks_snoc _ b) by done. by rewrite app_assoc. }
  rewrite !app_nil_l, !concat_app, !map_app. apply sublist_app.
  - destruct (decide _) as [|Hne]; [apply sublist_nil_l|].
    destruct L1 as [L1|L1]; [exfalso; apply Hne; by rewrite Hpar, L1|].
    rewrite Hpar. apply elem_of_list_split in L1 as (l1 & l2 & ->).
    apply sublist_inserts_l, sublist_skip, sublist_nil_l.
  - etrans; [exact K|]. apply sublist_inserts_l. done.
Qed.

Lemma prepare_emit_prog o s x new old s' x' :
  order_ok o → stored G s → Forall G new → Forall G old → new ≠ [] → breaks new = [] → breaks old = [] →
  prepare_emit_x o s x new old = Ok (s', x') → prog G s x s' x'.
Proof.
  intros Ho Hst Hn Hold Hne Hbn Hbo. unfold prepare_emit_x.
  destruct (last new) as [b|] eqn:Hb; [|by apply last_None in Hb].
  destruct (poke s x) as [s1 x1] eqn:E1.
  pose proof (prog_poke _ _ _ _ E1) as P1. pose proof (pr_stored _ _ _ _ _ P1 Hst) as Hst1.
  destruct (finish_siblings _ _ _) as [s2| |] eqn:E2; ob; try discriminate. apply finish_siblings_sub in E2.
  destruct (fin_add _ _ _) as [s3| |] eqn:E3; ob; try discriminate. apply fin_add_sub in E3 as [E3 _].
  pose proof (sub_trans _ _ _ E2 E3) as E23.
  assert (Hst3 : stored G s3).
  { eapply stored_sub; [|exact E23]. by eapply stored_ext; [..|exact Hst1]. }
  assert (P3 : prog G s x s3 x1).
  { eapply prog_trans; [exact P1|]. eapply prog_trans; [|apply prog_sub; exact E23].
    apply prog_same; [|done]. by apply stored_ext. }
  cbn [fst snd].
  destruct (emit_loop_x _ _ _ _ _) as [[[s4 x4] new']| |] eqn:E4; ob; try discriminate.
  apply (emit_loop_prog _ _ _ _ _ _ _ _ b) in E4; [|done..|].
  2: { by rewrite (sub_last _ _ E23). }
  destruct E4 as (Hst4 & Hn4 & c & evs & k & -> & O & V & U & B & K).
  cbn [fst snd]. destruct (poke s4 x4) as [s5 x5] eqn:E5. intros [= <- <-].
  pose proof (pr_stored _ _ _ _ _ (prog_poke _ _ _ _ E5) Hst4) as Hst5.
  destruct (poke_evs _ _ _ _ E5) as (c5 & e5 & -> & O5 & V5 & U5 & _).
  eapply prog_trans; [exact P3|]. split; [intros _; by eapply stored_ext; [..|exact Hst5]|].
  exists (c ++ c5), (evs ++ e5 ++ [EvUpdate new' old]).
  split; [by rewrite app_assoc|]. split; [cbn; by rewrite O5, O, <- !app_assoc|].
  destruct V as (V1 & V2 & V3 & V4 & V6). destruct V5 as (W1 & W2 & W3 & W4 & W6).
  unfold evs_ok, published_notices in *. rewrite !omap_app, V1, W1, concat_app. cbn [omap list_omap]. rewrite app_nil_r.
  split; [done|]. unfold all_added, all_removed, all_breaks. rewrite !updates_of_app, U, U5. cbn. rewrite !app_nil_r.
  split; [done|]. split; [done|]. split; [|by constructor].
  rewrite B, Hbn, map_app. apply sublist_inserts_r. exact K.
Qed.

Lemma reorg_walk_breaks f p nh oh newb rv rm ad :
  (∀ h pb, p !! h = Some pb → pb_hash pb = h ∧ G pb) → G nh → G oh → Forall G newb → Forall G rv →
  (∃ r, newb = nh :: r) → breaks newb = [] → breaks rv = [] →
  (match rv with r :: _ => pb_parent r = pb_hash oh | [] => True end) →
  reorg_walk f p nh oh newb rv = Ok (RgOk rm ad) →
  Forall G rm ∧ Forall G ad ∧ ad ≠ [] ∧ breaks ad = [] ∧ breaks rm = [].
Proof.
  intros Hp. revert nh oh newb rv; induction f as [|f IH]; intros nh oh newb rv Hn Ho Hnew Hrv [r Hr] Hbn Hbr Hh; cbn [reorg_walk]; [discriminate|].
  case_bool_decide.
  - destruct (p !! pb_parent nh) as [nh'|] eqn:E; [|discriminate].
    destruct (Hp _ _ E) as [Eh HGn]. apply IH; [done|done|by constructor|done|by eexists| |done|done].
    subst newb. change (breaks (nh' :: nh :: r)) with ((if decide (pb_parent nh = pb_hash nh') then [] else [pb_parent nh]) ++ breaks (nh :: r)).
    rewrite Hbn, decide_True by done. done.
  - case_bool_decide.
    + intros [= <- <-]. split; [done|]. split; [done|]. split; [by subst newb|done].
    + destruct (p !! pb_parent oh) as [oh'|] eqn:E; [|discriminate].
      destruct (Hp _ _ E) as [Eh HGo]. apply IH; [done|done|done|by constructor|by eexists|done| |done].
      destruct rv as [|a rv]; [done|].
      change (breaks (oh :: a :: rv)) with ((if decide (pb_parent a = pb_hash oh) then [] else [pb_parent a]) ++ breaks (a :: rv)).
      rewrite Hbr, decide_True by done. done.
Qed.

Lemma handle_prog f o s x pb r s' x' :
  order_ok o → stored G s → G pb → handle_x f o s x pb r = Ok (s', x') → prog G s x s' x'.
Proof.
  intros Ho. revert s x pb r s' x'; induction f as [|f IH]; intros s x pb r s' x' Hst Hpb; cbn [handle_x]; [discriminate|].
  destruct (excluded _ _).
  { intros [= <- <-]. apply prog_same; [|done]. by apply stored_ext. }
  case_bool_decide.
  { intros [= <- <-]. apply prog_same; [|done]. by apply stored_ext. }
  set (s1 := set_pending s _).
  assert (P1 : prog G s x s1 x). { apply prog_same; [|done]. intros _. by apply stored_pending. }
  assert (Hst1 := pr_stored _ _ _ _ _ P1 Hst).
  destruct (_ && negb r); [by intros [= <- <-]|].
  destruct (poke s1 x) as [s2 x2] eqn:E2.
  pose proof (prog_trans _ _ _ _ _ _ P1 (prog_poke _ _ _ _ E2)) as P2.
  assert (Hst2 := pr_stored _ _ _ _ _ P2 Hst).
  clearbody s1. clear P1 E2.
  assert (Hem : ∀ s' x', prepare_emit_x o s2 x2 [pb] [] = Ok (s', x') → prog G s x s' x').
  { intros s3 x3 E. eapply prog_trans; [exact P2|]. eapply prepare_emit_prog; [..|exact E]; try done. by apply Forall_singleton. }
  case_bool_decide; [apply Hem|].
  destruct (_ && _ && _); [apply Hem|].
  assert (Hq : ∀ s3 x3, prog G s x s3 x3 → prog G s x (queue s3 pb) x3).
  { intros s3 x3 P. eapply prog_trans; [exact P|]. apply prog_same; [|done]. intros Hs. by apply stored_queue. }
  destruct (finished s2 (pb_parent pb)).
  - destruct (poke s2 x2) as [s3 x3] eqn:E3.
    pose proof (prog_trans _ _ _ _ _ _ P2 (prog_poke _ _ _ _ E3)) as P3.
    assert (Hst3 := pr_stored _ _ _ _ _ P3 Hst).
    match goal with |- context [r ← prepare_reorg _ _ _; _] => idtac end.
    assert (Hlight :
      (s ← fin_add o s3 (pb_hash pb);
        c ← get_child 0 o s (pb_hash pb);
        match c with
        | Some child =>
          r ← match o_pending s !! child with
              | Some cpb => handle_x f o s x3 cpb true
              | None => Ok (s, x3)
              end;
          Ok (queue r.1 pb, r.2)
        | None => Ok (queue s pb, x3)
        end) = Ok (s', x') → prog G s x s' x').
    { destruct (fin_add _ _ _) as [s4| |] eqn:E4; ob; try discriminate. apply fin_add_sub in E4 as [E4 _].
      pose proof (prog_trans _ _ _ _ _ _ P3 (prog_sub _ _ x3 E4)) as P4.
      assert (Hst4 := pr_stored _ _ _ _ _ P4 Hst).
      destruct (get_child _ _ _ _) as [[c|]| |]; ob; try discriminate.
      2: { intros [= <- <-]. by apply Hq. }
      destruct (o_pending s4 !! c) as [cpb|] eqn:Ec; ob.
      2: { intros [= <- <-]. by apply Hq. }
      destruct (handle_x _ _ _ _ _ _) as [[s5 x5]| |] eqn:E5; ob; try discriminate.
      intros [= <- <-]. apply Hq. eapply prog_trans; [exact P4|]. eapply IH; [done| |exact E5].
      by apply (st_pending _ _ Hst4) in Ec as [_ ?]. }
    destruct (o_pending s3 !! o_last s3) as [lb|] eqn:El; [|exact Hlight].
    destruct (_ <? _)%N; [|exact Hlight].
    destruct (prepare_reorg _ _ _) as [[rm ad| |]| |] eqn:Er; ob; try discriminate.
    + intros E. eapply prog_trans; [exact P3|].
      apply reorg_walk_breaks in Er; try done.
      * destruct Er as (? & ? & ? & ? & ?). by eapply prepare_emit_prog; [..|exact E].
      * intros h b. apply (st_pending _ _ Hst3).
      * by apply (st_pending _ _ Hst3) in El as [_ ?].
      * by apply Forall_singleton.
      * by eexists.
    + intros [= <- <-]. by apply Hq.
    + by intros [= <- <-].
  - destruct (_ <? _)%N.
    2: { intros [= <- <-]. by apply Hq. }
    destruct (poke s2 x2) as [s3 x3] eqn:E3.
    pose proof (prog_trans _ _ _ _ _ _ P2 (prog_poke _ _ _ _ E3)) as P3.
    match goal with |- (if ?b then _ else _) = _ → _ => destruct b end.
    + intros [= <- <-]. eapply prog_trans; [exact P3|]. apply prog_same; [|done]. apply stored_delete.
    + destruct (fin_add _ _ _) as [s4| |] eqn:E4; ob; try discriminate. apply fin_add_sub in E4 as [E4 _].
      intros [= <- <-]. apply Hq. eapply prog_trans; [exact P3|]. by apply prog_sub.
Qed.

Lemma flush_prog s x : prog G s x (flush (s, x)) [].
Proof.
  unfold flush. cbn [fst snd]. pose proof (prog_poke s [concat x] _ _ eq_refl) as [A (c & evs & E & O & V)].
  split; [done|]. exists x, evs. rewrite app_nil_r in *. subst c. split; [done|]. split; [done|].
  unfold evs_ok in *. cbn [concat] in V. by rewrite app_nil_r in V.
Qed.

Lemma run_prog l s s' :
  Forall (λ i, order_ok i.1.1) l → Forall G (blocks_of l) → stored G s → omp_run_x s l = Ok s' →
  stored G s' ∧ ∃ evs, o_out s' = o_out s ++ evs ∧ evs_ok G [notices_of l] evs.
Proof.
  revert s; induction l as [|[[o x] i] l IH]; intros s Hord HGl Hst; unfold omp_run_x; cbn [foldM].
  { intros [= <-]. split; [done|]. exists []. rewrite app_nil_r. split; [done|]. apply (notices_evs_ok _ []). }
  apply Forall_cons in Hord as [Ho Hord]. cbn in Ho.
  destruct (omp_step_x s (o, x, i)) as [s1| |] eqn:E1; ob; try discriminate. intros E.
  assert (H1 : stored G s1 ∧ Forall G (blocks_of l) ∧ ∃ evs, o_out s1 = o_out s ++ evs ∧
    evs_ok G [concat x ++ match i with InBatch _ => [] | InReorg n h => [(n, h)] end] evs).
  { unfold omp_step_x in E1. cbn [fst snd] in E1. unfold blocks_of in HGl. cbn [omap list_omap snd] in HGl. destruct i as [pb|n h].
    - apply Forall_cons in HGl as [Hpb HGl].
      destruct (handle_x _ _ _ _ _ _) as [[s2 x2]| |] eqn:E2; cbn [mbind outcome_bind] in E1; try discriminate.
      injection E1 as <-. apply handle_prog in E2; [|done..].
      destruct (prog_trans _ _ _ _ _ _ E2 (flush_prog s2 x2)) as [A (c & evs & Ec & O & V)].
      rewrite app_nil_r in Ec. subst c. split; [by apply A|]. split; [done|]. exists evs. split; [done|].
      rewrite app_nil_r. unfold evs_ok in *. cbn [concat]. by rewrite app_nil_r.
    - injection E1 as <-. destruct (flush_prog s x) as [A (c & evs & Ec & O & V)].
      rewrite app_nil_r in Ec. subst c. split; [eapply stored_ext; [..|apply A; exact Hst]; done|]. split; [done|].
      exists (evs ++ [EvReorg n h]). split; [change (o_out (handle_reorg (flush (s, x)) n h)) with (o_out (flush (s, x)) ++ [EvReorg n h]); by rewrite O, <- app_assoc|].
      pose proof (evs_ok_app G _ _ _ _ V (notices_evs_ok G [(n, h)])) as V'.
      unfold evs_ok in *. cbn [concat]. rewrite concat_app in V'. cbn [concat] in V'. by rewrite !app_nil_r in *. }
  destruct H1 as (Hst1 & HGl1 & e1 & O1 & V1).
  apply IH in E as (Hst' & e2 & O2 & V2); [|done..]. split; [done|].
  exists (e1 ++ e2). split; [by rewrite O2, O1, <- app_assoc|].
  pose proof (evs_ok_app G _ _ _ _ V1 V2) as V. unfold evs_ok in *. unfold notices_of in *. cbn [map concat fst snd app] in *.
  rewrite !app_nil_r in *. done.
Qed.
End prog.

(** * The budgets suffice *)
Section live.
Context (T : tree) (G : pending_batch → Prop).
Context (HG : ∀ b, G b → agree T b) (HGrow : ∀ b, G b → growing T (pb_hash b)).

Lemma poke_stored s x s' x' : poke s x = (s', x') → stored G s → stored G s'.
Proof. intros E. apply (pr_stored _ _ _ _ _ (prog_poke G _ _ _ _ E)). Qed.

Lemma emit_loop_x_live M f o s x new :
  order_ok o → stored G s → size (o_queued s) ≤ M →
  length x * S M + above T (o_queued s) (t_num T (o_last s)) < f → live (emit_loop_x f o s x new).
Proof.
  intros Ho. revert s x new; induction f as [|f IH]; intros s x new Hst HM Hf; [lia|]. cbn [emit_loop_x].
  destruct (poke s x) as [s1 x1] eqn:E1.
  assert (Hst1 := poke_stored _ _ _ _ E1 Hst).
  destruct (poke_pend _ _ _ _ E1) as (_ & Eq1 & Hx).
  assert (Hf1 : length x1 * S M + above T (o_queued s1) (t_num T (o_last s1)) < S f).
  { destruct Hx as [(-> & -> & ->)|[c ->]]; [done|]. cbn [length] in Hf.
    pose proof (above_size T (o_queued s1) (t_num T (o_last s1))) as Ha. rewrite Eq1 in Ha |- *. lia. }
  rewrite <- Eq1 in HM. clear E1 Hx Hf Hst Eq1.
  destruct (get_child_ok T G HG HGrow f o s1 (o_last s1) Ho Hst1) as [[h|] Eg]; rewrite Eg; ob; [|done].
  destruct (o_pending s1 !! h) as [pb|] eqn:Ep; [|done].
  destruct (emit_child_parent T G HG _ _ _ _ _ Ho Hst1 Eg Ep) as (Hpar & Ha & Eh).
  apply get_child_elem in Eg as (cs & Hq & _); [|done].
  apply live_bind; [by eapply finish_siblings_live|]. intros s2 E2. apply finish_siblings_sub in E2.
  assert (Hst2 := stored_sub G _ _ Hst1 E2).
  destruct (poke s2 x1) as [s3 x3] eqn:E3.
  assert (Hst3 := poke_stored _ _ _ _ E3 Hst2).
  destruct (poke_pend _ _ _ _ E3) as (_ & Eq3 & Hx).
  assert (Hl : length x3 ≤ length x1).
  { destruct Hx as [(-> & _ & ->)|[c ->]]; cbn; lia. }
  assert (Hst3' : stored G (set_last s3 (pb_hash pb) (pb_weight pb))) by (by eapply stored_ext; [..|exact Hst3]).
  apply live_bind; [by eapply fin_add_live|].
  intros s4 E4. apply fin_add_sub in E4 as [E4 _].
  assert (Hqs : o_queued s4 ⊆ o_queued s1).
  { pose proof (sub_queued _ _ E4) as H4. cbn in H4. rewrite Eq3 in H4. etrans; [exact H4|]. apply E2. }
  apply IH.
  - by eapply stored_sub.
  - etrans; [apply map_size_sub; exact Hqs|done].
  - rewrite (sub_last _ _ E4). cbn [o_last set_last].
    assert (Hlt : above T (o_queued s4) (t_num T (pb_hash pb)) < above T (o_queued s1) (t_num T (o_last s1))).
    { apply above_lt with (h := o_last s1); [done|by eexists|].
      destruct (HGrow _ Ha) as [Hn _]. destruct (HG _ Ha) as (_ & Hp & _). rewrite Hn, <- Hp, Hpar. lia. }
    pose proof (Nat.mul_le_mono_r _ _ (S M) Hl). lia.
Qed.

Lemma prepare_emit_x_live o s x new old : order_ok o → stored G s → live (prepare_emit_x o s x new old).
Proof.
  intros Ho Hst. unfold prepare_emit_x.
  assert (Hloop : ∀ r : omp * noise, stored G r.1 →
    live (r ← emit_loop_x (S (qfuel r.1) * S (length r.2)) o r.1 r.2 new;
          let '(s, x) := poke r.1.1 r.1.2 in Ok (send s (EvUpdate r.2 old), x))).
  { intros [s2 x2] Hst2. cbn [fst snd] in *. apply live_bind.
    - apply (emit_loop_x_live (size (o_queued s2))); [done|done|done|].
      unfold qfuel. pose proof (above_size T (o_queued s2) (t_num T (o_last s2))). lia.
    - intros [[s3 x3] n3] _. cbn [fst snd]. by destruct (poke s3 x3). }
  apply live_bind.
  - destruct (last new) as [b|]; [|done]. destruct (poke s x) as [s1 x1] eqn:E1.
    assert (Hst1 : stored G (set_last s1 (pb_hash b) (pb_weight b))).
    { eapply stored_ext; [..|exact (poke_stored _ _ _ _ E1 Hst)]; done. }
    apply live_bind; [by eapply finish_siblings_live|].
    intros s2 E2. apply finish_siblings_sub in E2.
    apply live_bind; [|done]. eapply fin_add_live, stored_sub; [exact Hst1|exact E2].
  - intros [s2 x2] E. apply Hloop. cbn [fst]. destruct (last new) as [b|]; [|by injection E as <- _].
    destruct (poke s x) as [s1 x1] eqn:E1.
    assert (Hst1 : stored G (set_last s1 (pb_hash b) (pb_weight b))).
    { eapply stored_ext; [..|exact (poke_stored _ _ _ _ E1 Hst)]; done. }
    destruct (finish_siblings _ _ _) as [s3| |] eqn:E3; cbn [mbind outcome_bind] in E; try discriminate.
    destruct (fin_add _ _ _) as [s4| |] eqn:E4; cbn [mbind outcome_bind] in E; try discriminate.
    injection E as <- _. apply finish_siblings_sub in E3. apply fin_add_sub in E4 as [E4 _].
    eapply stored_sub; [|exact E4]. by eapply stored_sub.
Qed.

Lemma handle_x_live f o s x pb r :
  order_ok o → stored G s → G pb → above T (o_queued s) (t_num T (pb_hash pb)) < f → live (handle_x f o s x pb r).
Proof.
  intros Ho. revert s x pb r; induction f as [|f IH]; intros s x pb r Hst Hpb Hf; [lia|]. cbn [handle_x].
  destruct (excluded (o_wl s) pb); [done|]. case_bool_decide; [done|].
  set (s1 := set_pending s _).
  assert (Hst1 : stored G s1) by (by apply stored_pending).
  assert (Hq1 : o_queued s1 = o_queued s) by done. clearbody s1.
  destruct (_ && negb r); [done|].
  destruct (poke s1 x) as [s2 x2] eqn:E2. assert (Hst2 := poke_stored _ _ _ _ E2 Hst1).
  destruct (poke_pend _ _ _ _ E2) as (_ & Hq2 & _). rewrite Hq1 in Hq2. clear E2 Hst1 Hq1 s1.
  case_bool_decide; [by apply prepare_emit_x_live|].
  destruct (_ && _ && _); [by apply prepare_emit_x_live|].
  destruct (finished s2 (pb_parent pb)).
  - destruct (poke s2 x2) as [s3 x3] eqn:E3. assert (Hst3 := poke_stored _ _ _ _ E3 Hst2).
    destruct (poke_pend _ _ _ _ E3) as (_ & Hq3 & _). rewrite Hq2 in Hq3.
    assert (Hlight : live
      (s ← fin_add o s3 (pb_hash pb);
        c ← get_child 0 o s (pb_hash pb);
        match c with
        | Some child =>
          r ← match o_pending s !! child with
              | Some cpb => handle_x f o s x3 cpb true
              | None => Ok (s, x3)
              end;
          Ok (queue r.1 pb, r.2)
        | None => Ok (queue s pb, x3)
        end)).
    { apply live_bind; [by eapply fin_add_live|]. intros s4 E4. apply fin_add_sub in E4 as [E4 _].
      assert (Hst4 : stored G s4) by (by eapply stored_sub).
      destruct (get_child_ok T G HG HGrow 0 o s4 (pb_hash pb) Ho Hst4) as [[child|] Eg]; rewrite Eg; ob; [|done].
      apply live_bind; [|done]. destruct (o_pending s4 !! child) as [cpb|] eqn:Ec; [|done].
      destruct (st_pending _ _ Hst4 _ _ Ec) as [Ech HGc].
      apply IH; [done|done|].
      apply get_child_elem in Eg as (cs & Hq & Hin); [|done].
      assert (Hin' : child ∈ cs).
      { destruct Hin as [?| ->]; [done|]. by destruct (HG _ HGc) as (Hz & _). }
      pose proof (sub_queued _ _ E4) as Hqs. rewrite Hq3 in Hqs.
      eapply Nat.lt_le_trans; [|apply Nat.lt_succ_r; exact Hf].
      apply above_lt with (h := pb_hash pb).
      - done.
      - exists cs. by eapply lookup_weaken.
      - rewrite Ech, (child_num T G HG HGrow _ _ _ _ Hst4 Hq Hin'). lia. }
    destruct (o_pending s3 !! o_last s3) as [lb|] eqn:El; [|exact Hlight].
    destruct (_ <? _)%N; [|exact Hlight].
    destruct (st_pending _ _ Hst3 _ _ El) as [Elh Hlb].
    apply live_bind; [by eapply prepare_reorg_live|].
    intros [rm ad| |] _; [by apply prepare_emit_x_live|done|done].
  - destruct (_ <? _)%N; [|done].
    destruct (poke s2 x2) as [s3 x3] eqn:E3. assert (Hst3 := poke_stored _ _ _ _ E3 Hst2).
    match goal with |- live (if ?b then _ else _) => destruct b end; [done|].
    apply live_bind; [by eapply fin_add_live|done].
Qed.

Lemma run_x_live l s :
  Forall (λ i, order_ok i.1.1) l → Forall G (blocks_of l) → stored G s → live (omp_run_x s l).
Proof.
  revert s; induction l as [|[[o x] i] l IH]; intros s Hord HGl Hst; unfold omp_run_x; cbn [foldM]; [done|].
  pose proof Hord as Hord0. apply Forall_cons in Hord as [Ho Hord]. cbn in Ho.
  apply live_bind.
  - unfold omp_step_x. cbn [fst snd]. destruct i as [pb|n h]; [|done].
    unfold blocks_of in HGl. cbn in HGl. apply Forall_cons in HGl as [Hpb _].
    apply live_bind; [|done]. apply handle_x_live; [done|done|done|].
    unfold qfuel. pose proof (above_size T (o_queued s) (t_num T (pb_hash pb))). lia.
  - intros s1 E. apply IH; [done| |].
    + unfold blocks_of in *. cbn in HGl. destruct i; [by apply Forall_cons in HGl as [_ ?]|done].
    + apply (run_prog G T HG [(o, x, i)] s s1).
      * by apply Forall_singleton.
      * unfold blocks_of in *. cbn in *. destruct i; [|constructor]. apply Forall_cons in HGl as [? _]. by apply Forall_singleton.
      * done.
      * unfold omp_run_x. cbn [foldM]. by rewrite E.
Qed.
End live.

(** * From the start *)
Section start.
Context (T : tree) (cfg : config) (s0 : omp) (l : list (order * noise * omp_input)).
Context (H0 : new_omp cfg = Ok s0) (Hord : Forall (λ i, order_ok i.1.1) l) (Hag : Forall (agree T) (blocks_of l)).

Lemma race_run s : omp_run_x s0 l = Ok s →
  published_notices (o_out s) = notices_of l ∧
  (∀ b, b ∈ all_added (o_out s) ∨ b ∈ all_removed (o_out s) → b ∈ blocks_of l) ∧
  all_breaks (o_out s) `sublist_of` map snd (notices_of l) ∧
  (∀ added removed, (added, removed) ∈ updates_of (o_out s) → breaks removed = []).
Proof.
  intros E. rewrite Forall_forall in Hag.
  destruct (run_prog (λ b, b ∈ blocks_of l) T Hag l s0 s) as (_ & evs & O & V); [done| |by eapply stored_init|done|].
  { by apply Forall_forall. }
  assert (Eo : o_out s0 = []) by (revert H0; unfold new_omp; case_bool_decide; [discriminate|by intros [= <-]]).
  rewrite Eo in O. cbn in O. rewrite O. destruct V as (V1 & V2 & V3 & V4 & V5). cbn [concat] in *. rewrite app_nil_r in *.
  split; [done|]. split.
  { intros b [Hb|Hb]; [exact (proj1 (Forall_forall _ _) V2 b Hb)|exact (proj1 (Forall_forall _ _) V3 b Hb)]. }
  split; [done|]. intros a r Hin. exact (proj1 (Forall_forall _ _) V5 _ Hin).
Qed.

Lemma race_live : Forall (λ b, growing T (pb_hash b)) (blocks_of l) → omp_run_x s0 l ≠ Hang.
Proof.
  intros Hgr. apply (run_x_live T (Gg T)).
  - by intros b [? _].
  - by intros b [_ ?].
  - done.
  - apply Forall_forall. intros b Hb. split; [exact (proj1 (Forall_forall _ _) Hag b Hb)|exact (proj1 (Forall_forall _ _) Hgr b Hb)].
  - by eapply stored_init.
Qed.
End start.
