(** Checkers used by the concrete cases of C24. *)
From Verif Require Import Base Lru Types Ordering SpecChain SpecExamples SpecHeavy.

Fixpoint conb (f : nat) (T : tree) (R : hash) (D : list hash) (h : hash) : bool :=
  match f with
  | 0 => false
  | S f => bool_decide (h = R) || (bool_decide (h ∈ D) && conb f T R D (t_par T h))
  end.
Lemma conb_ok f T R D h : conb f T R D h = true → connected T R D h.
Proof.
  revert h; induction f as [|f IH]; intros h; cbn [conb]; [discriminate|].
  rewrite orb_true_iff, andb_true_iff, !bool_decide_eq_true. intros [->|[Hin H]]; [constructor|].
  apply con_block; [done|by apply IH].
Qed.

Fixpoint ancb (f : nat) (T : tree) (a h : hash) : bool :=
  match f with
  | 0 => false
  | S f => bool_decide (h = a) || ancb f T a (t_par T h)
  end.
Lemma ancb_ok f T a h : ancb f T a h = true → ancestor T a h.
Proof.
  revert h; induction f as [|f IH]; intros h; cbn [ancb]; [discriminate|].
  rewrite orb_true_iff, bool_decide_eq_true. intros [->|H]; [constructor|]. apply anc_step, IH, H.
Qed.

Definition forksb (f : nat) (T : tree) (R : hash) (D : list hash) : bool :=
  forallb (λ n, let D1 := take n D in
    forallb (λ c1, forallb (λ c2, negb (bool_decide (t_par T c1 = t_par T c2)) ||
      conb f T R D1 (t_par T c1) || bool_decide (c1 = c2)) D1) D1) (seq 0 (S (length D))).
Lemma forksb_ok f T R D : forksb f T R D = true → forks_connected T R D.
Proof.
  unfold forksb. rewrite forallb_forall. intros H D1 D2 -> c1 c2 H1 H2 He.
  specialize (H (length D1)). rewrite take_app in H.
  assert (Hl : In (length D1) (seq 0 (S (length (D1 ++ D2))))) by (apply in_seq; rewrite app_length; lia).
  apply H in Hl. cbn zeta in Hl. rewrite forallb_forall in Hl.
  specialize (Hl c1 (proj1 (elem_of_list_In _ _) H1)). rewrite forallb_forall in Hl.
  specialize (Hl c2 (proj1 (elem_of_list_In _ _) H2)).
  rewrite (bool_decide_eq_true_2 _ He) in Hl. cbn [negb orb] in Hl.
  apply orb_true_iff in Hl as [Hl|Hl]; [left; by apply conb_ok in Hl|right; by apply bool_decide_eq_true in Hl].
Qed.

Definition windowb (thr : Z) (l : list pending_batch) : bool :=
  (Z.of_nat (length (remove_dups (map pb_hash l))) <=? 2 * thr)%Z &&
  forallb (λ b1, forallb (λ b2, (pb_num b1 - pb_num b2 <=? thr)%Z) l) l.
Lemma windowb_ok thr l : windowb thr l = true → in_window thr l.
Proof.
  unfold windowb, in_window. rewrite andb_true_iff, Z.leb_le, forallb_forall. intros [H1 H2]. split; [done|].
  intros b1 b2 Hb1%elem_of_list_In Hb2%elem_of_list_In. specialize (H2 _ Hb1). rewrite forallb_forall in H2.
  specialize (H2 _ Hb2). lia.
Qed.

(** In [tree_of] only listed blocks descend from a block. *)
Lemma tree_of_down l oth R h :
  R ≠ 0%N → 0%N ∉ map pb_hash l → ancestor (tree_of l oth) R h → h = R ∨ h ∈ map pb_hash l.
Proof.
  intros HR Hz HA. remember (tree_of l oth) as T eqn:ET. revert HR ET. induction HA as [h|a h H IH]; intros HR ET; [by left|].
  assert (Hp : t_par T h ≠ 0%N).
  { intros E. rewrite E in IH. destruct (IH HR ET) as [E2|E2]; [by subst a|done]. }
  right. subst T. cbn in Hp. destruct (list_find _ l) as [[i b]|] eqn:Ef; [|done].
  apply list_find_Some in Ef as (Hi & Hb & _). rewrite <-Hb. apply elem_of_list_fmap.
  exists b. split; [done|]. by eapply elem_of_list_lookup_2.
Qed.
Lemma tree_of_growing l oth R :
  bool_decide (R ≠ 0%N) && bool_decide (0%N ∉ map pb_hash l) &&
  forallb (λ h, bool_decide (h = R) || growingb (tree_of l oth) h) (map pb_hash l) = true →
  ∀ h, ancestor (tree_of l oth) R h → h = R ∨ growing (tree_of l oth) h.
Proof.
  rewrite !andb_true_iff, !bool_decide_eq_true, forallb_forall. intros [[HR Hz] Hg] h Hh.
  apply tree_of_down in Hh as [->|Hh]; [by left| |done|done].
  specialize (Hg h (proj1 (elem_of_list_In _ _) Hh)). apply orb_true_iff in Hg as [Hg|Hg].
  - left. by apply bool_decide_eq_true in Hg.
  - right. by apply growingb_ok.
Qed.
Lemma all_desc f T R (l : list pending_batch) :
  forallb (λ b, ancb f T R (pb_hash b)) l = true → Forall (λ b, ancestor T R (pb_hash b)) l.
Proof.
  rewrite forallb_forall. intros H. apply Forall_forall. intros b Hb. eapply ancb_ok, H. by apply elem_of_list_In.
Qed.

(** Two children (6, 7) of block 5 arrive before 5. *)
Definition ex24_fork : list pending_batch :=
  [bare_batch 10 100 99 1; bare_batch 11 110 1 2; bare_batch 12 112 5 6; bare_batch 12 111 5 7;
   bare_batch 12 120 2 3; bare_batch 11 101 1 5; bare_batch 13 130 7 8]%N.
Definition ex24_others : list (hash * (Z * N)) := [(99%N, (9%Z, 99%N))].
Lemma early_fork_refuted : ∃ (T : tree) cfg s0 o0 b0 rest s x,
  let R := cfg_last_hash cfg in
  let l := (o0, InBatch b0) :: rest in
  let D := map pb_hash (batches_of l) in
  R ≠ zero_hash ∧ new_omp cfg = Ok s0 ∧ t_wt T R = cfg_last_weight cfg ∧ pb_hash b0 = R ∧
  orders_ok l ∧ no_reorgs l ∧ cfg_whitelist cfg = ∅ ∧
  Forall (agree T) (batches_of l) ∧ Forall (λ b, growing T (pb_hash b)) (batches_of l) ∧
  Forall (λ b, ancestor T R (pb_hash b)) (batches_of l) ∧
  (∀ h, ancestor T R h → h = R ∨ growing T h) ∧
  in_window (cfg_threshold cfg) (batches_of l) ∧
  omp_run s0 l = Ok s ∧ connected T R D x ∧ (t_wt T (o_last s) < t_wt T x)%N.
Proof.
  exists (tree_of ex24_fork ex24_others), (Config 10 1 100 50 ∅).
  assert (H : match run (Config 10 1 100 50 ∅) (in_batches id_order ex24_fork) with
              | Ok s => o_last s = 3%N | _ => False end) by (vm_compute; reflexivity).
  unfold run in H. destruct (new_omp _) as [s0| |] eqn:E0; [|done|done]. cbn [mbind outcome_bind] in H.
  destruct (omp_run _ _) as [s| |] eqn:E; [|done|done].
  exists s0, id_order, (bare_batch 10 100 99 1), (in_batches id_order (tail ex24_fork)), s, 8%N.
  cbn zeta.
  split; [done|]. split; [done|]. split; [by vm_compute|]. split; [done|].
  split; [apply orders_id; repeat constructor|]. split; [done|]. split; [done|].
  split; [by apply all_agree_ok; vm_compute|]. split; [by apply all_growing_ok; vm_compute|].
  split; [apply (all_desc 10); by vm_compute|]. split; [apply tree_of_growing; by vm_compute|].
  split; [apply windowb_ok; by vm_compute|]. split; [exact E|].
  split; [apply (conb_ok 10); by vm_compute|]. rewrite H. by vm_compute.
Qed.

(** Resuming from block 1: block 2, then its heavier sibling 3. *)
Definition ex24_resumed : list pending_batch := [bare_batch 11 110 1 2; bare_batch 11 120 1 3]%N.
Definition ex24_resumed_others : list (hash * (Z * N)) := [(1%N, (10%Z, 100%N))].
Lemma resumed_fork_refuted : ∃ (T : tree) cfg s0 l s x,
  let R := cfg_last_hash cfg in
  let D := map pb_hash (batches_of l) in
  R ≠ zero_hash ∧ new_omp cfg = Ok s0 ∧ t_wt T R = cfg_last_weight cfg ∧
  orders_ok l ∧ no_reorgs l ∧ cfg_whitelist cfg = ∅ ∧
  Forall (agree T) (batches_of l) ∧ Forall (λ b, growing T (pb_hash b)) (batches_of l) ∧
  Forall (λ b, ancestor T R (pb_hash b)) (batches_of l) ∧
  (∀ h, ancestor T R h → h = R ∨ growing T h) ∧
  in_window (cfg_threshold cfg) (batches_of l) ∧ forks_connected T R D ∧
  omp_run s0 l = Ok s ∧ connected T R D x ∧ (t_wt T (o_last s) < t_wt T x)%N.
Proof.
  exists (tree_of ex24_resumed ex24_resumed_others), (Config 10 1 100 50 ∅).
  assert (H : match run (Config 10 1 100 50 ∅) (in_batches id_order ex24_resumed) with
              | Ok s => o_last s = 2%N | _ => False end) by (vm_compute; reflexivity).
  unfold run in H. destruct (new_omp _) as [s0| |] eqn:E0; [|done|done]. cbn [mbind outcome_bind] in H.
  destruct (omp_run _ _) as [s| |] eqn:E; [|done|done].
  exists s0, (in_batches id_order ex24_resumed), s, 3%N.
  cbn zeta.
  split; [done|]. split; [done|]. split; [by vm_compute|].
  split; [apply orders_id; repeat constructor|]. split; [done|]. split; [done|].
  split; [by apply all_agree_ok; vm_compute|]. split; [by apply all_growing_ok; vm_compute|].
  split; [apply (all_desc 10); by vm_compute|]. split; [apply tree_of_growing; by vm_compute|].
  split; [apply windowb_ok; by vm_compute|]. split; [apply (forksb_ok 10); by vm_compute|]. split; [exact E|].
  split; [apply (conb_ok 10); by vm_compute|]. rewrite H. by vm_compute.
Qed.
