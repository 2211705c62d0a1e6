(** Helpers for the concrete cases shown beside the theorems. *)
From Verif Require Import Base Types Ordering SpecChain.

(** The block tree described by a list of blocks; [base] gives number and weight of the
    blocks that are not in the list. *)
Definition tree_of (l : list pending_batch) (others : list (hash * (Z * N))) : tree :=
  let find h := list_find (λ b, pb_hash b = h) l in
  let find' h := list_find (λ p : hash * (Z * N), p.1 = h) others in
  Tree (λ h, match find h with Some (_, b) => pb_parent b | None => 0%N end)
       (λ h, match find h with Some (_, b) => pb_num b
             | None => match find' h with Some (_, p) => p.2.1 | None => 0%Z end end)
       (λ h, match find h with Some (_, b) => pb_weight b
             | None => match find' h with Some (_, p) => p.2.2 | None => 0%N end end).

Definition agreeb (T : tree) (b : pending_batch) : bool :=
  bool_decide (pb_hash b ≠ zero_hash) && bool_decide (pb_parent b = t_par T (pb_hash b)) &&
  bool_decide (pb_num b = t_num T (pb_hash b)) && bool_decide (pb_weight b = t_wt T (pb_hash b)).
Definition growingb (T : tree) (h : hash) : bool :=
  bool_decide (t_num T h = t_num T (t_par T h) + 1)%Z && (t_wt T (t_par T h) <? t_wt T h)%N.

Lemma agreeb_ok T b : agreeb T b = true → agree T b.
Proof.
  unfold agreeb, agree. rewrite !andb_true_iff, !bool_decide_eq_true. tauto.
Qed.
Lemma growingb_ok T h : growingb T h = true → growing T h.
Proof. unfold growingb, growing. by rewrite andb_true_iff, bool_decide_eq_true, N.ltb_lt. Qed.

Definition in_batches (o : order) (l : list pending_batch) : list (order * omp_input) :=
  map (λ b, (o, InBatch b)) l.

Definition all_agree (T : tree) (l : list pending_batch) : bool := forallb (agreeb T) l.
Definition all_growing (T : tree) (l : list pending_batch) : bool :=
  forallb (λ b, growingb T (pb_hash b)) l.
Lemma all_agree_ok T l : all_agree T l = true → Forall (agree T) l.
Proof.
  intros H. apply Forall_forall. intros b Hb. apply agreeb_ok.
  unfold all_agree in H. rewrite forallb_forall in H. apply H. by apply elem_of_list_In.
Qed.
Lemma all_growing_ok T l : all_growing T l = true → Forall (λ b, growing T (pb_hash b)) l.
Proof.
  intros H. apply Forall_forall. intros b Hb. apply growingb_ok.
  unfold all_growing in H. rewrite forallb_forall in H. apply H. by apply elem_of_list_In.
Qed.
Lemma orders_id l : Forall (λ i : order * omp_input, i.1 = id_order) l → orders_ok l.
Proof. intros H. eapply Forall_impl; [exact H|]. intros i ->. apply id_order_ok. Qed.

Definition run (cfg : config) (l : list (order * omp_input)) : outcome omp :=
  s ← new_omp cfg; omp_run s l.
