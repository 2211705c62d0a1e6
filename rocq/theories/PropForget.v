(** C71: the waiter forgets completed blocks. *)
From Verif Require Import Base Waiter SpecWaiter SpecPipeline SpecForget WaiterFacts4 ForgetFacts.

(** C71.  Once every announcement of a hash was completed and the goroutines have dealt with that, a minute later neither an
    entry nor a goroutine for it is left, whatever else happens meanwhile, unless it is announced anew. *)
Theorem C71_hash_forgotten : ∀ tr s tr2 s' h,
  wrun tr w_init = Ok s → at_rest s → completed tr (λ x, x.1.1 = h) →
  wrun tr2 s = Ok s' → none_new s tr2 (λ x, x.1.1 = h) → (sixty ≤ clock tr2)%N → at_rest s' → forgotten s' h.
Proof. exact hash_forgotten. Qed.
Print Assumptions C71_hash_forgotten.
(** The same for the entry of a number. *)
Theorem C71_number_forgotten : ∀ tr s tr2 s' n,
  wrun tr w_init = Ok s → at_rest s → completed tr (λ x, x.1.2 = n) →
  wrun tr2 s = Ok s' → none_new s tr2 (λ x, x.1.2 = n) → (sixty ≤ clock tr2)%N → at_rest s' → w_numbers s' !! n = None.
Proof. exact number_forgotten. Qed.
Print Assumptions C71_number_forgotten.
(** If everything announced was completed, nothing at all is left. *)
Theorem C71_all_forgotten : ∀ tr s tr2 s',
  wrun tr w_init = Ok s → at_rest s → completed tr (λ _, True) →
  wrun tr2 s = Ok s' → none_new s tr2 (λ _, True) → (sixty ≤ clock tr2)%N → at_rest s' →
  w_hashes s' = ∅ ∧ w_numbers s' = ∅ ∧ w_tasks s' = ∅.
Proof. exact all_forgotten. Qed.
Print Assumptions C71_all_forgotten.
(** Of several blocks with one number it is enough that one is completed after all of them arrived, provided it is the first. *)
Theorem C71_fork_forgotten : ∀ tr1 s1 tr2 s tr3 s' h n h' ch',
  wrun tr1 w_init = Ok s1 → (∀ x, x ∈ received tr1 → x.1.2 = n → ¬ called tr1 x.2) →
  (∀ x, x ∈ received tr1 → x.1.1 = h → x.1.2 = n) → (h', n, ch') ∈ received tr1 →
  wrun tr2 s1 = Ok s → none_new s1 tr2 (λ x, x.1.1 = h) → ADone ch' ∈ tr2 → at_rest s →
  wrun tr3 s = Ok s' → none_new s tr3 (λ x, x.1.1 = h) → (sixty ≤ clock tr3)%N → at_rest s' → forgotten s' h.
Proof. exact fork_forgotten. Qed.
Print Assumptions C71_fork_forgotten.
(** The goroutines come to rest by themselves, in whatever order they take their steps. *)
Theorem C71_rests : ∀ s, inevitably goes_on at_rest s.
Proof. exact comes_to_rest. Qed.
Print Assumptions C71_rests.

(** * Cases *)
Lemma at_rest_check s : map_Forall (λ _ t, ¬ ready_to_go s t) (w_tasks s) → at_rest s.
Proof.
  intros H [| |id|id|id| | | | | | |] Ha; try done; cbn [wstep]; destruct (w_tasks s !! id) as [[nch hch h n|u h num]|] eqn:E; try done;
    specialize (H _ _ E); cbn in H; case_bool_decide; try done; exfalso; apply H; naive_solver.
Qed.
Definition rests (s : wst) : bool := bool_decide (map_Forall (λ _ t, ¬ ready_to_go s t) (w_tasks s)).
Lemma run_rests tr (P : wst → bool) : match wrun tr w_init with Ok s => rests s && P s | _ => false end = true →
  ∃ s, wrun tr w_init = Ok s ∧ at_rest s ∧ P s = true.
Proof.
  destruct (wrun tr w_init) as [s| |]; [|done|done]. intros [H1 H2]%andb_prop. exists s. split; [done|]. split; [|done].
  apply at_rest_check. by apply bool_decide_eq_true in H1.
Qed.
Lemma run_split tr tr2 s' : wrun (tr ++ tr2) w_init = Ok s' → ∃ s, wrun tr w_init = Ok s ∧ wrun tr2 s = Ok s'.
Proof. unfold wrun. rewrite foldM_app. destruct (foldM wstep tr w_init) as [s| |]; [|done|done]. intros H. by exists s. Qed.

(** Two blocks with number 3 arrive; the first is completed; a third block arrives and stays. *)
Definition fk1 : list waction := [AAnnounce 7 3 0; AAnnounce 8 3 1; ARecv; ARecv].
Definition fk2 : list waction := [ATick 5; ADone 0; AWakeHash 1; AWakeNum 2].
Definition fk3 : list waction := [AAnnounce 9 4 2; ARecv; ATick 60000000000; AExpire 1; AExpire 2].
Example C71_fork_case : ∃ s1 s s',
  wrun fk1 w_init = Ok s1 ∧ (∀ x, x ∈ received fk1 → x.1.2 = 3%Z → ¬ called fk1 x.2) ∧
  (∀ x, x ∈ received fk1 → x.1.1 = 8%N → x.1.2 = 3%Z) ∧ (7%N, 3%Z, 0%N) ∈ received fk1 ∧
  wrun fk2 s1 = Ok s ∧ none_new s1 fk2 (λ x, x.1.1 = 8%N) ∧ ADone 0 ∈ fk2 ∧ at_rest s ∧
  wrun fk3 s = Ok s' ∧ none_new s fk3 (λ x, x.1.1 = 8%N) ∧ (sixty ≤ clock fk3)%N ∧ at_rest s' ∧
  w_hashes s' = {[9%N := 2%N]} ∧ w_hashes s = {[7%N := 0%N; 8%N := 1%N]}.
Proof.
  destruct (wrun fk1 w_init) as [s1| |] eqn:E1; [|by vm_compute in E1|by vm_compute in E1].
  destruct (run_rests (fk1 ++ fk2) (λ s, bool_decide (w_hashes s = {[7%N := 0%N; 8%N := 1%N]}) && bool_decide (w_queue s = []))) as (s & H2 & R2 & C2); [by vm_compute|].
  destruct (run_rests ((fk1 ++ fk2) ++ fk3) (λ s, bool_decide (w_hashes s = {[9%N := 2%N]}))) as (s' & H3 & R3 & C3); [by vm_compute|].
  apply run_split in H2 as (s1' & H1 & H2). rewrite E1 in H1. injection H1 as <-.
  apply run_split in H3 as (s0 & H1 & H3). rewrite (run_app _ _ _ _ E1 H2) in H1. injection H1 as <-.
  apply andb_prop in C2 as [C2 C2']. apply bool_decide_eq_true in C2, C2', C3.
  assert (Q1 : w_queue s1 = []) by (by injection E1 as <-).
  exists s1, s, s'. split; [done|]. split.
  { intros x _ _ [H|[k H]]; unfold fk1 in H; repeat (apply elem_of_cons in H as [H|H]; [discriminate H|]); by apply elem_of_nil in H. }
  split; [intros x Hx; repeat (apply elem_of_cons in Hx as [->|Hx]; [done|]); by apply elem_of_nil in Hx|].
  split; [left|]. split; [done|]. split; [intros x; unfold none_new; rewrite Q1; intros Hx; by apply elem_of_nil in Hx|].
  split; [right; left|]. split; [done|]. split; [done|].
  split; [intros x; unfold none_new; rewrite C2'; intros ->%elem_of_list_singleton; done|].
  split; [by vm_compute|]. by split.
Qed.
(** One block, completed, is gone after a minute. *)
Definition al1 : list waction := [AAnnounce 7 3 0; ARecv; ADone 0; AWakeHash 1].
Definition al2 : list waction := [ATick 60000000000; AExpire 1].
Example C71_all_case : ∃ s s', wrun al1 w_init = Ok s ∧ at_rest s ∧ completed al1 (λ _, True) ∧ w_hashes s ≠ ∅ ∧
  wrun al2 s = Ok s' ∧ none_new s al2 (λ _, True) ∧ (sixty ≤ clock al2)%N ∧ at_rest s'.
Proof.
  destruct (run_rests al1 (λ s, bool_decide (w_hashes s ≠ ∅) && bool_decide (w_queue s = []))) as (s & H1 & R1 & C1); [by vm_compute|].
  destruct (run_rests (al1 ++ al2) (λ s, true)) as (s' & H2 & R2 & _); [by vm_compute|].
  apply run_split in H2 as (s0 & H0 & H2). rewrite H1 in H0. injection H0 as <-.
  apply andb_prop in C1 as [C1 C1']. apply bool_decide_eq_true in C1, C1'. exists s, s'. split; [done|]. split; [done|].
  split; [intros x ->%elem_of_list_singleton _; right; right; left|]. split; [done|]. split; [done|].
  split; [intros x; unfold none_new; rewrite C1'; intros Hx; by apply elem_of_nil in Hx|]. by split.
Qed.

(** * What is not forgotten *)
(** A block on which Done is never called (the code says so of blocks that are reorganised away) keeps its entries and its
    goroutine: here for a year. *)
Definition year : N := 31536000000000000.
Theorem C71_uncompleted_refuted : ∃ tr s, wrun tr w_init = Ok s ∧ at_rest s ∧ received tr = [(7%N, 3%Z, 0%N)] ∧ clock tr = year ∧
  ¬ forgotten s 7 ∧ w_numbers s !! 3%Z ≠ None ∧ size (w_tasks s) = 1.
Proof.
  exists [AAnnounce 7 3 0; ARecv; ATick year].
  destruct (run_rests [AAnnounce 7 3 0; ARecv; ATick year] (λ s, bool_decide (w_hashes s !! 7%N ≠ None) && (bool_decide (w_numbers s !! 3%Z ≠ None) && bool_decide (size (w_tasks s) = 1))))
    as (s & H & R & C); [by vm_compute|].
  apply andb_prop in C as [C1 [C2 C3]%andb_prop]. apply bool_decide_eq_true in C1, C2, C3.
  exists s. split; [done|]. split; [done|]. split; [done|]. split; [done|]. split; [by intros [? _]|]. by split.
Qed.
Print Assumptions C71_uncompleted_refuted.
(** Nor does it always help that another block with the same number is completed later: block 1 was completed, block 2 arrives
    within a minute of it and its goroutine ends with the channel of block 1; block 3 arrives after that minute; when block 2 is
    completed nobody tells block 3. *)
Definition lost : list waction :=
  [AAnnounce 1 3 0; ARecv; ADone 0; AWakeHash 1; ATick 30000000000; AAnnounce 2 3 1; ARecv; AWakeNum 2; ATick 30000000000; AExpire 1;
   ATick 1000000000; AAnnounce 3 3 2; ARecv; ADone 1; ATick 30000000000; AExpire 2; ATick year].
Theorem C71_later_refuted : ∃ pre post s, wrun (pre ++ ADone 1 :: post) w_init = Ok s ∧ at_rest s ∧
  received pre = [(1%N, 3%Z, 0%N); (2%N, 3%Z, 1%N); (3%N, 3%Z, 2%N)] ∧ (year ≤ clock post)%N ∧ ¬ forgotten s 3.
Proof.
  exists (take 13 lost), (drop 14 lost).
  destruct (run_rests (take 13 lost ++ ADone 1 :: drop 14 lost) (λ s, bool_decide (w_hashes s !! 3%N ≠ None))) as (s & H & R & C); [by vm_compute|].
  apply bool_decide_eq_true in C. exists s. split; [exact H|]. split; [exact R|]. split; [vm_compute; reflexivity|]. split; [by vm_compute|]. intros [Hf _]. exact (C Hf).
Qed.
Print Assumptions C71_later_refuted.
