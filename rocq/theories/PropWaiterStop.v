(** C70: stopping a waiter. *)
From Verif Require Import Base Waiter SpecWaiter SpecForget WaiterStop SpecWaiterStop WaiterFacts4 ForgetFacts PropForget WaiterStopFacts.

(** C70.  With the bounded channel, and whenever Stop is called, Success still is the truth: the block was announced before Stop,
    and Done was called on it. *)
Theorem C70_success_truthful : ∀ tr v q k,
  srun tr v_init = Ok v → w_qs (v_w v) !! q = Some (QDone k Success) →
  ∃ x, announced_in_time tr x ∧ matches k x ∧ called (acts tr) x.2.
Proof. exact stop_success. Qed.
Print Assumptions C70_success_truthful.
(** A block that was not announced before Stop is not found. *)
Theorem C70_after_stop : ∀ tr v q d h,
  srun (tr ++ [SAct (ALookup q (KHash h) d)]) v_init = Ok v → (∀ x, ALookup q x.1 x.2 ∉ acts tr) →
  (∀ n ch, ¬ announced_in_time tr (h, n, ch)) → w_qs (v_w v) !! q = Some (QDone (KHash h) NotFound).
Proof. exact stop_unannounced. Qed.
Print Assumptions C70_after_stop.
(** Stop does not disturb a wait in progress: it ends with Success when Done is called. *)
Theorem C70_waits_go_on : ∀ tr v q h n ch c dl,
  srun tr v_init = Ok v → serial ∅ (acts tr ++ [ADone ch]) →
  (∀ y, announced_in_time tr y → y.1.1 = h → y = (h, n, ch)) → w_qs (v_w v) !! q = Some (QParked (KHash h) c dl) →
  ∃ v', srun (tr ++ [SAct (ADone ch)]) v_init = Ok v' ∧ w_qs (v_w v') !! q = Some (QDone (KHash h) Success).
Proof. exact stop_wakes. Qed.
Print Assumptions C70_waits_go_on.
(** Nothing panics if Stop is called at most once and calls of Done do not overlap. *)
Theorem C70_no_panic : ∀ tr, stops tr ≤ 1 → serial ∅ (acts tr) → ∃ v, srun tr v_init = Ok v.
Proof. exact stop_no_panic. Qed.
Print Assumptions C70_no_panic.
(** The channel never holds more than 1024 announcements. *)
Theorem C70_bounded : ∀ tr v, srun tr v_init = Ok v → length (w_queue (v_w v)) ≤ 1024.
Proof. exact stop_bounded. Qed.
Print Assumptions C70_bounded.
(** The receiving loop ends only after Stop, and with nothing left in the channel. *)
Theorem C70_loop_ends_last : ∀ tr v, srun tr v_init = Ok v → v_loop v = false →
  v_open v = false ∧ v_on v = false ∧ w_queue (v_w v) = [].
Proof. exact stop_loop. Qed.
Print Assumptions C70_loop_ends_last.
(** After Stop the loop deals with what is left in the channel, then it ends. *)
Theorem C70_drained : ∀ n v, length (w_queue (v_w v)) = n → v_open v = false → v_loop v = true →
  ∃ v', srun (replicate (S n) (SAct ARecv)) v = Ok v' ∧ v_loop v' = false ∧ w_queue (v_w v') = [] ∧
    (∀ x, x ∈ w_queue (v_w v) → is_Some (w_hashes (v_w v') !! x.1.1)) ∧
    (∀ h, is_Some (w_hashes (v_w v) !! h) → is_Some (w_hashes (v_w v') !! h)).
Proof. exact stop_drained. Qed.
Print Assumptions C70_drained.
(** Then nothing of the waiter remains a minute after the last block was completed: no entry and no goroutine. *)
Theorem C70_released : ∀ tr v tr2 v', srun tr v_init = Ok v → v_loop v = false → at_rest (v_w v) →
  (∀ x, announced_in_time tr x → ADone x.2 ∈ acts tr) →
  srun tr2 v = Ok v' → (sixty ≤ clock (acts tr2))%N → at_rest (v_w v') →
  w_hashes (v_w v') = ∅ ∧ w_numbers (v_w v') = ∅ ∧ w_tasks (v_w v') = ∅.
Proof. exact stop_released. Qed.
Print Assumptions C70_released.

(** * Cases *)
(** A wait is parked, Stop is called, a later announcement is not taken. *)
Definition parked_stop : list sact :=
  [SAct (AAnnounce 7 3 0); SAct ARecv; SAct (ALookup 0 (KHash 7) 100); SAct (ASelect 0 true); SUnsub; SClose; SAct (AAnnounce 9 4 1); SAct ARecv].
Example C70_wait_case : ∃ v c dl, srun parked_stop v_init = Ok v ∧ serial ∅ (acts parked_stop ++ [ADone 0]) ∧ stops parked_stop = 1 ∧
  (∀ y, announced_in_time parked_stop y → y.1.1 = 7%N → y = (7%N, 3%Z, 0%N)) ∧ w_qs (v_w v) !! 0%N = Some (QParked (KHash 7) c dl) ∧ v_loop v = false.
Proof.
  destruct (run_stop parked_stop (λ v, match w_qs (v_w v) !! 0%N with Some (QParked (KHash h) _ _) => bool_decide (h = 7%N) && negb (v_loop v) | _ => false end))
    as (v & H & C); [by vm_compute|].
  destruct (w_qs (v_w v) !! 0%N) as [[|[h|n] c dl|]|] eqn:E; try done. apply andb_prop in C as [C1 C2]. apply bool_decide_eq_true in C1 as ->.
  exists v, c, dl. split; [exact H|]. split.
  { change (map_Forall (λ _ c : N, c ≠ 0%N) (∅ : gmap N N) ∧ True). split; [|done]. apply map_Forall_empty. }
  split; [done|]. split; [|split; [done|by apply negb_true_iff]].
  intros y Hy%in_time_spec _. by apply elem_of_list_singleton in Hy.
Qed.
Example C70_after_case : ∃ v, srun (parked_stop ++ [SAct (ALookup 1 (KHash 9) 5)]) v_init = Ok v ∧
  (∀ x, ALookup 1 x.1 x.2 ∉ acts parked_stop) ∧ (∀ n ch, ¬ announced_in_time parked_stop (9%N, n, ch)).
Proof.
  destruct (run_stop (parked_stop ++ [SAct (ALookup 1 (KHash 9) 5)]) (λ _, true)) as (v & H & _); [by vm_compute|].
  exists v. split; [exact H|]. split.
  - intros x Hx. repeat (apply elem_of_cons in Hx as [Hx|Hx]; [discriminate Hx|]). by apply elem_of_nil in Hx.
  - intros n ch Hy%in_time_spec. apply elem_of_list_singleton in Hy. discriminate Hy.
Qed.
(** Two announcements are in the channel when Stop is called; both are dealt with, and forgotten a minute later. *)
Definition full_stop : list sact := [SAct (AAnnounce 7 3 0); SAct (AAnnounce 8 4 1); SUnsub; SClose].
Definition drain_stop : list sact := full_stop ++ [SAct ARecv; SAct ARecv; SAct ARecv; SAct (ADone 0); SAct (ADone 1); SAct (AWakeHash 1); SAct (AWakeHash 3)].
Definition rest_stop : list sact := [SAct (ATick 60000000000); SAct (AExpire 1); SAct (AExpire 3)].
Example C70_drained_case : ∃ v, srun full_stop v_init = Ok v ∧ length (w_queue (v_w v)) = 2 ∧ v_open v = false ∧ v_loop v = true.
Proof.
  destruct (run_stop full_stop (λ v, bool_decide (length (w_queue (v_w v)) = 2) && (negb (v_open v) && v_loop v))) as (v & H & C); [by vm_compute|].
  apply andb_prop in C as [C1 [C2 C3]%andb_prop]. exists v. split; [exact H|]. split; [by apply bool_decide_eq_true in C1|]. split; [by apply negb_true_iff|done].
Qed.
Example C70_released_case : ∃ v v', srun drain_stop v_init = Ok v ∧ v_loop v = false ∧ at_rest (v_w v) ∧
  (∀ x, announced_in_time drain_stop x → ADone x.2 ∈ acts drain_stop) ∧ size (w_tasks (v_w v)) = 2 ∧
  srun rest_stop v = Ok v' ∧ (sixty ≤ clock (acts rest_stop))%N ∧ at_rest (v_w v').
Proof.
  destruct (run_stop drain_stop (λ v, rests (v_w v) && (negb (v_loop v) && bool_decide (size (w_tasks (v_w v)) = 2)))) as (v & H & C); [by vm_compute|].
  destruct (run_stop (drain_stop ++ rest_stop) (λ v, rests (v_w v))) as (v' & H' & C'); [by vm_compute|].
  apply andb_prop in C as [C1 [C2 C3]%andb_prop]. unfold srun in H'. rewrite foldM_app in H'. unfold srun in H. rewrite H in H'.
  exists v, v'. split; [exact H|]. split; [by apply negb_true_iff|]. split; [apply at_rest_check; by apply bool_decide_eq_true in C1|]. split.
  { intros x Hx%in_time_spec. apply elem_of_cons in Hx as [->|Hx]; [do 5 right; left|]. apply elem_of_list_singleton in Hx as ->. do 6 right; left. }
  split; [by apply bool_decide_eq_true in C3|]. split; [exact H'|]. split; [by vm_compute|]. apply at_rest_check. by apply bool_decide_eq_true in C'.
Qed.

(** * Stop twice *)
(** A second call of Stop closes the channel again: a panic. *)
Theorem C70_twice_refuted : ∃ tr, srun tr v_init = Panic ∧ serial ∅ (acts tr) ∧ stops tr = 2.
Proof. exists [SUnsub; SClose; SUnsub; SClose]. split; [by vm_compute|]. by split. Qed.
Print Assumptions C70_twice_refuted.
