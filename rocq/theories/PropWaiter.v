(** The waiter and the completion of batches: C33, C34, C35, C47. *)
From Verif Require Import Base Waiter SpecWaiter WaiterFacts WaiterFacts2 WaiterFacts3 WaiterFacts4.

(** ** C33.  A call that returned Success was for a hash or number under which a batch had been
    announced to the waiter on which Done was called. *)
Theorem C33_success_truthful tr s q k :
  wrun tr w_init = Ok s → w_qs s !! q = Some (QDone k Success) →
  ∃ h n ch, AAnnounce h n ch ∈ tr ∧ (h, n, ch) ∈ received tr ∧ matches k (h, n, ch) ∧ called tr ch.
Proof. exact (success_truthful tr s q k). Qed.
Print Assumptions C33_success_truthful.

(** ** C34.  If a hash all of whose announcements are the same is not found after the waiter took the
    announcement, Done was called at least sixty seconds ago on a batch announced for the same
    number. *)
Theorem C34_found_for_a_minute tr s q d h n ch :
  wrun (tr ++ [ALookup q (KHash h) d]) w_init = Ok s → (∀ x, ALookup q x.1 x.2 ∉ tr) →
  (h, n, ch) ∈ received tr → (∀ y, y ∈ received tr → y.1.1 = h → y = (h, n, ch)) →
  w_qs s !! q = Some (QDone (KHash h) NotFound) →
  ∃ h' ch' pre a post, (h', n, ch') ∈ received tr ∧ tr = pre ++ a :: post ∧ (a = ADone ch' ∨ ∃ c, a = ADoneBegin c ch') ∧
    (clock pre + sixty ≤ clock tr)%N.
Proof. exact (found_for_a_minute tr s q d h n ch). Qed.
Print Assumptions C34_found_for_a_minute.
(** The same for numbers, without a condition on the announcements. *)
Theorem C34_number_found_for_a_minute tr s q d h n ch :
  wrun (tr ++ [ALookup q (KNum n) d]) w_init = Ok s → (∀ x, ALookup q x.1 x.2 ∉ tr) →
  (h, n, ch) ∈ received tr → w_qs s !! q = Some (QDone (KNum n) NotFound) →
  ∃ h' ch' pre a post, (h', n, ch') ∈ received tr ∧ tr = pre ++ a :: post ∧ (a = ADone ch' ∨ ∃ c, a = ADoneBegin c ch') ∧
    (clock pre + sixty ≤ clock tr)%N.
Proof. exact (number_found_for_a_minute tr s q d h n ch). Qed.
Print Assumptions C34_number_found_for_a_minute.
(** A hash that was not announced is not found. *)
Theorem C34_unannounced tr s q d h :
  wrun (tr ++ [ALookup q (KHash h) d]) w_init = Ok s → (∀ x, ALookup q x.1 x.2 ∉ tr) →
  (∀ n ch, (h, n, ch) ∉ received tr) → w_qs s !! q = Some (QDone (KHash h) NotFound).
Proof. exact (unannounced tr s q d h). Qed.
Print Assumptions C34_unannounced.
(** Done ends the wait for the hash at once. *)
Theorem C34_done_wakes tr s q h n ch c dl :
  wrun tr w_init = Ok s → serial ∅ (tr ++ [ADone ch]) →
  (h, n, ch) ∈ received tr → (∀ y, y ∈ received tr → y.1.1 = h → y = (h, n, ch)) →
  w_qs s !! q = Some (QParked (KHash h) c dl) →
  ∃ s', wrun (tr ++ [ADone ch]) w_init = Ok s' ∧ w_qs s' !! q = Some (QDone (KHash h) Success).
Proof. exact (done_wakes tr s q h n ch c dl). Qed.
Print Assumptions C34_done_wakes.
(** A wait that begins after Done, while the hash is found, succeeds at once. *)
Theorem C34_done_before tr s s' q h d b :
  wrun tr w_init = Ok s → (∀ x, ALookup q x.1 x.2 ∉ tr) → (0 < d)%Z →
  (∀ n ch, (h, n, ch) ∈ received tr → ADone ch ∈ tr) →
  wrun (tr ++ [ALookup q (KHash h) d; ASelect q b]) w_init = Ok s' →
  w_qs s' !! q = Some (QDone (KHash h) Success) ∨ w_qs s' !! q = Some (QDone (KHash h) NotFound).
Proof. exact (done_before tr s s' q h d b). Qed.
Print Assumptions C34_done_before.
(** A wait for a hash that ends with Timeout lasted as long as it was asked to, and Done had not
    been called on the batch. *)
Theorem C34_timeout tr a s s' q h :
  wrun tr w_init = Ok s → wstep s a = Ok s' →
  w_qs s !! q ≠ Some (QDone (KHash h) Timeout) → w_qs s' !! q = Some (QDone (KHash h) Timeout) →
  ∃ d, ALookup q (KHash h) d ∈ tr ∧
    ((d ≤ 0)%Z ∨ ∃ pre b post n ch, tr = pre ++ ASelect q b :: post ∧ (clock pre + Z.to_N d ≤ clock tr)%N ∧
       (h, n, ch) ∈ received tr ∧ ADone ch ∉ tr).
Proof. exact (timeout_truthful tr a s s' q h). Qed.
Print Assumptions C34_timeout.

(** An announcement that the waiter has not taken from its channel yet is not found. *)
Theorem C34_unreceived_refuted : ∃ tr s, wrun tr w_init = Ok s ∧ AAnnounce 7 3 0 ∈ tr ∧
  (∀ ch, ADone ch ∉ tr) ∧ w_qs s !! 0%N = Some (QDone (KHash 7) NotFound).
Proof.
  exists [AAnnounce 7 3 0; ALookup 0 (KHash 7) 10]. 
  destruct (run_exists [AAnnounce 7 3 0; ALookup 0 (KHash 7) 10] (λ s, w_qs s !! 0%N = Some (QDone (KHash 7) NotFound))) as (s & Hr & Hs); [by vm_compute|].
  exists s. split; [done|]. split; [left|]. split; [|done].
  intros ch. rewrite !elem_of_cons, elem_of_nil. naive_solver.
Qed.
Print Assumptions C34_unreceived_refuted.
(** A hash announced again (after a declared reorganisation, say) is deleted sixty seconds after
    the first batch was completed, though the second never was. *)
Definition ex_again : list waction :=
  [AAnnounce 7 3 0; ARecv; ADone 0; AWakeHash 1; ATick 59000000000; AAnnounce 7 3 1; ARecv; ATick 1000000000; AExpire 1; ALookup 0 (KHash 7) 10].
Theorem C34_announced_again_refuted : ∃ tr s, wrun tr w_init = Ok s ∧ (7%N, 3%Z, 1%N) ∈ received tr ∧ ADone 1 ∉ tr ∧
  w_qs s !! 0%N = Some (QDone (KHash 7) NotFound) ∧ clock tr = sixty.
Proof.
  exists ex_again. destruct (run_exists ex_again (λ s, w_qs s !! 0%N = Some (QDone (KHash 7) NotFound))) as (s & Hr & Hs); [by vm_compute|].
  exists s. split; [done|]. split; [apply (bool_decide_unpack _); by vm_compute|]. split; [|split; [done|by vm_compute]].
  unfold ex_again. intros H. repeat (apply elem_of_cons in H as [H|H]; [discriminate H|]). by apply elem_of_nil in H.
Qed.
Print Assumptions C34_announced_again_refuted.

(** ** C35.  No channel is closed twice if calls of Done on the same batch do not overlap. *)
Theorem C35_no_panic tr : serial ∅ tr → ∃ s, wrun tr w_init = Ok s.
Proof. exact (run_serial tr). Qed.
Print Assumptions C35_no_panic.
(** Two overlapping calls close the channel twice. *)
Theorem C35_concurrent_refuted : ∃ tr, wrun tr w_init = Panic.
Proof. exists [ADoneBegin 1 5; ADoneBegin 2 5; ADoneEnd 1; ADoneEnd 2]. by vm_compute. Qed.
Print Assumptions C35_concurrent_refuted.

(** ** C47.  Done on a chain update completes exactly its batches, ends exactly the waits for
    them, and calling it again, in any order or for some of the batches, changes nothing. *)
Theorem C47_update_done tr s added removed :
  wrun tr w_init = Ok s →
  ∃ s', update_done added removed s = Ok s' ∧
    (∀ ch, ch ∈ w_nil s' ↔ ch ∈ added ∨ ch ∈ removed ∨ ch ∈ w_nil s) ∧
    (∀ c, c ∈ w_closed s' ↔ (∃ ch, c = CH ch ∧ (ch ∈ added ∨ ch ∈ removed)) ∨ c ∈ w_closed s) ∧
    (∀ q k ch dl, w_qs s !! q = Some (QParked k (CH ch) dl) → ch ∈ added ∨ ch ∈ removed → w_qs s' !! q = Some (QDone k Success)) ∧
    (∀ q, (∀ k ch dl, ch ∈ added ∨ ch ∈ removed → w_qs s !! q ≠ Some (QParked k (CH ch) dl)) → w_qs s' !! q = w_qs s !! q) ∧
    (∀ added' removed', (∀ ch, ch ∈ added' ∨ ch ∈ removed' → ch ∈ added ∨ ch ∈ removed) → update_done added' removed' s' = Ok s').
Proof. exact (update_done_spec tr s added removed). Qed.
Print Assumptions C47_update_done.

(** ** A run: two blocks of the same number, one of them completed. *)
Definition ex_run : list waction :=
  [AAnnounce 7 3 0; AAnnounce 8 3 1; ARecv; ARecv; ALookup 0 (KHash 7) 100; ASelect 0 false; ALookup 1 (KNum 3) 100; ASelect 1 false;
   ALookup 2 (KHash 8) 50; ASelect 2 false; ATick 20; ADone 0; AWakeHash 1; ADone 0; AWakeNum 2; ATick 30; ATimer 2;
   ALookup 3 (KHash 7) 100; ASelect 3 true; ATick 60000000000; AExpire 1; AExpire 2; ALookup 4 (KHash 7) 100; ALookup 5 (KNum 3) 100].
Example ex_run_serial : serial ∅ ex_run.
Proof. cbn. split; [apply map_Forall_empty|]. split; [apply map_Forall_empty|done]. Qed.
Example ex_run_case : match wrun ex_run w_init with
  | Ok s => w_qs s !! 0%N = Some (QDone (KHash 7) Success) ∧ w_qs s !! 1%N = Some (QDone (KNum 3) Success) ∧
            w_qs s !! 2%N = Some (QDone (KHash 8) Timeout) ∧ w_qs s !! 3%N = Some (QDone (KHash 7) Success) ∧
            w_qs s !! 4%N = Some (QDone (KHash 7) NotFound) ∧ w_qs s !! 5%N = Some (QDone (KNum 3) NotFound)
  | _ => False
  end.
Proof. vm_compute. done. Qed.
Example ex_received : received ex_run = [(7%N, 3%Z, 0%N); (8%N, 3%Z, 1%N)] ∧ clock ex_run = 60000000050%N.
Proof. by vm_compute. Qed.
Example C47_case : match wrun (take 10 ex_run) w_init with
  | Ok s => match update_done [0%N] [1%N] s with
            | Ok s' => w_qs s' !! 0%N = Some (QDone (KHash 7) Success) ∧ w_qs s' !! 2%N = Some (QDone (KHash 8) Success) ∧
                       w_qs s' !! 1%N = w_qs s !! 1%N ∧ w_qs s !! 1%N ≠ None
            | _ => False
            end
  | _ => False
  end.
Proof. vm_compute. done. Qed.
