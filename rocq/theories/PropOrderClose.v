(** C76: closing the ordering layer. *)
From Verif Require Import Base Types Ordering SpecPipeline OrderClose SpecOrderClose OrderCloseFacts.

(** C76.  In every execution batches and notices are handled in the order they were sent, none twice; when none is waiting or being
    handled, all were; no more than 100 of each wait. *)
Theorem C76_handled : ∀ now l s, l_run (ol_new now) l = Some s →
  (∀ k, of_kind k (l_done s) `prefix_of` of_kind k (sends l)) ∧
  (l_batches s = [] → l_notices s = [] → (∀ x, l_at s ≠ LBusy x) → ∀ k, of_kind k (l_done s) = of_kind k (sends l)) ∧
  length (l_batches s) ≤ 100 ∧ length (l_notices s) ≤ 100.
Proof. exact close_flow. Qed.
Print Assumptions C76_handled.

(** C76.  When a call of Close returned without the warning the goroutine is gone: nothing is handled or sent to it later, and
    every other call of Close gets the warning. *)
Theorem C76_once : ∀ now l s i, l_run (ol_new now) l = Some s → l_close s !! i = Some KStopped →
  l_at s = LGone ∧ ∀ l' s', l_run s l' = Some s' → l_done s' = l_done s ∧ sends l' = [] ∧ ∀ j, l_close s' !! j = Some KStopped → j = i.
Proof. exact close_once. Qed.
Print Assumptions C76_once.

(** C76.  If the goroutine acts promptly, everything sent before it went was handled. *)
Theorem C76_complete_partial : ∀ now l s, l_run (ol_new now) l = Some s → prompt false false l → l_at s = LGone →
  ∀ k, of_kind k (l_done s) = of_kind k (sends l).
Proof. exact close_complete. Qed.
Print Assumptions C76_complete_partial.

(** C76.  If nothing is sent after Close was called, and handling what waits takes no noticeable time, the goroutine inevitably ends
    within 250 ms, after handling everything. *)
Theorem C76_calm : ∀ now l s i, l_run (ol_new now) l = Some s → l_close s !! i = Some (KWait (l_now s)) →
  match l_at s with LEnter t => l_now s < t + 250 | LBlocked t => l_now s <= t + 250 | LBusy _ => True | _ => False end%Z →
  inevitably calm_step (λ s', l_at s' = LGone ∧ (∀ k, of_kind k (l_done s') = of_kind k (sends l)) ∧ (l_now s' <= l_now s + 250)%Z) s.
Proof. exact calm_gone. Qed.
Print Assumptions C76_calm.

(** C76.  Once every call of Close has returned with the warning the goroutine does not end, until Close is called again. *)
Theorem C76_warned : ∀ l s s', (∀ i t, l_close s !! i ≠ Some (KWait t)) → l_at s ≠ LGone → XClose ∉ l → l_run s l = Some s' → l_at s' ≠ LGone.
Proof. exact unasked. Qed.
Print Assumptions C76_warned.

(** * Runs of the model *)
Definition xb : omp_input := InBatch (bare_batch 10 100 99 1).
Definition xr : omp_input := InReorg 7 70%N.
Definition late : list lact := [XBlock; XTick 250; XFire; XSend xb].

(** C76, refuted: what was sent before Close is called is handled before it returns without the warning.  The timer has fired
    when the batch is sent; Close is called before the goroutine looks for it. *)
Theorem C76_lost_refuted : ∃ now l x s, XSend x ∈ l ∧ l_run (ol_new now) (l ++ [XClose; XQuit 0]) = Some s ∧ l_close s = [KStopped] ∧
  ∀ l' s', l_run s l' = Some s' → l_done s' = [].
Proof.
  exists 0%Z, late, xb. destruct (l_run (ol_new 0) (late ++ [XClose; XQuit 0])) as [s|] eqn:E; [|vm_compute in E; discriminate]. exists s.
  assert (G : l_close s = [KStopped] ∧ l_done s = []) by (vm_compute in E; injection E as <-; done). destruct G as [G1 G2].
  split; [by do 3 right; left|]. split; [done|]. split; [done|]. intros l' s' Hr.
  assert (G3 : l_close s !! 0 = Some KStopped) by (by rewrite G1).
  destruct (C76_once _ _ _ _ E G3) as (_ & Q). destruct (Q l' s' Hr) as (-> & _). done.
Qed.
Print Assumptions C76_lost_refuted.

(** C76, refuted: Close ends the goroutine.  With a notice every 200 ms it returns with the warning, and the goroutine goes on. *)
Definition steady : list lact := [XSend xr; XFinish; XBlock; XTick 200].
Definition busy_close : list lact := [XBlock; XClose] ++ steady ++ steady ++ steady ++ steady ++ steady ++ [XTimeout 0].
Theorem C76_warned_refuted : ∃ now l s, XClose ∈ l ∧ l_run (ol_new now) l = Some s ∧ l_close s = [KWarned] ∧ l_now s = (now + 1000)%Z ∧
  ∀ l' s', XClose ∉ l' → l_run s l' = Some s' → l_at s' ≠ LGone.
Proof.
  exists 0%Z, busy_close. destruct (l_run (ol_new 0) busy_close) as [s|] eqn:E; [|vm_compute in E; discriminate]. exists s.
  assert (G : l_close s = [KWarned] ∧ l_now s = 1000%Z) by (vm_compute in E; injection E as <-; done). destruct G as [G1 G2].
  assert (G3 : l_at s ≠ LGone) by (vm_compute in E; injection E as <-; done).
  split; [by right; left|]. split; [done|]. split; [done|]. split; [done|]. intros l' s' Hn Hr.
  apply (C76_warned l' s); [|done|done|done]. intros i t. rewrite G1. by destruct i as [|[|]].
Qed.
Print Assumptions C76_warned_refuted.

(** C76: Close is called while a batch is being handled and a notice waits. *)
Definition closing : list lact := [XBlock; XTick 100; XSend xb; XSend xr; XClose].
Example C76_case : ∃ s, l_run (ol_new 0) closing = Some s ∧ l_done s = [] ∧ l_notices s = [xr] ∧ of_kind true (sends closing) = [xr] ∧ of_kind false (sends closing) = [xb] ∧
  inevitably calm_step (λ s', l_at s' = LGone ∧ (∀ k, of_kind k (l_done s') = of_kind k (sends closing)) ∧ (l_now s' <= l_now s + 250)%Z) s.
Proof.
  destruct (l_run (ol_new 0) closing) as [s|] eqn:E; [|vm_compute in E; discriminate]. exists s.
  assert (G : l_done s = [] ∧ l_notices s = [xr] ∧ l_close s = [KWait (l_now s)] ∧ l_at s = LBusy xb) by (vm_compute in E; injection E as <-; done).
  destruct G as (G1 & G2 & G3 & G4). split; [done|]. split; [done|]. split; [done|]. split; [done|]. split; [done|].
  apply (C76_calm 0 closing s 0 E); [by rewrite G3|by rewrite G4].
Qed.
(** C76: a prompt run to the end. *)
Definition ended : list lact := closing ++ [XFinish; XTake true; XFinish; XBlock; XTick 250; XFire; XQuit 0].
Example C76_case_ended : ∃ s, l_run (ol_new 0) ended = Some s ∧ prompt false false ended ∧ l_at s = LGone ∧ l_done s = [xb; xr] ∧ l_close s = [KStopped].
Proof.
  destruct (l_run (ol_new 0) ended) as [s|] eqn:E; [|vm_compute in E; discriminate]. exists s.
  assert (G : l_at s = LGone ∧ l_done s = [xb; xr] ∧ l_close s = [KStopped]) by (vm_compute in E; injection E as <-; done).
  split; [done|]. split; [|done]. cbn. repeat (split; [done|]). done.
Qed.
