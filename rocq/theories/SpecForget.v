(** Specification for C71: what the waiter remembers. *)
From Verif Require Import Base Waiter SpecWaiter.

(** The steps of the waiter's goroutines other than the receiving loop (waiter.go:69-99). *)
Definition goroutine (a : waction) : Prop :=
  match a with AWakeHash _ | AWakeNum _ | AExpire _ => True | _ => False end.
(** One of them goes on. *)
Definition goes_on (s s' : wst) : Prop := ∃ a, goroutine a ∧ wstep s a = Ok s' ∧ s' ≠ s.
(** All of them wait: for a channel, or for their timer. *)
Definition at_rest (s : wst) : Prop := ∀ a, goroutine a → wstep s a = Ok s.
(** The block for which a goroutine was started. *)
Definition task_hash (t : task) : hash := match t with TWait _ _ h _ => h | TSleep _ h _ => h end.
(** Neither an entry nor a goroutine remains. *)
Definition forgotten (s : wst) (h : hash) : Prop :=
  w_hashes s !! h = None ∧ ∀ id t, w_tasks s !! id = Some t → task_hash t ≠ h.
(** Every announcement that satisfies [P] and was received was of a batch on which Done was called. *)
Definition completed (tr : list waction) (P : hash * Z * N → Prop) : Prop := ∀ x, x ∈ received tr → P x → ADone x.2 ∈ tr.
(** What the receiving loop takes from its channel during [tr], after it came to [s], does not satisfy [P]. *)
Definition none_new (s : wst) (tr : list waction) (P : hash * Z * N → Prop) : Prop := ∀ x, x ∈ arrivals tr (w_queue s) → ¬ P x.
