(** Specification for C70: what happened in a run with Stop, read off the run itself. *)
From Verif Require Import Base Waiter SpecWaiter SpecForget WaiterStop.

(** The actions other than those of Stop. *)
Definition acts (tr : list sact) : list waction := omap (λ x, match x with SAct a => Some a | _ => None end) tr.
(** Announced before Stop was called for the first time. *)
Definition announced_in_time (tr : list sact) (x : hash * Z * N) : Prop :=
  ∃ pre post, tr = pre ++ SAct (AAnnounce x.1.1 x.1.2 x.2) :: post ∧ SUnsub ∉ pre.
(** The number of calls of Stop. *)
Definition stops (tr : list sact) : nat := length (omap (λ x, match x with SUnsub => Some tt | _ => None end) tr).
