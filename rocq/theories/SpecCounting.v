(** Specification for C75: which producers have been heard. *)
From Verif Require Import Base Types Counting.

(** The heartbeats dealt with by the end of [l], with the times they were received; [now] is the time at its start. *)
Fixpoint heard_from (now : Z) (p : list (hash * Z)) (l : list cact) : list (hash * Z) :=
  match l with
  | [] => []
  | ATick dt :: r => heard_from (now + Z.of_N dt) p r
  | AHeart h :: r => heard_from now [(h, now)] r
  | AWritten :: r => p ++ heard_from now [] r
  | _ :: r => heard_from now p r
  end.
Definition heard (now : Z) (l : list cact) : list (hash * Z) := heard_from now [] l.
(** The time at the end of [l]. *)
Fixpoint time_after (now : Z) (l : list cact) : Z :=
  match l with [] => now | ATick dt :: r => time_after (now + Z.of_N dt) r | _ :: r => time_after now r end.
(** Heard, by the time [now], less than [d] ago. *)
Definition alive (bs : list (hash * Z)) (now d : Z) (h : hash) : Prop := ∃ v, (h, v) ∈ bs ∧ (now - v < d)%Z.
(** At least, at most, [n] producers are like this. *)
Definition at_least (P : hash → Prop) (n : nat) : Prop := ∃ X : gset hash, size X = n ∧ ∀ h, h ∈ X → P h.
Definition at_most (P : hash → Prop) (n : nat) : Prop := ∀ X : gset hash, (∀ h, h ∈ X → P h) → size X ≤ n.
(** How many calls have begun. *)
Fixpoint begun (l : list cact) : nat :=
  match l with [] => 0 | ABegin _ :: r => S (begun r) | _ :: r => begun r end.
(** The steps of one call. *)
Definition loops (i : nat) (s s' : counting) : Prop := ∃ k, c_step (ANext i k) s = Some (Some s').
