(** Specification for C65. *)
From Verif Require Import Base ReadyCalls SpecShutdown.

(** The member has caught up (a null consumer always has). *)
Definition caught_up (m : member) : Prop := m ≠ MNot ∧ m ≠ MWs false.
(** It tells everybody who asks from now on. *)
Definition tells_all (m : member) : Prop := m = MNil ∨ m = MWs true ∨ m = MNull.
Definition has (P : member → Prop) (s : rworld) : Prop := Exists P (rw_members s).
(** Call [j] was answered. *)
Definition told (s : rworld) (j : nat) : Prop := ∃ i, rw_calls s !! j = Some (RTold i).
(** Without another member catching up and another call, call [j] is answered. *)
Definition will_be_told (s : rworld) (j : nat) : Prop := comes_to rc_inner s (λ s', told s' j).
(** A call waits for signals that others have received. *)
Definition missed (ms : list member) (l : list rchan) : Prop :=
  length l = length ms ∧ ∀ i c, l !! i = Some c → c = ChShared ∧ (ms !! i = Some MTaken ∨ ms !! i = Some MNil).
