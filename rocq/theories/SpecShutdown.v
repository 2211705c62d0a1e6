(** Specification for C64: what closing a consumer should do. *)
From Verif Require Import Base Types Wire Kafka Feed SpecFeed Shutdown.

(** The goroutines of the partitions have been scheduled. *)
Definition begun (s : cstate) : Prop := Forall (λ p, g_phase p ≠ GNew) (s_parts s).
(** They are over. *)
Definition ended (s : cstate) : Prop := Forall (λ p, g_phase p = GEnd) (s_parts s).
(** No partition is waited for: all have come to their startOffset, or there is only one. *)
Definition none_awaited (s : cstate) : Prop := Forall at_barrier (s_parts s) ∨ length (s_parts s) = 1.
(** A message taken from the partition and not yet on the channel. *)
Definition in_hand (p : gpart) : list fmsg := match g_phase p with GWait m | GHold m => [m] | _ => [] end.
(** Partition [i] waits for partition [j], which has nothing from its startOffset on. *)
Definition waits_in_vain (s : cstate) : Prop := ∃ i j p q m,
  s_parts s !! i = Some p ∧ g_phase p = GWait m ∧ s_parts s !! j = Some q ∧ g_warm q = false ∧ (∀ x, g_phase q ≠ GWait x) ∧
  Forall (λ x, fm_off x < g_start q)%Z (g_log q).
(** A step that is not another call of Close. *)
Definition quietly (s s' : cstate) : Prop := goes s s' ∧ length (s_calls s') = length (s_calls s).
Definition wquietly (s s' : wlife) : Prop := wgoes s s' ∧ l_half s' ≤ l_half s.
(** Whatever happens, it is over after finitely many steps, and then [P] holds. *)
Definition comes_to {S} (R : S → S → Prop) (s : S) (P : S → Prop) : Prop :=
  ∃ n, ∀ k s', nsteps R k s s' → k ≤ n ∧ ((∀ s'', ¬ R s' s'') → P s').
