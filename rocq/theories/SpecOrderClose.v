(** Specification for C76: what was sent, and how promptly the goroutine acts. *)
From Verif Require Import Base Types Ordering OrderClose.

(** Values of one kind, in order. *)
Definition of_kind (k : bool) (l : list omp_input) : list omp_input := filter (λ x, is_notice x = k) l.
(** Everything sent. *)
Definition sends (l : list lact) : list omp_input := omap (λ a, match a with XSend x => Some x | _ => None end) l.
(** The timer fires only in a blocked select, and nothing is sent until it has looked for a quit message. *)
Fixpoint prompt (blocked fired : bool) (l : list lact) : Prop :=
  match l with
  | [] => True
  | XBlock :: r => prompt true fired r
  | XFire :: r => blocked = true ∧ prompt false true r
  | XSend _ :: r => fired = false ∧ prompt false fired r
  | XQuit _ :: r | XAgain :: r => prompt false false r
  | XTake _ :: r | XFinish :: r => prompt false fired r
  | _ :: r => prompt blocked fired r
  end.
(** Nothing is sent any more and nobody else calls Close; time goes by only while the goroutine is blocked, and not past the moment
    its timer is due. *)
Definition calm (a : lact) (s : oloop) : Prop :=
  match a with
  | XTick dt => ∃ t, l_at s = LBlocked t ∧ (0 < dt)%N ∧ (l_now s + Z.of_N dt <= t + idle_time)%Z
  | XSend _ | XClose => False
  | _ => True
  end.
Definition calm_step (s s' : oloop) : Prop := ∃ a, calm a s ∧ l_step a s = Some s'.
