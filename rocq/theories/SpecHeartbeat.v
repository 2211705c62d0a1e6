(** Specification for C78: which producers have been healthy, and since when. *)
From Verif Require Import Base Types Heartbeat SpecCounting.

(** The time and, for each producer that ever existed, whether it works and since when it has. *)
Definition status_step (x : Z * (hash → option (bool * Z))) (a : fact) : Z * (hash → option (bool * Z)) :=
  let '(now, f) := x in
  let put h b := λ h', if bool_decide (h' = h) then
    match f h with Some (b', t) => if bool_decide (b' = b) then Some (b', t) else Some (b, now) | None => Some (b, now) end else f h' in
  match a with
  | FAdd h => (now, put h true)
  | FHealth h b => (now, put h b)
  | FStop h => (now, put h false)
  | FPass dt => ((now + Z.of_N dt)%Z, f)
  | _ => (now, f)
  end.
Definition status_after (now : Z) (l : list fact) : Z * (hash → option (bool * Z)) := foldl status_step (now, λ _, None) l.
Definition clock (now : Z) (l : list fact) : Z := (status_after now l).1.
Definition status (now : Z) (l : list fact) (h : hash) : option (bool * Z) := (status_after now l).2 h.

(** Healthy for more than [w]; not silent for [w] or more. *)
Definition long_healthy (now : Z) (l : list fact) (w : Z) (h : hash) : Prop :=
  ∃ t, status now l h = Some (true, t) ∧ (t + w < clock now l)%Z.
Definition lately_healthy (now : Z) (l : list fact) (w : Z) (h : hash) : Prop :=
  ∃ b t, status now l h = Some (b, t) ∧ (b = true ∨ (clock now l < t + w)%Z).
