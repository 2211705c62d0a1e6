(** Specification for C74: what a consumer of a topic has to deliver. *)
From Verif Require Import Base Types TopicConsumer.

(** The messages of partition [i] among those received. *)
Definition of_part (i : nat) (l : list (nat * msg)) : list msg := (filter (λ x, x.1 = i) l).*2.
(** The messages the broker delivered for partition [i]. *)
Definition came (i : nat) (l : list tact) : list msg :=
  omap (λ a, match a with TIn j m => if bool_decide (j = i) then Some m else None | _ => None end) l.
(** Actions of the goroutines, and of a user who receives. *)
Definition works (a : tact) : Prop := match a with TTake _ | TPut _ | TPass _ | TGet | TEnd _ => True | _ => False end.
Definition work (s s' : tcons) : Prop := ∃ a, works a ∧ t_step a s = Some s'.
(** Actions of anybody but a user who receives. *)
Definition unreceived (s s' : tcons) : Prop := ∃ a, (∀ i, a ≠ TPass i) ∧ a ≠ TGet ∧ t_step a s = Some s'.
(** After Close: sarama may drop what was not received. *)
Definition work_or_drop (s s' : tcons) : Prop := ∃ a, (works a ∨ ∃ i, a = TDrop i) ∧ t_step a s = Some s'.
(** Messages on their way to the user. *)
Definition in_flight (s : tcons) : nat := length (tc_buf s) + length (filter (λ p, is_Some (tp_hand p)) (tc_parts s)).
