(** Specification for C66: what inevitably happens, and what never does. *)
From Verif Require Import Base Lru Types Avro Wire GoPath Consumer Ordering SpecChain System Pipeline.

(** [P] holds after finitely many steps, whichever steps are taken; the system does not stop before. *)
Inductive inevitably {S} (step : S → S → Prop) (P : S → Prop) : S → Prop :=
| inev_now s : P s → inevitably step P s
| inev_later s : (∃ s', step s s') → (∀ s', step s s' → inevitably step P s') → inevitably step P s.

(** Every message is passed on, everything is sent, and every channel is empty. *)
Definition all_done (s : pipe) : Prop :=
  q_in s = [] ∧ q_put s = [] ∧ q_pub s = [] ∧ Forall (λ u, u_buf u = [] ∧ u_hand u = None) (q_subs s).
(** The application's subscribers. *)
Definition apps_of (s : pipe) : list sub := drop 2 (q_subs s).
(** What was sent on a feed so far. *)
Definition on_feed (k : kind) (xs : list item) : list item := filter (λ x, kind_of x = Some k) xs.
Definition fed (s : pipe) (k : kind) : list item := on_feed k (map inl (mp_out (q_mp s)) ++ map inr (o_out (q_omp s))).
(** The application still receives. *)
Definition listening (apps : list sub) : Prop := Forall (λ u, u_on u = true) apps.
(** The updates among what a subscriber was given. *)
Definition updates_in (xs : list item) : list omp_event :=
  omap (λ x : item, match x with inr ev => Some ev | _ => None end) xs.
(** The application behind channel [i] does not receive, its channel is full and the ordering layer has something to send to it;
    the channel of the ordering layer is full as well and the message processor has something to send to it. *)
Record choked (i : nat) (p : pipe) : Prop := {
  ck_pub : ∃ x l r, q_pub p = (x, l) :: r ∧ i ∈ l;
  ck_app : ∃ u, q_subs p !! i = Some u ∧ u_on u = false ∧ u_cap u ≤ length (u_buf u);
  ck_put : ∃ x l r, q_put p = (x, l) :: r ∧ 0 ∈ l;
  ck_own : ∃ u, q_subs p !! 0 = Some u ∧ u_on u = false ∧ u_cap u ≤ length (u_buf u)
}.
