(** What happened in a run of the waiter, read off the run itself. *)
From Verif Require Import Base Waiter.

(** Announcements sent to the waiter, and those it has taken from its channel, oldest first. *)
Definition announced (tr : list waction) : list (hash * Z * N) :=
  omap (λ a, match a with AAnnounce h n ch => Some (h, n, ch) | _ => None end) tr.
Fixpoint arrivals (tr : list waction) (queue : list (hash * Z * N)) : list (hash * Z * N) :=
  match tr with
  | [] => []
  | AAnnounce h n ch :: r => arrivals r (queue ++ [(h, n, ch)])
  | ARecv :: r => match queue with [] => arrivals r [] | x :: q => x :: arrivals r q end
  | _ :: r => arrivals r queue
  end.
Definition received (tr : list waction) : list (hash * Z * N) := arrivals tr [].
(** The time that has passed. *)
Definition clock (tr : list waction) : N := foldr (λ a t, (match a with ATick d => d | _ => 0 end + t)%N) 0%N tr.
(** Done was called on the batch. *)
Definition called (tr : list waction) (ch : N) : Prop := ADone ch ∈ tr ∨ ∃ k, ADoneBegin k ch ∈ tr.
(** Calls of Done on the same batch do not overlap. *)
Fixpoint serial (open : gmap N N) (tr : list waction) : Prop :=
  match tr with
  | [] => True
  | ADone ch :: r => map_Forall (λ _ c, c ≠ ch) open ∧ serial open r
  | ADoneBegin k ch :: r => open !! k = None ∧ map_Forall (λ _ c, c ≠ ch) open ∧ serial (<[k := ch]> open) r
  | ADoneEnd k :: r => serial (delete k open) r
  | _ :: r => serial open r
  end.
(** Announced for this key. *)
Definition matches (k : wkey) (x : hash * Z * N) : Prop :=
  match k with KHash h => x.1.1 = h | KNum n => x.1.2 = n end.
