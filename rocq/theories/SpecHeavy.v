(** Specification for C24: blocks connected to the starting block, and arrival orders in
    which forks are only received below connected blocks. *)
From Verif Require Import Base Types SpecChain.

(** [connected T R D h]: [h] is the starting block [R], or a received block (in [D]) that leads
    to [R] through received blocks. *)
Inductive connected (T : tree) (R : hash) (D : list hash) : hash → Prop :=
| con_start : connected T R D R
| con_block h : h ∈ D → connected T R D (t_par T h) → connected T R D h.

(** [h] has maximal weight among the connected blocks. *)
Definition heaviest (T : tree) (R : hash) (D : list hash) (h : hash) : Prop :=
  connected T R D h ∧ ∀ x, connected T R D x → (t_wt T x <= t_wt T h)%N.

(** At no point in the arrival order [D] are there two received children of a block that is
    not (yet) connected. *)
Definition forks_connected (T : tree) (R : hash) (D : list hash) : Prop :=
  ∀ D1 D2, D = D1 ++ D2 → ∀ c1 c2, c1 ∈ D1 → c2 ∈ D1 → t_par T c1 = t_par T c2 →
    connected T R D1 (t_par T c1) ∨ c1 = c2.

(** The received blocks fit into the retention window: at most 2*threshold blocks whose
    numbers differ by at most the threshold. *)
Definition in_window (thr : Z) (l : list pending_batch) : Prop :=
  (Z.of_nat (length (remove_dups (map pb_hash l))) <= 2 * thr)%Z ∧
  ∀ b1 b2, b1 ∈ l → b2 ∈ l → (pb_num b1 - pb_num b2 <= thr)%Z.
