(** Specification for C44: chains of submitted blocks. *)
From Verif Require Import Base Types Avro Wire SpecWire GoPath Producer SpecBlock Consumer SpecCollect.

Definition bk_hash (b : block) : hash := ba_hash (bk_args b).

(** [bs] is a chain of blocks on top of the block [parent] with number [num] and weight [w]. *)
Fixpoint chain_from (parent : hash) (num : Z) (w : N) (bs : list block) : Prop :=
  match bs with
  | [] => True
  | b :: r =>
    ba_parent (bk_args b) = parent ∧ ba_num (bk_args b) = (num + 1)%Z ∧ (w < ba_weight (bk_args b))%N ∧
    bk_hash b ≠ zero_hash ∧ chain_from (bk_hash b) (ba_num (bk_args b)) (ba_weight (bk_args b)) r
  end.
(** Its last block. *)
Definition end_hash (base : hash) (bs : list block) : hash :=
  match last bs with Some b => bk_hash b | None => base end.
Definition end_weight (w : N) (bs : list block) : N :=
  match last bs with Some b => ba_weight (bk_args b) | None => w end.

(** Everything delivered is a copy of a message of one of the blocks (or of a type that does not
    concern blocks). *)
Definition only_from (mt : bytes → option bytes) (bs : list block) (ms : list msg) : Prop :=
  ∀ m, m ∈ ms → 33 ≤ length (m_key m) ∧ ¬ reorg_type m ∧
    ∃ b, b ∈ bs ∧ about (bk_hash b) m ∧ (copy_of mt b m ∨ foreign_type m).
