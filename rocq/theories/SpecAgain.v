(** Specification for C61: what is written to the topic of a reorganisation, as it is read. *)
From Verif Require Import Base Types Wire Producer Consumer Kafka.

Definition carries (m : msg) (p : pmsg) : Prop := m_key m = pm_key p ∧ m_val m = pm_val p.
(** The announcement, messages that announce neither, the end *)
Definition reorg_feed (ms : list (Z * msg * menv)) (n : Z) (h : hash) (ds : list (Z * msg * menv)) : Prop :=
  ∃ x y, ms = x :: ds ++ [y] ∧ carries x.1.2 (reorg_msg n h) ∧ carries y.1.2 (reorg_done_msg n h) ∧
    Forall (λ x, head (m_key x.1.2) ≠ Some ReorgType ∧ head (m_key x.1.2) ≠ Some ReorgCompleteType) ds.
