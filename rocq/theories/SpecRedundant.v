(** Specification for C73: what the users of redundant Kafka producers do. *)
From Verif Require Import Base Lru Types Avro Wire SpecWire Producer SpecBlock SpecProducer SpecPublish Kafka SpecKafka Redundant.

(** Newly created, routing keys like [mt]. *)
Definition fresh (mt : bytes → option bytes) (p : rproducer) : Prop :=
  rp_evs p = [] ∧ ∃ dp, rp_kp p = kp_new dp ∧ p_pending dp = ∅ ∧ ∀ k, prefix_of_key dp k = mt k.
(** Given only blocks of [bs] and their sub-batches. *)
Definition given_only (bs : list block) (p : rproducer) : Prop :=
  (∀ o ids e a, KAddBlock o ids e a ∈ rp_evs p → ∃ b, b ∈ bs ∧ a = bk_args b) ∧
  (∀ ord e id d u, KSendBatch ord e id d u ∈ rp_evs p → ∀ b, b ∈ bs → announced b id → is_parts d u (bk_parts b id)).
(** Given the block. *)
Definition given (b : block) (p : rproducer) : Prop := ∃ o ids e, KAddBlock o ids e (bk_args b) ∈ rp_evs p.
(** Whenever given the block, given each of its sub-batches later. *)
Definition finished (b : block) (p : rproducer) : Prop :=
  ∀ pre o ids e post, rp_evs p = pre ++ KAddBlock o ids e (bk_args b) :: post →
    ∀ id, announced b id → ∃ ord e d u, KSendBatch ord e id d u ∈ post.
(** The broker's client reported no error in calls about the block. *)
Definition unfailed (b : block) (p : rproducer) : Prop :=
  (∀ o ids e, KAddBlock o ids e (bk_args b) ∈ rp_evs p → ke_stop e = None) ∧
  (∀ ord e id d u, KSendBatch ord e id d u ∈ rp_evs p → announced b id → ke_stop e = None).
