(** Specification for C44: what producers put on the wire for a chain of blocks. *)
From Verif Require Import Base Types Avro Wire SpecWire GoPath Producer SpecBlock SpecProducer Consumer SpecCollect SpecSystem.

(** The messages a call returns, on any topic. *)
Definition returned (p : producer) (x : call) (m : pmsg) : Prop :=
  ∃ t tm, m ∈ on_topic tm t ∧
    match x with
    | CAdd o a => snd (add_block p o a) = inr tm
    | CSend ord id d u => snd (send_batch p ord id d u) = Some tm
    end.
(** Called with [l], producer [p] returned the message at some point. *)
Definition published (p : producer) (l : list call) (m : pmsg) : Prop :=
  ∃ pre x post, l = pre ++ x :: post ∧ returned (calls p pre) x m.

(** The calls submit only blocks of [bs] and their sub-batches. *)
Definition submits_only (bs : list block) (l : list call) : Prop :=
  (∀ o a, CAdd o a ∈ l → ∃ b, b ∈ bs ∧ a = bk_args b) ∧
  (∀ ord id d u, CSend ord id d u ∈ l → ∀ b, b ∈ bs → announced b id → is_parts d u (bk_parts b id)).
(** They submit [b] and, afterwards, each of its sub-batches. *)
Definition submits (b : block) (l : list call) : Prop :=
  ∃ pre o post, l = pre ++ CAdd o (bk_args b) :: post ∧
    ∀ id, announced b id → ∃ ord d u, CSend ord id d u ∈ post.

(** A replica: a new producer routing like [mt], and the calls it received. *)
Definition replica (mt : bytes → option bytes) (bs : list block) (r : producer * list call) : Prop :=
  p_pending r.1 = ∅ ∧ (∀ k, prefix_of_key r.1 k = mt k) ∧ Forall call_ok r.2 ∧ submits_only bs r.2.
(** [m] is a copy of a message published by one of the replicas. *)
Definition copies (rs : list (producer * list call)) (m : msg) : Prop :=
  ∃ r, r ∈ rs ∧ published r.1 r.2 (PMsg (m_key m) (m_val m)) ∧ sized (length (m_val m)).
(** Some replica submitted the whole block, and everything it published about it was delivered. *)
Definition arrived (rs : list (producer * list call)) (ms : list msg) (b : block) : Prop :=
  ∃ r, r ∈ rs ∧ submits b r.2 ∧
    ∀ m, published r.1 r.2 m → take 32 (drop 1 (pm_key m)) = hash_bytes (bk_hash b) → ∃ m', m' ∈ ms ∧ m_key m' = pm_key m.
