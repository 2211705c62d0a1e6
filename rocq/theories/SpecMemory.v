(** Specification for C62: what a message processor remembers. *)
From Verif Require Import Base Lru Types Avro Wire SpecWire GoPath Producer SpecBlock Consumer SpecCollect SpecToken.

(** The processor holds data of the block. *)
Definition holds (st : mp) (h : hash) : Prop := is_Some (mp_pend st !! h) ∨ is_Some (mp_queue st !! h).
(** It remembers having delivered the block, or having given up on it. *)
Definition settled_block (st : mp) (h : hash) : Prop := h ∈ lru_keys (mp_done st) ∨ h ∈ mp_old st.
