(** Specification for C69: several upstreams at the same moment. *)
From Verif Require Import Base Types Consumer Ordering SpecChain System Websocket SpecWebsocket WsSystem Upstreams.

Definition upstreams (s : fsys) : list conn := map fc_conn (f_conns s).
(** No connection is inside a call. *)
Definition all_idle (s : fsys) : Prop := ∀ k, k ∈ f_conns s → fc_call k = CIdle.
Definition all_taken (s : fsys) : Prop := batches_of (f_taken s) = sent_batches (mp_out (f_mp s)).
(** The same block, whatever channel its waiters use. *)
Definition same_block (pb pb0 : pending_batch) : Prop :=
  pb_num pb = pb_num pb0 ∧ pb_weight pb = pb_weight pb0 ∧ pb_parent pb = pb_parent pb0 ∧ pb_hash pb = pb_hash pb0 ∧
  pb_values pb = pb_values pb0 ∧ pb_deletes pb = pb_deletes pb0.
(** [l] was handed over in this order, possibly among others. *)
Definition handed_over (s : fsys) (l : list pending_batch) : Prop :=
  ∃ l', l' `sublist_of` sent_batches (mp_out (f_mp s)) ∧ Forall2 same_block l' l.
