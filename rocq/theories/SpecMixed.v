(** Specification for C72. *)
From Verif Require Import Base Types Consumer SpecCollect MixedSystem.

(** A freshly started processor got the calls [xs] and is now in state [st]. *)
Definition mixed_run (c : mp_config) (xs : list mp_call) (st : mp) : Prop :=
  ∃ last st0, mp_new c last = Ok st0 ∧ calls_run c xs st0 = Ok st.
(** The calls that came from Kafka, and the blocks handed over whole. *)
Definition inputs_of (xs : list mp_call) : list mp_input := omap (λ x, match x with CIn i => Some i | CWhole _ => None end) xs.
Definition wholes (xs : list mp_call) : list pending_batch := omap (λ x, match x with CWhole pb => Some pb | CIn _ => None end) xs.
(** The two batches describe the same block with the same data. *)
Definition as_given (pb pb0 : pending_batch) : Prop :=
  pb_num pb = pb_num pb0 ∧ pb_weight pb = pb_weight pb0 ∧ pb_parent pb = pb_parent pb0 ∧ pb_hash pb = pb_hash pb0 ∧
  pb_values pb = pb_values pb0 ∧ pb_deletes pb = pb_deletes pb0.
