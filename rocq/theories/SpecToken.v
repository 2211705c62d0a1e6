(** Specification for C51 and C52: resumption tokens and announcements. *)
From Verif Require Import Base Types Avro Wire SpecWire GoPath Producer SpecBlock Consumer SpecCollect.

(** The largest offset of the messages of a source. *)
Definition largest (ms : list msg) (s : bytes) (o : Z) : Prop :=
  (∃ m, m ∈ ms ∧ m_src m = s ∧ m_off m = o) ∧ ∀ m, m ∈ ms → m_src m = s → (m_off m ≤ o)%Z.
Definition header_of (h : hash) (m : msg) : Prop := about h m ∧ head (m_key m) = Some BatchType.

(** In a list of events, [ev] comes before [ev']. *)
Definition before (o : list mp_event) (ev ev' : mp_event) : Prop := ∀ o1 o2, o = o1 ++ ev' :: o2 → ev ∈ o1.
Definition channel (ev : mp_event) : option N := match ev with EWaiter _ _ _ ch => Some ch | _ => None end.
