(** Properties C51 and C52: what a resumption token says, and what was announced before a block. *)
From Coq Require Import Strings.String.
From Verif Require Import Base Lru Types Avro Wire SpecWire GoPath Producer SpecBlock Consumer SpecCollect SpecToken TokenFacts ExampleBlock.

(** C51.  Every offset of the block's own is that of a delivered message about the block; for the
    other sources the token has the largest offset delivered up to the block's header. *)
Theorem C51_token_exact : ∀ c ins st pb, consumer_run c ins st → EBatch pb ∈ mp_out st →
  (∀ s o, pb_res pb !! s = Some o → ∃ m, m ∈ messages ins ∧ about (pb_hash pb) m ∧ m_src m = s ∧ m_off m = o) ∧
  ∃ ms1 m ms2, messages ins = ms1 ++ m :: ms2 ∧ header_of (pb_hash pb) m ∧
    ∀ s o, pb_resdef pb !! s = Some o ↔ largest (ms1 ++ [m]) s o.
Proof. exact token_exact. Qed.
Print Assumptions C51_token_exact.

(** C52.  A block handed over was announced to the waiters before, with the same identification and
    with the channel that its Done closes; no channel is announced twice. *)
Theorem C52_announced_first : ∀ c ins st, consumer_run c ins st →
  (∀ pb, EBatch pb ∈ mp_out st → ∃ ch, pb_wait pb = Some ch ∧
     before (mp_out st) (EWaiter (pb_hash pb) (pb_parent pb) (pb_num pb) ch) (EBatch pb)) ∧
  NoDup (omap channel (mp_out st)).
Proof. exact announced_first. Qed.
Print Assumptions C52_announced_first.

(** Messages of three sources; the offsets of source "q" do not grow, and it says nothing about the
    block. *)
Definition tk_at (s : string) (o : Z) (m : msg) : msg := Msg (m_key m) (m_val m) (str s) o.
Definition tk_other (o : Z) : msg := tk_at "q" o (ex_msg 0 (KUpdate 77 (str "s/z"%string)) [x01]).
Definition tk_messages : list msg :=
  [tk_at "p" 8 (ex_m_part1 0); tk_other 12; tk_other 5; tk_at "r" 40 (ex_m_update 0); tk_at "r" 41 (ex_m_header 0);
   tk_other 30; tk_at "p" 4 (ex_m_part0 0); tk_at "p" 9 (ex_m_subhead 0); tk_at "r" 44 (ex_m_delete 0)].
Lemma run_batch (P : pending_batch → bool) c ms :
  match run_new c ms with
  | Ok st => match first_batch (mp_out st) with Some pb => P pb | None => false end
  | _ => false
  end = true → ∃ st pb, consumer_run c (ex_inputs ms) st ∧ EBatch pb ∈ mp_out st ∧ P pb = true.
Proof.
  destruct (run_new c ms) as [st| |] eqn:E; try done. destruct (first_batch (mp_out st)) as [pb|] eqn:Eb; [|done]. intros H.
  exists st, pb. split; [by apply run_new_run|]. split; [by apply first_batch_elem|exact H].
Qed.
Definition tk_token (pb : pending_batch) : Prop :=
  map_to_list (pb_res pb) ≡ₚ [(str "p", 4%Z); (str "r", 40%Z)] ∧
  map_to_list (pb_resdef pb) ≡ₚ [(str "p", 8%Z); (str "q", 12%Z); (str "r", 41%Z)] ∧ pb_wait pb = Some 0%N.
#[local] Instance tk_token_dec pb : Decision (tk_token pb).
Proof. unfold tk_token. apply _. Defined.
Example C51_case : ∃ st pb, consumer_run ex_all (ex_inputs tk_messages) st ∧ EBatch pb ∈ mp_out st ∧ tk_token pb.
Proof.
  destruct (run_batch (λ pb, bool_decide (tk_token pb)) ex_all tk_messages) as (st & pb & H1 & H2 & H3).
  - vm_compute. reflexivity.
  - exists st, pb. split; [done|]. split; [done|]. exact (bool_decide_eq_true_1 _ H3).
Qed.
