(** What can be observed of a message processor: its inputs and the batches it has emitted. *)
From Verif Require Import Base Lru Types Avro Wire SpecWire GoPath Producer SpecBlock Consumer.

(** A freshly started processor has handled the inputs [ins] and is now in state [st]. *)
Definition consumer_run (c : mp_config) (ins : list mp_input) (st : mp) : Prop :=
  ∃ last st0, mp_new c last = Ok st0 ∧ mp_run c ins st0 = Ok st.

Definition messages (ins : list mp_input) : list msg :=
  omap (λ i, match i with IMsg m _ => Some m | IEvict _ => None end) ins.
(** Eviction requests: between messages, or while a message is being handled. *)
Definition requested (ins : list mp_input) (n : Z) : Prop :=
  IEvict n ∈ ins ∨ ∃ m e k, IMsg m e ∈ ins ∧ n ∈ me_evict e k.

Definition emitted_batch (st : mp) (h : hash) (pb : pending_batch) : Prop := EBatch pb ∈ mp_out st ∧ pb_hash pb = h.

(** The key of the message carries this block hash. *)
Definition about (h : hash) (m : msg) : Prop := 33 ≤ length (m_key m) ∧ take 32 (drop 1 (m_key m)) = hash_bytes h.
Definition reorg_type (m : msg) : Prop := head (m_key m) = Some ReorgType.
(** A message of a type that has nothing to do with collecting blocks. *)
Definition foreign_type (m : msg) : Prop :=
  ∃ t, head (m_key m) = Some t ∧
    t ∉ [BatchType; SubBatchHeaderType; SubBatchMsgType; BatchMsgType; BatchDeleteMsgType; ReorgType].

(** Apart from reorg messages and messages of foreign types, everything received for the block is
    a copy of one of its messages. *)
Definition faithful (mt : bytes → option bytes) (b : block) (ms : list msg) : Prop :=
  ∀ m, m ∈ ms → about (ba_hash (bk_args b)) m → ¬ reorg_type m → copy_of mt b m ∨ foreign_type m.

Definition delivered (ms : list msg) (kd : message_kind) : Prop := ∃ m, m ∈ ms ∧ m_key m = key_of kd.

(** Reading the source of [m] again from the token's offset yields [m] again. *)
Definition reread (token : gmap bytes Z) (m : msg) : Prop := ∃ o, token !! m_src m = Some o ∧ (o ≤ m_off m)%Z.

(** * Messages that contribute nothing (C49) *)
Definition same_data (pb pb' : pending_batch) : Prop :=
  pb_num pb' = pb_num pb ∧ pb_weight pb' = pb_weight pb ∧ pb_parent pb' = pb_parent pb ∧ pb_hash pb' = pb_hash pb ∧
  pb_values pb' = pb_values pb ∧ pb_deletes pb' = pb_deletes pb ∧ pb_prefixes pb' = pb_prefixes pb ∧
  pb_batches pb' = pb_batches pb ∧ pb_pbatches pb' = pb_pbatches pb ∧ ready pb' = ready pb.
Definition same_pending (p p' : option pending_batch) : Prop :=
  match p, p' with Some pb, Some pb' => same_data pb pb' | None, None => True | _, _ => False end.

(** The counters of the block say nothing about this path. *)
Definition unexpected_path (pb : pending_batch) (p : bytes) : Prop :=
  rooted p = false ∧
  ∀ k v, k ∈ lookup_keys p → pb_prefixes pb !! k = Some v → (v < 0)%Z ∨ v = 0%Z ∧ pb_frp pb = false.

Inductive useless (st : mp) (h : hash) : message_kind → Prop :=
| UGone kd : kd ≠ KReorg h → h ∈ lru_keys (mp_done st) ∨ h ∈ mp_old st → useless st h kd
| UHeader pb : mp_pend st !! h = Some pb → useless st h (KBatch h)
| UNoSub pb id : mp_pend st !! h = Some pb → id ∉ pb_pbatches pb → useless st h (KSubHead h id)
| UNoPart pb id i : mp_pend st !! h = Some pb → pb_batches pb !! id = None → useless st h (KSubMsg h id i)
| UHavePart pb id i l : mp_pend st !! h = Some pb → pb_batches pb !! id = Some l → (0 ≤ i)%Z → l !! Z.to_nat i = Some true →
    useless st h (KSubMsg h id i)
| UHaveValue pb p v : mp_pend st !! h = Some pb → pb_values pb !! p = Some v → v ≠ [] → useless st h (KUpdate h p)
| UNoValue pb p : mp_pend st !! h = Some pb → unexpected_path pb p → useless st h (KUpdate h p)
| UHaveDelete pb p : mp_pend st !! h = Some pb → p ∈ pb_deletes pb → useless st h (KDelete h p)
| UNoDelete pb p : mp_pend st !! h = Some pb → unexpected_path pb p → useless st h (KDelete h p)
| UDone pb : mp_pend st !! h = Some pb → useless st h (KReorgDone h).

(** No complete block is waiting to be emitted. *)
Definition settled (st : mp) : Prop := ∀ h pb, mp_pend st !! h = Some pb → ready pb = false.
(** ProcessMessage returned no error so far. *)
Inductive error_free (c : mp_config) : list mp_input → mp → mp → Prop :=
| EFNil st : error_free c [] st st
| EFMsg m e ins st st1 st2 : process c e st m = Ok (st1, false) → error_free c ins st1 st2 → error_free c (IMsg m e :: ins) st st2
| EFEvict n ins st st2 : error_free c ins (evict_older_than st n) st2 → error_free c (IEvict n :: ins) st st2.
