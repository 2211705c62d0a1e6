(** What the Kafka transport has to do. *)
From Verif Require Import Base Lru Types Avro Wire SpecWire Producer SpecBlock SpecProducer Consumer Kafka.

(** Source names that can be told apart in a token. *)
Definition legal_source (k : bytes) : Prop := semicolon ∉ k ∧ equals_sign ∉ k.

(** A partition as brokers report it. *)
Definition partition_ok (p : partition) : Prop := (0 ≤ pt_oldest p ≤ pt_newest p)%Z.
(** Offsets of the messages held by the partition. *)
Definition held (p : partition) (q : Z) : Prop := (pt_oldest p ≤ q < pt_newest p)%Z.

(** A heartbeat of somebody else. *)
Definition beat (own : bytes → Prop) (key : bytes) (id : hash) : Prop :=
  ∃ k, key = PingType :: k ∧ id = bytes_hash k ∧ ¬ own k.
(** The last heartbeat of [id] among the keys read from a feed, with the times of reading. *)
Definition latest_beat (own : bytes → Prop) (feed : list (Z * bytes)) (id : hash) (t : Z) : Prop :=
  ∃ pre key post, feed = pre ++ (t, key) :: post ∧ beat own key id ∧ ∀ x, x ∈ post → ¬ beat own x.2 id.

(** The keys a producer has read from its feed. *)
Definition feed_of (evs : list kp_event) : list (Z * bytes) :=
  omap (λ ev, match ev with KFeed now key => Some (now, key) | _ => None end) evs.
Definition block_keys (evs : list kp_event) : list bytes :=
  filter (λ k, head k = Some BatchType) (feed_of evs).*2.
(** The header of the block was read and fewer than [n] headers since; the cache was not purged since. *)
Definition seen_within (n : Z) (evs : list kp_event) (h : hash) : Prop :=
  ∃ pre now post, evs = pre ++ KFeed now (key_of (KBatch h)) :: post ∧ KPurge ∉ post ∧
    (Z.of_nat (length (block_keys post)) < n)%Z.
(** What happened since some purge, or since the start. *)
Definition since_purge (evs post : list kp_event) : Prop := evs = post ∨ ∃ pre, evs = pre ++ KPurge :: post.
(** Not read since the cache was purged. *)
Definition unseen (evs : list kp_event) (h : hash) : Prop :=
  ∃ post, since_purge evs post ∧ ∀ k, k ∈ block_keys post → bytes_hash (take 32 (drop 1 k)) ≠ h.
(** Not named by AddBlock since the cache was purged. *)
Definition unnamed (evs : list kp_event) (id : hash) : Prop :=
  ∃ post, since_purge evs post ∧ ∀ o ids e a, KAddBlock o ids e a ∈ post → ¬ announces a id.
(** Sub-batches named in later calls of AddBlock. *)
Definition named (evs : list kp_event) : nat :=
  sum_list (map (λ ev, match ev with KAddBlock _ _ _ a => size (ba_batches a) | _ => 0 end) evs).
(** The messages among [l] for topic [t], in order. *)
Definition for_topic (l : list (topic * pmsg)) (t : topic) : list pmsg := (filter (λ x, x.1 = t) l).*2.
(** The orders of loops over maps are permutations. *)
Definition kp_event_ok (ev : kp_event) : Prop :=
  match ev with
  | KAddBlock o ids e _ => aorder_ok o ∧ (∀ l, ids l ≡ₚ l) ∧ kemit_ok e
  | KSendBatch ord e _ _ _ => (∀ l, ord l ≡ₚ l) ∧ kemit_ok e
  | _ => True
  end.

(** The messages of a feed that concern blocks, as inputs of the message processor. *)
Definition data_message (m : msg) : Prop :=
  ∃ t, head (m_key m) = Some t ∧ t ≠ ReorgType ∧ t ≠ PingType ∧ t ≠ ReorgCompleteType.
#[global] Instance data_message_dec m : Decision (data_message m).
Proof.
  destruct (head (m_key m)) as [t|] eqn:E.
  - destruct (decide (t ≠ ReorgType ∧ t ≠ PingType ∧ t ≠ ReorgCompleteType)) as [H|H].
    + left. exists t. done.
    + right. intros (t' & E' & H'). apply H. rewrite E in E'. by injection E' as ->.
  - right. intros (t & E' & _). congruence.
Defined.
Definition data_inputs (ms : list (Z * msg * menv)) : list mp_input :=
  map (λ x, IMsg x.1.2 x.2) (filter (λ x, data_message x.1.2) ms).
