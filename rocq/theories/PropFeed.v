(** What the Kafka transport reads when it starts: the latest block of a feed (C53), the blocks a new
    producer knows (C54), the common start of a consumer's partitions (C55), tokens for timestamps (C56). *)
From Coq Require Import Strings.String.
From Verif Require Import Base Lru Types Avro Wire SpecWire GoText Producer SpecBlock SpecProducer Consumer ExampleBlock ExampleProducer Kafka SpecKafka
  Feed SpecFeed FeedFacts FeedFacts2.

(** C53.  The search always ends with a number; it is 0 or that of a header read, and no header within
    the last 100 offsets of a partition that was read to its end has a higher one. *)
Theorem C53_recent_blocks : ∀ l, Forall (λ s, log_ok (sc_log s)) l → ∃ n, latest_block l = Some n ∧ (0 ≤ n)%Z ∧
  (n = 0%Z ∨ ∃ s m, s ∈ l ∧ sc_get s = true ∧ (recent (sc_log s) m ∨ m ∈ sc_new s) ∧ header_number m n) ∧
  (∀ s m k, s ∈ l → sc_get s = true → all_read s → recent (sc_log s) m → header_number m k → (k ≤ n)%Z).
Proof. exact latest_recent. Qed.
Print Assumptions C53_recent_blocks.

(** The highest number on the feed is found if every partition answers and is read to its end, and no
    header further back is higher than all recent ones. *)
Theorem C53_latest_partial : ∀ l, Forall (λ s, log_ok (sc_log s) ∧ sc_get s = true ∧ all_read s) l →
  (∀ s m k, s ∈ l → m ∈ fl_msgs (sc_log s) → header_number m k → (k ≤ 0)%Z ∨
     ∃ s' m' k', s' ∈ l ∧ recent (sc_log s') m' ∧ header_number m' k' ∧ (k ≤ k')%Z) →
  ∃ n, latest_block l = Some n ∧ (∀ s m k, s ∈ l → m ∈ fl_msgs (sc_log s) → header_number m k → (k ≤ n)%Z) ∧
    (n = 0%Z ∨ ∃ s m, s ∈ l ∧ (m ∈ fl_msgs (sc_log s) ∨ m ∈ sc_new s) ∧ header_number m n).
Proof. exact latest_on_feed. Qed.
Print Assumptions C53_latest_partial.

Definition fx_head (off n : Z) : fmsg := FM off (key_of (KBatch (Z.to_N n))) (encode_batch (Batch n [x01] 0 ∅) []).
Definition fx_ping (off : Z) : fmsg := FM off (PingType :: [x07]) [].
Definition fx_pings (k n : nat) : list fmsg := map (λ i, fx_ping (Z.of_nat i)) (seq k n).
Lemma fx_pings_sorted k n : StronglySorted (λ a b, fm_off a < fm_off b)%Z (fx_pings k n).
Proof.
  revert k. induction n as [|n IH]; intros k; cbn; constructor; [apply IH|]. apply Forall_forall. intros x Hx.
  apply elem_of_list_In, in_map_iff in Hx as (i & <- & Hi%in_seq). cbn. lia.
Qed.
Lemma fx_pings_bounds k n : Forall (λ m, Z.of_nat k ≤ fm_off m < Z.of_nat (k + n))%Z (fx_pings k n).
Proof. apply Forall_forall. intros x Hx. apply elem_of_list_In, in_map_iff in Hx as (i & <- & Hi%in_seq). cbn. lia. Qed.
(** A header followed by 100 heartbeats *)
Definition fx_buried : flog := FL (Prt 0 101) (fx_head 0 9 :: fx_pings 1 100).
Lemma fx_buried_ok : log_ok fx_buried.
Proof.
  split; [done|]. pose proof (fx_pings_bounds 1 100) as Hb. split; cbn [fx_buried fl_msgs fl_part].
  - constructor; [apply fx_pings_sorted|]. eapply Forall_impl; [exact Hb|]. intros m [? ?]. cbn. lia.
  - constructor; [done|]. eapply Forall_impl; [exact Hb|]. intros m [? ?]. unfold held. cbn. lia.
Qed.
Ltac small_log := split; [done|split; repeat constructor; cbn; lia].

(** A header followed by a hundred messages that are not headers is not found. *)
Theorem C53_older_refuted : ∃ s m k, log_ok (sc_log s) ∧ sc_get s = true ∧ all_read s ∧ m ∈ fl_msgs (sc_log s) ∧ header_number m k ∧
  latest_block [s] = Some 0%Z ∧ (0 < k)%Z.
Proof.
  exists (SC fx_buried true [] 101), (fx_head 0 9), 9%Z. split; [exact fx_buried_ok|]. split; [done|].
  split; [vm_compute; lia|]. split; [left|]. split; [split; [done|]; eexists; by vm_compute|]. split; [by vm_compute|lia].
Qed.
Print Assumptions C53_older_refuted.

(** A partition whose newest offset cannot be found is left out without an error. *)
Theorem C53_failing_partition_refuted : ∃ s s' m k n, log_ok (sc_log s) ∧ log_ok (sc_log s') ∧ all_read s ∧ all_read s' ∧ recent (sc_log s) m ∧
  header_number m k ∧ latest_block [s; s'] = Some n ∧ (n < k)%Z.
Proof.
  exists (SC (FL (Prt 0 1) [fx_head 0 12]) false [] 9), (SC (FL (Prt 0 1) [fx_head 0 5]) true [] 9), (fx_head 0 12), 12%Z, 5%Z.
  split; [small_log|]. split; [small_log|]. split; [vm_compute; lia|]. split; [vm_compute; lia|].
  split; [split; [left|vm_compute; discriminate]|]. split; [split; [done|]; eexists; by vm_compute|]. split; [by vm_compute|lia].
Qed.
Print Assumptions C53_failing_partition_refuted.

Definition fx_scans : list scan :=
  [SC (FL (Prt 3 8) [fx_head 3 5; fx_ping 5; fx_head 6 12]) true [fx_head 9 13] 3; SC (FL (Prt 0 0) []) true [] 0;
   SC (FL (Prt 0 300) [fx_head 10 4; fx_head 200 11; FM 250 (key_of (KBatch 99)) [x02]; fx_head 299 7]) true [] 3].
Example C53_case : latest_block fx_scans = Some 12%Z ∧ Forall (λ s, log_ok (sc_log s) ∧ sc_get s = true ∧ all_read s) fx_scans ∧
  latest_block [SC (FL (Prt 3 8) [fx_head 3 5; fx_ping 5; fx_head 6 12]) true [fx_head 9 13] 4] = Some 13%Z.
Proof.
  split; [by vm_compute|]. split; [|by vm_compute].
  repeat constructor; cbn; try lia; try (vm_compute; lia).
Qed.

(** C54.  When the constructor of a producer returns, every block whose header is within the last 100
    offsets of its partition is known, except for the very last message: such a block is not sent again.
    At most 4096 headers have been read. *)
Theorem C54_known_partial : ∀ self dp fs s f m o ids e a, Forall feeding_ok fs → rtc (start_step self) (start_init dp fs) s → started s →
  f ∈ fs → fd_get f = true → recent (fd_log f) m → (fm_off m < pt_newest (fl_part (fd_log f)) - 1)%Z →
  hash_ok (ba_hash a) → fm_key m = key_of (KBatch (ba_hash a)) → (Z.of_nat (length (block_keys (st_fed s))) ≤ 4096)%Z →
  let r := kp_add (st_kp s) o ids e a in r.2 = None ∧ kp_sent r.1 = kp_sent (st_kp s) ∧ kp_dp r.1 = kp_dp (st_kp s).
Proof. exact started_known. Qed.
Print Assumptions C54_known_partial.

(** The constructor returns if every partition that has an end also holds the message before
    it: until then something can happen, and only finitely much can. *)
Theorem C54_returns_partial : ∀ self dp fs, Forall feeding_ok fs → Forall (λ f, Forall key_long (fl_msgs (fd_log f) ++ fd_new f)) fs →
  Forall (λ f, fd_get f = true → pt_newest (fl_part (fd_log f)) ≠ 0%Z → end_held f) fs →
  (∀ s, rtc (start_step self) (start_init dp fs) s → ¬ started s → ∃ s', start_step self s s') ∧
  (∀ n s, nsteps (start_step self) n (start_init dp fs) s → n ≤ 2 * sum_list_with (λ f, length (fl_msgs (fd_log f) ++ fd_new f)) fs).
Proof. intros self dp fs H1 H2 H3. split; [intros s; by apply start_progress|intros n s; apply start_bounded]. Qed.
Print Assumptions C54_returns_partial.

(** Two headers; the constructor may return before the second is recorded. *)
Definition fx_fed (get : bool) : feeding := FD (FL (Prt 0 2) [fx_head 0 5; fx_head 1 1]) get [] 2.
Lemma fx_fed_ok get : feeding_ok (fx_fed get).
Proof. split; [small_log|]. split; [constructor|]. split; [constructor|]. cbn. lia. Qed.
Definition fx_first : kproducer := match kp_feed [] (kp_new ex_prod) 0 (key_of (KBatch 5)) with Ok kp => kp | _ => kp_new ex_prod end.
Definition fx_returned : starting := ST [RD [] (Some (fx_head 1 1)) true 2 2] fx_first [KFeed 0 (key_of (KBatch 5))].
Lemma fx_run : rtc (start_step []) (start_init ex_prod [fx_fed true]) fx_returned.
Proof.
  eapply rtc_l. { eapply (SReceive _ _ 0 _ _ _ _ _ 2); [reflexivity|cbn; lia|cbn; lia]. }
  eapply rtc_l. { eapply (SRecord _ _ 0 _ _ _ _ _ 0%Z _ fx_first); [reflexivity|reflexivity]. }
  eapply rtc_l. { eapply (SReceive _ _ 0 _ _ _ _ _ 2); [reflexivity|cbn; lia|cbn; lia]. }
  apply rtc_refl.
Qed.
Theorem C54_last_header_refuted : ∃ self dp f s m o ids e a, feeding_ok f ∧ rtc (start_step self) (start_init dp [f]) s ∧ started s ∧
  fd_get f = true ∧ recent (fd_log f) m ∧ fm_key m = key_of (KBatch (ba_hash a)) ∧ kemit_ok e ∧ kp_sent (kp_add (st_kp s) o ids e a).1 ≠ kp_sent (st_kp s).
Proof.
  exists [], ex_prod, (fx_fed true), fx_returned, (fx_head 1 1), id_aorder, id, (KE id None), ex_args. split; [apply fx_fed_ok|]. split; [exact fx_run|].
  split; [by repeat constructor|]. split; [done|]. split; [split; [right; left|vm_compute; discriminate]|]. split; [by vm_compute|].
  split; [intros l; reflexivity|]. intros E. apply (f_equal length) in E. vm_compute in E. discriminate E.
Qed.
Print Assumptions C54_last_header_refuted.

(** If the newest offset cannot be found, the constructor does not wait for the partition at all. *)
Theorem C54_failing_partition_refuted : ∃ self dp f s m, feeding_ok f ∧ rtc (start_step self) (start_init dp [f]) s ∧ started s ∧
  recent (fd_log f) m ∧ (fm_off m < pt_newest (fl_part (fd_log f)) - 1)%Z ∧ st_fed s = [].
Proof.
  exists [], ex_prod, (fx_fed false), (start_init ex_prod [fx_fed false]), (fx_head 0 5). split; [apply fx_fed_ok|]. split; [apply rtc_refl|].
  split; [by repeat constructor|]. split; [split; [left|vm_compute; discriminate]|]. split; [by vm_compute|done].
Qed.
Print Assumptions C54_failing_partition_refuted.

(** A partition that has lost all its messages keeps the constructor waiting until one arrives. *)
Theorem C54_hangs_refuted : ∃ self dp f, feeding_ok f ∧ ∀ s, rtc (start_step self) (start_init dp [f]) s → ¬ started s.
Proof.
  exists [], ex_prod, (FD (FL (Prt 50 50) []) true [] 50). split; [split; [small_log|]; split; [constructor|]; split; [constructor|]; cbn; lia|].
  intros s H. assert (E : s = start_init ex_prod [FD (FL (Prt 50 50) []) true [] 50]).
  { inversion H as [|? y ? Hst _]; [done|]; subst. exfalso. inversion Hst as [rs i ? ? ? ? ? ? ? ? Hi|rs i ? ? ? ? ? ? ? ? ? Hi]; subst; destruct i; discriminate Hi. }
  subst s. intros Hs. inversion Hs as [|? ? Hr _]; subst. discriminate Hr.
Qed.
Print Assumptions C54_hangs_refuted.

Example C54_case : feeding_ok (fx_fed true) ∧ rtc (start_step []) (start_init ex_prod [fx_fed true]) fx_returned ∧ started fx_returned ∧
  recent (fd_log (fx_fed true)) (fx_head 0 5) ∧ fm_key (fx_head 0 5) = key_of (KBatch 5) ∧ length (block_keys (st_fed fx_returned)) = 1 ∧
  Forall key_long (fl_msgs (fd_log (fx_fed true))) ∧ end_held (fx_fed true).
Proof.
  split; [apply fx_fed_ok|]. split; [exact fx_run|]. split; [by repeat constructor|]. split; [split; [left|vm_compute; discriminate]|].
  split; [by vm_compute|]. split; [by vm_compute|]. split; [repeat constructor; intros _; vm_compute; lia|]. split; [cbn; lia|]. eexists. split; [reflexivity|]. done.
Qed.

(** C55.  A consumer's partitions start together: nothing is passed on until each of them has
    received a message. *)
Theorem C55_barrier : ∀ ps s, Forall (λ x : list fmsg * Z, Forall (λ m, x.2 ≤ fm_off m)%Z x.1) ps → rtc warm_step (warm_init ps) s → wm_out s ≠ [] →
  ∀ i x p, ps !! i = Some x → wm_parts s !! i = Some p → length (wp_todo p) < length x.1.
Proof. exact warm_barrier. Qed.
Print Assumptions C55_barrier.

(** The messages of a partition are passed on in order, none twice and none left out. *)
Theorem C55_order : ∀ ps s, Forall (λ x : list fmsg * Z, Forall (λ m, x.2 ≤ fm_off m)%Z x.1) ps → rtc warm_step (warm_init ps) s →
  ∀ i x, ps !! i = Some x → put_out i (wm_out s) `prefix_of` x.1.
Proof. exact warm_order. Qed.
Print Assumptions C55_order.

(** Nobody waits for ever if every partition has a message: when nothing more can happen everything
    has been passed on, and only finitely much can happen. *)
Theorem C55_all_delivered : ∀ ps, Forall (λ x : list fmsg * Z, Forall (λ m, x.2 ≤ fm_off m)%Z x.1) ps → Forall (λ x : list fmsg * Z, x.1 ≠ []) ps →
  (∀ s, rtc warm_step (warm_init ps) s → (∀ s', ¬ warm_step s s') → ∀ i x, ps !! i = Some x → put_out i (wm_out s) = x.1) ∧
  (∀ n s, nsteps warm_step n (warm_init ps) s → n ≤ 2 * sum_list_with (λ x, length x.1) ps).
Proof. intros ps H1 H2. split; [intros s; by apply warm_stuck|intros n s; apply warm_bounded]. Qed.
Print Assumptions C55_all_delivered.

(** The messages a partition consumer delivers are never below the offset they are compared with; the
    first offset is that of C19. *)
Theorem C55_start_offset : ∀ entry rb start get l, log_ok l →
  fst <$> warm_start entry rb start get (fl_part l) = start_partition entry rb start get (fl_part l) ∧
  ∀ s so m, warm_start entry rb start get (fl_part l) = Some (s, so) → m ∈ from_offset l s → (so ≤ fm_off m)%Z.
Proof. intros entry rb start get l Hl. split; [apply warm_start_partition|intros s so m; by apply warm_start_le]. Qed.
Print Assumptions C55_start_offset.

(** One partition without messages holds up all the others. *)
Definition fx_held_up : list (list fmsg * Z) := [([fx_ping 3; fx_head 4 5], 3%Z); ([], 0%Z)].
Lemma fx_held_up_low : Forall (λ x : list fmsg * Z, Forall (λ m, x.2 ≤ fm_off m)%Z x.1) fx_held_up.
Proof. repeat constructor; cbn; lia. Qed.
Theorem C55_empty_partition_refuted : ∃ ps i x, Forall (λ x : list fmsg * Z, Forall (λ m, x.2 ≤ fm_off m)%Z x.1) ps ∧ ps !! i = Some x ∧ x.1 ≠ [] ∧
  ∀ s, rtc warm_step (warm_init ps) s → wm_out s = [].
Proof.
  exists fx_held_up, 0, ([fx_ping 3; fx_head 4 5], 3%Z). split; [exact fx_held_up_low|]. split; [done|]. split; [done|]. intros s H.
  destruct (decide (wm_out s = [])) as [?|Hne]; [done|]. exfalso.
  pose proof (warm_inv_reach _ _ fx_held_up_low H) as Hinv. destruct (warm_part _ _ 1 _ Hinv eq_refl) as (p & Hp & _).
  pose proof (warm_barrier _ _ fx_held_up_low H Hne 1 _ p eq_refl Hp) as Hlt. cbn [length snd fst] in Hlt. lia.
Qed.
Print Assumptions C55_empty_partition_refuted.

Definition fx_ready : list (list fmsg * Z) := [([fx_ping 3; fx_head 4 5], 3%Z); ([fx_head 0 6], (-2)%Z)].
Example C55_case : Forall (λ x : list fmsg * Z, Forall (λ m, x.2 ≤ fm_off m)%Z x.1) fx_ready ∧ Forall (λ x : list fmsg * Z, x.1 ≠ []) fx_ready ∧
  ∃ s, rtc warm_step (warm_init fx_ready) s ∧ wm_out s = [(1, fx_head 0 6); (0, fx_ping 3); (0, fx_head 4 5)] ∧
  warm_start (Some 5%Z) 2 1%N true (Prt 0 9) = Some (3, 3)%Z ∧ warm_start (Some 5%Z) 2 1%N true (Prt 4 9) = Some (5, 5)%Z ∧
  warm_start None 0 zero_hash true (Prt 0 9) = Some (8, 8)%Z ∧ warm_start None 0 1%N true (Prt 2 9) = Some (2, -2)%Z.
Proof.
  split; [repeat constructor; cbn; lia|]. split; [repeat constructor; done|]. eexists. split.
  - eapply rtc_l. { eapply (WArrive _ _ 0); [reflexivity|cbn; lia]. }
    eapply rtc_l. { eapply (WArrive _ _ 1); [reflexivity|cbn; lia]. }
    eapply rtc_l. { eapply (WRelease _ _ 1); [reflexivity|]. constructor; [by right|]. constructor; [by right|constructor]. }
    eapply rtc_l. { eapply (WRelease _ _ 0); [reflexivity|]. constructor; [by right|]. constructor; [by left|constructor]. }
    eapply rtc_l. { eapply (WPass _ _ 0); [reflexivity|by left]. }
    apply rtc_refl.
  - split; [done|]. split_and!; by vm_compute.
Qed.

(** C56.  A consumer reads from the token for a timestamp the offset its broker gave for each
    partition, and nothing else, if the brokers that have a partition of that name agree. *)
Theorem C56_token_entries : ∀ (bs : list ((bytes → Z → option Z) * list (bytes * list Z))) toks,
  Forall (λ b, Forall (λ x : bytes * list Z, legal_topic x.1) b.2 ∧ ∀ t part o, b.1 t part = Some o → in_int64 o) bs →
  Forall2 (λ b tok, timestamp_token b.1 b.2 = Some tok) bs toks →
  ∃ m, parse_token (brokers_token toks) = Some m ∧
    ∀ k o, m !! k = Some o → ∃ b t parts part, b ∈ bs ∧ (t, parts) ∈ b.2 ∧ part ∈ parts ∧ k = t ++ x3a :: int_text part ∧ b.1 t part = Some o.
Proof.
  intros bs toks H1 H2. destruct (timestamp_tokens bs toks H1 H2) as (m & Hm & H & _). exists m. split; [done|].
  intros k o Hk. destruct (H k o Hk) as (b & Hb & t & parts & part & ?). by exists b, t, parts, part.
Qed.
Print Assumptions C56_token_entries.

Theorem C56_token_offset : ∀ (bs : list ((bytes → Z → option Z) * list (bytes * list Z))) toks b t parts part o,
  Forall (λ b, Forall (λ x : bytes * list Z, legal_topic x.1 ∧ Forall in_int64 x.2) b.2 ∧ ∀ t part o, b.1 t part = Some o → in_int64 o) bs →
  Forall2 (λ b tok, timestamp_token b.1 b.2 = Some tok) bs toks →
  b ∈ bs → (t, parts) ∈ b.2 → part ∈ parts → b.1 t part = Some o →
  (∀ b' parts', b' ∈ bs → (t, parts') ∈ b'.2 → part ∈ parts' → b'.1 t part = Some o) →
  ∃ m, parse_token (brokers_token toks) = Some m ∧ m !! (t ++ x3a :: int_text part) = Some o.
Proof. exact timestamp_entry. Qed.
Print Assumptions C56_token_offset.

(** A consumer that starts from that offset misses no message of that time or later that its broker
    still holds, if a start hash is configured or the offset is not below the rollback. *)
Theorem C56_no_skip_partial : ∀ p p' time ts o rb start get s, partition_ok p → partition_ok p' → later p p' → offset_for p time ts o → (0 ≤ rb)%Z →
  (rb ≤ o)%Z ∨ start ≠ zero_hash → start_partition (Some o) rb start get p' = Some s →
  ∀ q, held p' q → (ts ≤ time q)%Z → (s ≤ q)%Z.
Proof. exact timestamp_no_skip. Qed.
Print Assumptions C56_no_skip_partial.

(** Without a start hash a timestamp after the last message is taken for no offset at all: messages
    that arrive before the consumer starts are left out. *)
Theorem C56_future_refuted : ∃ p p' time ts o s q, partition_ok p ∧ partition_ok p' ∧ later p p' ∧ offset_for p time ts o ∧
  start_partition (Some o) 0 zero_hash true p' = Some s ∧ held p' q ∧ (ts ≤ time q)%Z ∧ (q < s)%Z.
Proof.
  exists (Prt 0 5), (Prt 0 9), (λ q, q), 5%Z, (-1)%Z, 8%Z, 6%Z. split; [done|]. split; [done|]. split; [done|].
  split; [right; split; [done|]; intros q [_ Hq]; exact Hq|]. split; [by vm_compute|]. done.
Qed.
Print Assumptions C56_future_refuted.

(** Two brokers with partitions of the same name: the consumer of the first starts at an offset of the second. *)
Theorem C56_same_name_refuted : ∃ (off off' : bytes → Z → option Z) topics toks m k o, Forall (λ x : bytes * list Z, legal_topic x.1) topics ∧
  Forall2 (λ b tok, timestamp_token b.1 b.2 = Some tok) [(off, topics); (off', topics)] toks ∧ parse_token (brokers_token toks) = Some m ∧
  off (str "a"%string) 0%Z = Some o ∧ k = str "a:0"%string ∧ m !! k ≠ Some o.
Proof.
  exists (λ _ _, Some 7%Z), (λ _ _, Some 3%Z), [(str "a"%string, [0%Z])], [str "a:0=7"%string; str "a:0=3"%string].
  exists ({[(str "a:0"%string : bytes) := 3%Z]}), (str "a:0"%string), 7%Z. split.
  { apply Forall_singleton. split_and!; by apply (bool_decide_eq_true_1 _). }
  split; [repeat constructor; by vm_compute|]. split.
  { apply (bool_decide_eq_true_1 _). vm_compute. reflexivity. }
  split; [reflexivity|]. split; [reflexivity|]. rewrite lookup_singleton. discriminate.
Qed.
Print Assumptions C56_same_name_refuted.

Definition fx_off (t : bytes) (part : Z) : option Z := if bool_decide (t = str "a"%string) then Some (part + 40)%Z else Some (-1)%Z.
Definition fx_topics : list (bytes * list Z) := [(str "a"%string, [0%Z; 1%Z]); (str "b-c"%string, [0%Z])].
Example C56_case : timestamp_token fx_off fx_topics = Some (str "a:0=40;a:1=41;b-c:0=-1"%string) ∧
  brokers_token [str "a:0=40;a:1=41"%string; []; str "b:0=5"%string] = str "a:0=40;a:1=41;;b:0=5"%string ∧
  bool_decide (parse_token (str "a:0=40;a:1=41;;b:0=5"%string)
    = Some {[(str "a:0"%string : bytes) := 40%Z; (str "a:1"%string : bytes) := 41%Z; (str "b:0"%string : bytes) := 5%Z]}) = true ∧
  bool_decide (Forall (λ x : bytes * list Z, legal_topic x.1) fx_topics) = true ∧
  offset_for (Prt 2 9) (λ q, 10 * q)%Z 35 4 ∧ start_partition (Some 4%Z) 1 zero_hash true (Prt 3 12) = Some 3%Z.
Proof.
  split; [by vm_compute|]. split; [by vm_compute|]. split; [by vm_compute|]. split; [by vm_compute|]. split; [|by vm_compute].
  left. split; [done|]. split; [lia|]. intros q Hq Hlt. lia.
Qed.
