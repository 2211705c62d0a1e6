(** C61: after a reorg message blocks are delivered again. *)
From Coq Require Import Strings.String.
From Verif Require Import Base Lru LruFacts Types Avro Wire SpecWire GoPath Producer SpecBlock Consumer SpecCollect Kafka SpecKafka SpecAgain ExampleBlock AgainFacts.

(** C61.  The message made by the producer for a reorganisation announces its ancestor; what was collected so
    far is kept, except for blocks that were to be discarded; what was completed or discarded is forgotten. *)
Theorem C61_announced : ∀ c e st m n h, hash_ok h → in_int32 n → carries m (reorg_msg n h) →
  ∃ st', process c e st m = Ok (st', false) ∧ mp_out st' = mp_out st ++ [EReorg n h] ∧ mp_last st' = n ∧ mp_queue st' = mp_queue st ∧
    (∀ h' pb, mp_pend st' !! h' = Some pb ↔ mp_pend st !! h' = Some pb ∧ ¬ ∃ k, k ∈ mp_evict st ∧ (pb_num pb < k)%Z) ∧
    mp_old st' = ∅ ∧ lru_keys (mp_done st') = [].
Proof. exact reorg_processed. Qed.
Print Assumptions C61_announced.
(** Whatever happened before the reorg message: a block whose messages all arrive after it is delivered after it, with exactly the
    submitted data, also if it had been delivered or discarded before. *)
Theorem C61_delivered_again : ∀ mt b c, wf_block mt b → ∀ ins0 st m e st1 err ins st2,
  consumer_run c ins0 st → Forall input_ok ins0 → reorg_type m → process c e st m = Ok (st1, err) → Forall input_ok ins → mp_run c ins st1 = Ok st2 →
  faithful mt b (messages ins0 ++ messages ins) → (∀ n, requested ins n → (n ≤ ba_num (bk_args b))%Z) →
  (∀ kd, needed mt b (mc_tracked c) kd → delivered (messages ins) kd) →
  ∃ o pb, mp_out st2 = mp_out st1 ++ o ∧ EBatch pb ∈ o ∧ pb_hash pb = ba_hash (bk_args b) ∧ exact mt b (mc_tracked c) pb.
Proof. exact collected_again. Qed.
Print Assumptions C61_delivered_again.
(** The topic of a reorganisation as read by the second consumer: first the announcement, then every block in the topic; the counter
    of reorganisations is what it was before. *)
Theorem C61_topic : ∀ mt c topic ins0 st ms n h ds st', hash_ok h → in_int32 n → (0 ≤ kc_wg st)%Z →
  consumer_run c ins0 (kc_mp st) → Forall input_ok ins0 → reorg_feed ms n h ds → Forall input_ok (data_inputs ds) → kc_run c true topic ms st = Ok st' →
  kc_wg st' = kc_wg st ∧ ∃ o, mp_out (kc_mp st') = mp_out (kc_mp st) ++ EReorg n h :: o ∧
  ∀ b, wf_block mt b → faithful mt b (messages ins0 ++ messages (data_inputs ds)) → (∀ k, requested (data_inputs ds) k → (k ≤ ba_num (bk_args b))%Z) →
    (∀ kd, needed mt b (mc_tracked c) kd → delivered (messages (data_inputs ds)) kd) →
    ∃ pb, EBatch pb ∈ o ∧ pb_hash pb = ba_hash (bk_args b) ∧ exact mt b (mc_tracked c) pb.
Proof.
  intros mt c topic ins0 st ms n h ds st' Hh Hn Hw Hrun Hok Hfeed Hds H. 
  destruct (reorg_topic_read c topic st ms n h ds st' Hh Hn Hw Hfeed H) as (Ew & m & e & st1 & Hp & Hm & Ho & Hr). split; [exact Ew|].
  destruct (run_cut c _ _ _ Hr) as (s & _ & Es). exists (mp_out s). rewrite Es, Ho, <- app_assoc. split; [done|]. intros b Hwf Hf Hq Hd.
  destruct (collected_again mt b c Hwf _ _ _ _ _ _ _ _ Hrun Hok Hm Hp Hds Hr Hf Hq Hd) as (o & pb & Eo & Hpb).
  exists pb. rewrite Es in Eo. apply app_inv_head in Eo as ->. exact Hpb.
Qed.
Print Assumptions C61_topic.
(** The number is an Avro int: those of blocks from 2^31 on are announced wrong. *)
Theorem C61_number_refuted : ∃ c e st m n h n' st', in_int64 n ∧ hash_ok h ∧ carries m (reorg_msg n h) ∧ process c e st m = Ok (st', false) ∧
  mp_out st' = mp_out st ++ [EReorg n' h] ∧ n' ≠ n.
Proof.
  exists ex_all, id_env, (MP 0 ∅ ∅ ∅ (lru_new 4) ∅ [] 0 []), (Msg (pm_key (reorg_msg (2 ^ 31) 5)) (pm_val (reorg_msg (2 ^ 31) 5)) [] 0), (2 ^ 31)%Z, 5%N, (- 2 ^ 31)%Z.
  eexists. split; [split; by vm_compute|]. split; [by vm_compute|]. split; [done|]. split; [vm_compute; reflexivity|]. split; [by vm_compute|done].
Qed.
Print Assumptions C61_number_refuted.

(** A consumer that has delivered the block reads it again from the topic of a reorganisation. *)
Definition ag_data : list msg := [ex_m_part1 0; ex_m_update 1; ex_m_header 2; ex_m_part0 3; ex_m_subhead 5; ex_m_delete 9].
Definition ag_topic : list (Z * msg * menv) :=
  map (λ m, (0%Z, m, id_env)) (ex_msg 0 (KReorg 5) (avro_int 4) :: ag_data ++ [ex_msg 10 (KReorgDone 5) (avro_int 4)]).
Example C61_case : reorg_feed ag_topic 4 5 (map (λ m, (0%Z, m, id_env)) ag_data) ∧
  match run_new ex_all ex_deliveries with
  | Ok st0 => match kc_run ex_all true [] ag_topic (KC st0 0 ∅) with
    | Ok st => omap (λ ev, match ev with EBatch pb => Some (pb_hash pb) | EReorg n h => Some (Z.to_N n * 100 + h)%N | _ => None end) (mp_out (kc_mp st)) = [1%N; 405%N; 1%N]
    | _ => False end
  | _ => False end.
Proof.
  split; [|by vm_compute]. eexists _, _. split; [reflexivity|]. split; [done|]. split; [done|].
  apply Forall_map. unfold ag_data. repeat (apply Forall_cons_2; [done|]). by apply Forall_nil_2.
Qed.
