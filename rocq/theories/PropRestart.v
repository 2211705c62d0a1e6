(** C58: a consumer that is restarted from the token of a block continues after that block. *)
From Coq Require Import Strings.String.
From Verif Require Import Base Lru Types Avro Wire SpecWire GoPath GoText Producer SpecBlock Consumer SpecCollect SpecToken Kafka SpecKafka Feed SpecFeed
  FeedFacts2 Ordering SpecChain System SpecSystem ExampleBlock Restart SpecRestart RestartFacts ExampleRestart.

(** C58.  A consumer of the chain [old ++ new], started after [old], has added [pre ++ pb :: post] when it
    stops.  It is started again with the token of [pb], and the hash and weight of [pb].
    Whatever the partitions do, what it adds continues [pre ++ [pb]] along the chain, exactly,
    and it removes nothing.  The rest of the chain arrives completely if its messages are in
    reach of the rollback and everything is read, processed and ordered. *)
Theorem C58_continues : ∀ mt base num w (old new : list block) c cfg cfg2,
  chain_from base num w (old ++ new) → NoDup (base :: map bk_hash (old ++ new)) → (∀ b, b ∈ old ++ new → wf_block mt b) →
  cfg_last_hash cfg = end_hash base old → cfg_last_weight cfg = end_weight w old → cfg_last_hash cfg ≠ zero_hash →
  (∀ b, b ∈ old ++ new → (0 ≤ ba_num (bk_args b))%Z ∧ ∀ h, cfg_whitelist cfg !! ba_num (bk_args b) = Some h → h = bk_hash b) →
  cfg_whitelist cfg2 = cfg_whitelist cfg →
  ∀ y, sys_run c cfg y → only_from mt (old ++ new) (messages (y_ins y)) →
  ∀ pre post pb, all_added (o_out (y_omp y)) = pre ++ pb :: post →
  cfg_last_hash cfg2 = pb_hash pb → cfg_last_weight cfg2 = pb_weight pb →
  ∀ fs rb es ds, (0 ≤ rb)%Z → feed_ok fs → feed_from mt (old ++ new) fs → read_before (messages (y_ins y)) fs →
  es ≡ₚ map_to_list (pb_res pb : gmap bytes Z) → ds ≡ₚ map_to_list (pb_resdef pb : gmap bytes Z) →
  ∀ s y2, kafka_life c cfg2 (resumption_text (pb_res pb) es ds) rb fs s y2 →
  all_removed (o_out (y_omp y2)) = [] ∧
  (∃ n, Forall2 (λ b pb, exact mt b (mc_tracked c) pb) (take n new) (pre ++ pb :: all_added (o_out (y_omp y2)))) ∧
  ((∀ b kd, b ∈ drop (S (length pre)) new → needed mt b (mc_tracked c) kd → reachable rb (messages (y_ins y)) (pb_hash pb) fs kd) →
   (∀ s', ¬ warm_step s s') → (∀ i, i < length fs → put_out i (wm_out s) ≠ []) →
   messages (y_ins y2) = loop_messages fs (wm_out s) → batches_of (y_taken y2) = sent_batches (mp_out (y_mp y2)) →
   Forall2 (λ b pb, exact mt b (mc_tracked c) pb) new (pre ++ pb :: all_added (o_out (y_omp y2)))).
Proof.
  intros mt base num w old new c cfg cfg2 Hc Hnd Hwf Hl Hw Hz Hwl Hwl2 y Hrun Hms pre post pb Hadd Hl2 Hw2 fs rb es ds Hrb Hfeed Hfrom Hread Hes Hds s y2.
  by eapply second_life.
Qed.
Print Assumptions C58_continues.

(** The token can be read, and if what determines it is still held every partition can be opened. *)
Theorem C58_starts : ∀ mt base num w (old new : list block) c cfg cfg2,
  chain_from base num w (old ++ new) → NoDup (base :: map bk_hash (old ++ new)) → (∀ b, b ∈ old ++ new → wf_block mt b) →
  cfg_last_hash cfg = end_hash base old → cfg_last_weight cfg = end_weight w old → cfg_last_hash cfg ≠ zero_hash →
  (∀ b, b ∈ old ++ new → (0 ≤ ba_num (bk_args b))%Z ∧ ∀ h, cfg_whitelist cfg !! ba_num (bk_args b) = Some h → h = bk_hash b) →
  ∀ y, sys_run c cfg y → only_from mt (old ++ new) (messages (y_ins y)) →
  ∀ pre post pb, all_added (o_out (y_omp y)) = pre ++ pb :: post → cfg_last_hash cfg2 = pb_hash pb →
  ∀ fs rb es ds, (0 ≤ rb)%Z → feed_ok fs → read_before (messages (y_ins y)) fs →
  es ≡ₚ map_to_list (pb_res pb : gmap bytes Z) → ds ≡ₚ map_to_list (pb_resdef pb : gmap bytes Z) →
  marks_held (messages (y_ins y)) (pb_hash pb) fs →
  ∃ tok ps, parse_token (resumption_text (pb_res pb) es ds) = Some tok ∧ open_all tok rb (cfg_last_hash cfg2) fs = Some ps.
Proof.
  intros mt base num w old new c cfg cfg2 Hc Hnd Hwf Hl Hw Hz Hwl y Hrun Hms pre post pb Hadd Hl2 fs rb es ds Hrb Hfeed Hread Hes Hds Hm.
  exists ((pb_res pb : gmap bytes Z) ∪ pb_resdef pb).
  assert (H : ∃ ps, open_all ((pb_res pb : gmap bytes Z) ∪ pb_resdef pb) rb (cfg_last_hash cfg2) fs = Some ps) by (by eapply restart_opens).
  destruct H as (ps & Hps). exists ps. split; [by eapply token_ok|exact Hps].
Qed.
Print Assumptions C58_starts.

(** Without a rollback a block is lost if another partition has been read further than the one the last block
    came from, though both hold everything and the consumer has seen all of it. *)
Theorem C58_skew_refuted : ∃ mt base num w (old new : list block) c cfg cfg2 y pre post pb fs es ds s y2,
  chain_from base num w (old ++ new) ∧ NoDup (base :: map bk_hash (old ++ new)) ∧ (∀ b, b ∈ old ++ new → wf_block mt b) ∧
  cfg_last_hash cfg = end_hash base old ∧ cfg_last_weight cfg = end_weight w old ∧
  sys_run c cfg y ∧ only_from mt (old ++ new) (messages (y_ins y)) ∧ all_added (o_out (y_omp y)) = pre ++ pb :: post ∧
  cfg_last_hash cfg2 = pb_hash pb ∧ cfg_last_weight cfg2 = pb_weight pb ∧
  feed_ok fs ∧ feed_from mt (old ++ new) fs ∧ read_before (messages (y_ins y)) fs ∧
  es ≡ₚ map_to_list (pb_res pb : gmap bytes Z) ∧ ds ≡ₚ map_to_list (pb_resdef pb : gmap bytes Z) ∧
  (∀ b kd, b ∈ drop (S (length pre)) new → needed mt b (mc_tracked c) kd → ∃ f x, f ∈ fs ∧ x ∈ fp_all f ∧ fm_key x = key_of kd) ∧
  kafka_life c cfg2 (resumption_text (pb_res pb) es ds) 0 fs s y2 ∧ (∀ s', ¬ warm_step s s') ∧
  messages (y_ins y2) = loop_messages fs (wm_out s) ∧ batches_of (y_taken y2) = sent_batches (mp_out (y_mp y2)) ∧
  drop (S (length pre)) new ≠ [] ∧ all_added (o_out (y_omp y2)) = [].
Proof.
  destruct rx_first as (y & pb & Hy & Hm & Ha & Hp). assert (Hp' := Hp). destruct Hp' as (P1 & P2 & P3 & P4).
  set (t := resumption_text (pb_res pb) (map_to_list (pb_res pb)) (map_to_list (pb_resdef pb))).
  assert (Ht : parse_token t = Some rx_tok) by (unfold t; rewrite P3, P4; apply (bool_decide_unpack _); by vm_compute).
  destruct (rx_life0 t Ht) as (s & y2 & L1 & L2 & L3 & L4 & L5 & L6).
  exists ex_mt, 4%N, 5%Z, 3%N, [], rx_new, ex_all, rx_cfg, rx_cfg2, y, [], [], pb, rx_feed, (map_to_list (pb_res pb)), (map_to_list (pb_resdef pb)), s, y2.
  rewrite Hm. split; [exact rx_chain|]. split; [exact rx_nodup|]. split; [exact rx_wf|]. split; [done|]. split; [done|].
  split; [done|]. split; [exact rx_only|]. split; [done|]. split; [by rewrite P1|]. split; [by rewrite P2|].
  split; [exact rx_feed_ok|]. split; [exact rx_feed_from|]. split; [exact rx_read|]. split; [done|]. split; [done|].
  split. { intros b kd Hb Hn. destruct (rx_reachable b kd Hb Hn) as (f & x & H1 & H2 & H3 & _). by exists f, x. }
  split; [exact L1|]. split; [done|]. split; [done|]. split; [done|]. split; [done|]. by destruct (all_added (o_out (y_omp y2))).
Qed.
Print Assumptions C58_skew_refuted.

(** The same feed and the same first life; going back by one offset is enough. *)
Example C58_case : ∃ y pb s y2, let t := resumption_text (pb_res pb) (map_to_list (pb_res pb : gmap bytes Z)) (map_to_list (pb_resdef pb : gmap bytes Z)) in
  chain_from 4 5 3 ([] ++ rx_new) ∧ NoDup (4%N :: map bk_hash ([] ++ rx_new)) ∧ (∀ b, b ∈ [] ++ rx_new → wf_block ex_mt b) ∧
  cfg_last_hash rx_cfg = end_hash 4 [] ∧ cfg_last_weight rx_cfg = end_weight 3 [] ∧ cfg_last_hash rx_cfg ≠ zero_hash ∧
  (∀ b, b ∈ [] ++ rx_new → (0 ≤ ba_num (bk_args b))%Z ∧ ∀ h, cfg_whitelist rx_cfg !! ba_num (bk_args b) = Some h → h = bk_hash b) ∧
  cfg_whitelist rx_cfg2 = cfg_whitelist rx_cfg ∧ sys_run ex_all rx_cfg y ∧ only_from ex_mt ([] ++ rx_new) (messages (y_ins y)) ∧
  all_added (o_out (y_omp y)) = [] ++ pb :: [] ∧ cfg_last_hash rx_cfg2 = pb_hash pb ∧ cfg_last_weight rx_cfg2 = pb_weight pb ∧
  feed_ok rx_feed ∧ feed_from ex_mt ([] ++ rx_new) rx_feed ∧ read_before (messages (y_ins y)) rx_feed ∧ marks_held (messages (y_ins y)) (pb_hash pb) rx_feed ∧
  kafka_life ex_all rx_cfg2 t 1 rx_feed s y2 ∧
  (∀ b kd, b ∈ drop 1 rx_new → needed ex_mt b (mc_tracked ex_all) kd → reachable 1 (messages (y_ins y)) (pb_hash pb) rx_feed kd) ∧
  (∀ s', ¬ warm_step s s') ∧ (∀ i, i < length rx_feed → put_out i (wm_out s) ≠ []) ∧
  messages (y_ins y2) = loop_messages rx_feed (wm_out s) ∧ batches_of (y_taken y2) = sent_batches (mp_out (y_mp y2)) ∧
  map pb_hash (all_added (o_out (y_omp y2))) = [1%N].
Proof.
  destruct rx_first as (y & pb & Hy & Hm & Ha & Hp). assert (Hp' := Hp). destruct Hp' as (P1 & P2 & P3 & P4).
  set (t := resumption_text (pb_res pb) (map_to_list (pb_res pb)) (map_to_list (pb_resdef pb))).
  assert (Ht : parse_token t = Some rx_tok) by (unfold t; rewrite P3, P4; apply (bool_decide_unpack _); by vm_compute).
  destruct (rx_life1 t Ht) as (s & y2 & L1 & L2 & L3 & L4 & L5 & L6).
  exists y, pb, s, y2. cbn zeta. rewrite Hm, P1, P2. split; [exact rx_chain|]. split; [exact rx_nodup|]. split; [exact rx_wf|].
  split; [done|]. split; [done|]. split; [done|].
  split. { intros b [->|[->|?%elem_of_nil]%elem_of_cons]%elem_of_cons; done. }
  split; [done|]. split; [done|]. split; [exact rx_only|]. split; [done|]. split; [done|]. split; [done|].
  split; [exact rx_feed_ok|]. split; [exact rx_feed_from|]. split; [exact rx_read|]. split; [exact rx_held|].
  split; [exact L1|]. split; [exact rx_reachable|]. by split_and!.
Qed.
