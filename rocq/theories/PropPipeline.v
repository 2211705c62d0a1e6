(** Property C66: with bounded channels the consumer does not lock up, provided every subscriber receives. *)
From Coq Require Import Strings.String.
From Verif Require Import Base Lru Types Avro Wire SpecWire GoPath Producer SpecBlock SpecProducer Consumer SpecCollect Ordering SpecChain
  System SpecSystem SpecPublish Pipeline SpecPipeline PipelineFacts PipelineFacts2 PipelineFacts3 ExampleBlock ExampleSystem.

(** Any messages, any configuration, any number of subscribers with channels of any capacity (also unbuffered) to any of the feeds:
    whatever the goroutines do, after finitely many steps every message was passed on, all channels are empty and every subscriber has
    received exactly what was sent on its feed, in order -- unless a goroutine panics before. *)
Theorem C66_inevitable : ∀ c cfg ms apps s, pstart c cfg ms apps s → listening apps →
  inevitably (pflow c) (λ r, r = None ∨ ∃ p, r = Some p ∧ all_done p ∧ map u_kind (apps_of p) = map u_kind apps ∧
    ∀ u, u ∈ apps_of p → u_got u = fed p (u_kind u)) (Some s).
Proof. exact inevitable_end. Qed.
Print Assumptions C66_inevitable.

(** For a chain of blocks published by any number of replicas there is no panic, and every subscriber to the ordered updates inevitably
    receives exactly the chain: nothing removed and every block once, in order, with the submitted data. *)
Theorem C66_chain : ∀ mt base num w old new c cfg ms apps s rs,
  let bs := old ++ new in
  chain_from base num w bs → NoDup (base :: map bk_hash bs) → (∀ b, b ∈ bs → wf_block mt b) →
  (∀ b b' id, b ∈ bs → b' ∈ bs → announced b id → announced b' id → b' = b) →
  cfg_last_hash cfg = end_hash base old → cfg_last_weight cfg = end_weight w old → cfg_last_hash cfg ≠ zero_hash →
  (∀ b, b ∈ bs → (0 ≤ ba_num (bk_args b))%Z ∧
     ∀ h, cfg_whitelist cfg !! ba_num (bk_args b) = Some h → h = bk_hash b) →
  (∀ r, r ∈ rs → replica mt bs r) →
  pstart c cfg ms apps s → listening apps → (∀ m, m ∈ map fst ms → copies rs m) →
  (∀ b, b ∈ new → arrived rs (map fst ms) b) →
  inevitably (pflow c) (λ r, ∃ p, r = Some p ∧ all_done p ∧ map u_kind (apps_of p) = map u_kind apps ∧
    ∀ u, u ∈ apps_of p → u_kind u = KUpdates → all_removed (updates_in (u_got u)) = [] ∧
      Forall2 (λ b pb, exact mt b (mc_tracked c) pb) new (all_added (updates_in (u_got u)))) (Some s).
Proof. exact published_inevitable. Qed.
Print Assumptions C66_chain.

(** The two blocks of C44, with subscribers to the updates (one unbuffered) and to the announcements. *)
Definition px_apps : list sub := [Sub KUpdates 0 true [] None []; Sub KUpdates 3 true [] None []; Sub KWaiters 1 true [] None []].
Definition px_ms : list (msg * menv) := (λ m, (m, id_env)) <$> sx_msgs.
Example C66_case : let new := [sx_b1; sx_b2] in
  chain_from 2 6 4 ([] ++ new) ∧ NoDup (2%N :: map bk_hash ([] ++ new)) ∧ (∀ b, b ∈ [] ++ new → wf_block ex_mt b) ∧
  (∀ b b' id, b ∈ [] ++ new → b' ∈ [] ++ new → announced b id → announced b' id → b' = b) ∧
  (∀ b, b ∈ [] ++ new → (0 ≤ ba_num (bk_args b))%Z ∧
     ∀ h, cfg_whitelist sx_cfg !! ba_num (bk_args b) = Some h → h = bk_hash b) ∧
  (∀ r, r ∈ sx_replicas → replica ex_mt ([] ++ new) r) ∧ listening px_apps ∧
  (∀ m, m ∈ map fst px_ms → copies sx_replicas m) ∧ (∀ b, b ∈ new → arrived sx_replicas (map fst px_ms) b) ∧
  ∃ s, pstart ex_all sx_cfg px_ms px_apps s.
Proof.
  cbn zeta. split; [by vm_compute|]. split; [apply (bool_decide_unpack _); by vm_compute|]. split; [exact sx_wf|]. split.
  { intros b b' id Hb Hb'. revert Hb Hb'.
    intros [->|[->|?%elem_of_nil]%elem_of_cons]%elem_of_cons [->|[->|?%elem_of_nil]%elem_of_cons]%elem_of_cons; try done; intros H1 H2;
      by (apply sx_ann2 in H1 || apply sx_ann2 in H2). }
  split. { intros b [->|[->|?%elem_of_nil]%elem_of_cons]%elem_of_cons; done. }
  split; [exact sx_replica|]. split; [by repeat constructor|].
  assert (E : map fst px_ms = sx_msgs).
  { unfold px_ms. generalize sx_msgs as l. induction l as [|m l IH]; [done|]. cbn. by rewrite <- IH at 2. }
  rewrite E. split; [exact sx_copies|]. split; [exact sx_arrived|].
  eexists (Pipe px_ms _ [] _ [] (own_subs ++ px_apps)). eexists _, _. split; [done|]. split; [reflexivity|]. split; [reflexivity|].
  split; [by repeat constructor|]. split; [|reflexivity]. unfold px_ms. apply Forall_forall. intros x.
  rewrite elem_of_list_fmap. intros (m & -> & _). clear. split; [by split|]. intros k. reflexivity.
Qed.

(** A chain of blocks without contents: every message completes one. *)
Definition pz_msg (n : nat) : msg :=
  Msg (key_of (KBatch (1000 + N.of_nat n))) (encode_batch (Batch (Z.of_nat n) (bigint_bytes (N.of_nat n)) (999 + N.of_nat n) ∅) []) (str "t"%string) (Z.of_nat n).
Definition pz_cfg : config := Config 0 1000 0 200 ∅.
Definition pz_c : mp_config := MPC 200 (λ _, true) false.
Definition pz_ms : list (msg * menv) := (λ n, (pz_msg n, id_env)) <$> seq 1 110.
(** One application receives, another one does not (capacity 2). *)
Definition pz_apps : list sub := [Sub KUpdates 2 false [] None []; Sub KUpdates 0 true [] None []].
Definition pz_start : outcome pipe :=
  st ← mp_new pz_c 0; om ← new_omp pz_cfg; Ok (Pipe pz_ms st [] om [] (own_subs ++ pz_apps)).
Definition pz_message : list pact := [AMsg; APutDone; APut 0; APutDone].
Definition pz_update : list pact := [ATake id_order 0; APub 3; AWork 3; APub 2; APubDone].
Definition pz_schedule : list pact :=
  pz_message ++ pz_update ++ pz_message ++ pz_update ++ pz_message ++ [ATake id_order 0; APub 3; AWork 3] ++
  concat (replicate 100 pz_message) ++ [AMsg; APutDone].
Definition pz_full (u : option sub) : bool :=
  match u with Some u => negb (u_on u) && bool_decide (u_cap u ≤ length (u_buf u)) | None => false end.
Definition pz_check (p : pipe) : bool :=
  match q_pub p, q_put p with
  | (_, l) :: _, (_, l') :: _ =>
    bool_decide (2 ∈ l) && bool_decide (0 ∈ l') && pz_full (q_subs p !! 2) && pz_full (q_subs p !! 0) && bool_decide (0 < length (q_in p))
  | _, _ => false
  end.
Lemma pz_reached : match pz_start with
  | Ok s => match prun pz_c pz_schedule s with Some (Some p) => pz_check p | _ => false end
  | _ => false end = true.
Proof. by vm_compute. Qed.
Lemma pz_full_spec u : pz_full u = true → ∃ v, u = Some v ∧ u_on v = false ∧ u_cap v ≤ length (u_buf v).
Proof. destruct u as [v|]; [|done]. cbn. rewrite andb_true_iff, negb_true_iff, bool_decide_eq_true. intros [H1 H2]. by exists v. Qed.
Lemma pz_check_spec p : pz_check p = true → choked 2 p ∧ q_in p ≠ [].
Proof.
  unfold pz_check. destruct (q_pub p) as [|[x l] r] eqn:E1; [done|]. destruct (q_put p) as [|[y l'] r'] eqn:E2; [done|].
  rewrite !andb_true_iff, !bool_decide_eq_true. intros [[[[H1 H2] H3] H4] H5]. split.
  - split; [by exists x, l, r|by apply pz_full_spec|by exists y, l', r'|by apply pz_full_spec].
  - intros E. rewrite E in H5. cbn in H5. lia.
Qed.
Lemma pz_orders : Forall (λ a, ∀ o i, a = ATake o i → order_ok o) pz_schedule.
Proof.
  assert (H : Forall (λ a, match a with ATake o _ => o = id_order | _ => True end) pz_schedule).
  { unfold pz_schedule. rewrite !Forall_app. split_and!; by repeat constructor. }
  eapply Forall_impl; [exact H|]. intros a Ha o i ->. rewrite Ha. apply id_order_ok.
Qed.

(** From such a state nothing gets any further, whatever else happens: no other message is passed on, the call of ProcessMessage
    does not return, and no subscriber is sent anything new. *)
Theorem C66_stalled : ∀ c i p r, choked i p → rtc (pflow c) (Some p) r →
  ∃ p', r = Some p' ∧ choked i p' ∧ q_in p' = q_in p ∧ q_mp p' = q_mp p ∧ q_omp p' = q_omp p.
Proof. exact choked_forever. Qed.
Print Assumptions C66_stalled.

(** "A subscriber that receives gets everything that is delivered": false if another one neither receives nor unsubscribes.  After 104
    blocks the rest of the messages is never passed on; the loop of the transport is caught in ProcessMessage, so that it does not
    hear of Close either (transports/kafka.go:717,757: Close does not return). *)
Theorem C66_deaf_refuted : ∃ c cfg ms apps s p, pstart c cfg ms apps s ∧ (∃ u, u ∈ apps ∧ u_on u = true ∧ u_kind u = KUpdates) ∧
  rtc (pflow c) (Some s) (Some p) ∧ q_in p ≠ [] ∧
  ∀ r, rtc (pflow c) (Some p) r → ∃ p', r = Some p' ∧ q_in p' = q_in p ∧ q_put p' ≠ [] ∧ ∀ k, fed p' k = fed p k.
Proof.
  assert (H := pz_reached). unfold pz_start in H.
  destruct (mp_new pz_c 0) as [st| |] eqn:E1; [|discriminate H|discriminate H]. cbn [mbind outcome_bind] in H.
  destruct (new_omp pz_cfg) as [om| |] eqn:E2; [|discriminate H|discriminate H]. cbn [mbind outcome_bind] in H.
  set (s := Pipe pz_ms st [] om [] (own_subs ++ pz_apps)) in *.
  destruct (prun pz_c pz_schedule s) as [[p|]|] eqn:Er; [|discriminate H|discriminate H].
  apply pz_check_spec in H as [Hc Hin]. exists pz_c, pz_cfg, pz_ms, pz_apps, s, p. split; [|split; [|split; [|split]]].
  - exists st, om. split; [reflexivity|]. split; [exact E1|]. split; [exact E2|]. split; [by repeat constructor|]. split; [|reflexivity].
    unfold pz_ms. apply Forall_forall. intros x. rewrite elem_of_list_fmap. intros (n & -> & _). split; [by split|]. intros k. reflexivity.
  - exists (Sub KUpdates 0 true [] None []). split; [|split; reflexivity]. right. left.
  - eapply prun_rtc; [exact pz_orders|exact Er].
  - exact Hin.
  - intros r Hr. destruct (choked_forever _ _ _ _ Hc Hr) as (p' & -> & [_ _ (x & l & r' & Hp & _) _] & G1 & G2 & G3).
    exists p'. split; [reflexivity|]. split; [exact G1|]. split; [rewrite Hp; discriminate|].
    intros k. unfold fed. rewrite G2, G3. reflexivity.
Qed.
Print Assumptions C66_deaf_refuted.
