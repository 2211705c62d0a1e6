(** Properties C11-C16: producers. *)
From Coq Require Import Strings.String.
From Verif Require Import Base Types Avro Wire SpecWire GoPath Producer SpecBlock SpecProducer ProducerFacts ProducerFacts2 ProducerFacts3 ProducerFacts4
  ExampleBlock ExampleProducer.

(** C11.  On each topic an accepted block sends exactly its own messages, one per key, followed on the
    default topic by the header, which counts them and carries the rest of the block. *)
Theorem C11_sent_once : ∀ p o a p' tm, aorder_ok o → add_block p o a = (p', inr tm) →
  ∃ x es, is_header (prefix_of_key p) (Block a (λ _, [])) x ∧ es ≡ₚ map_to_list (b_updates x) ∧
  ∀ t, ∃ ms,
    on_topic tm t = ms ++ (if decide (t = p_default p) then [PMsg (key_of (KBatch (ba_hash a))) (encode_batch x es)] else []) ∧
    NoDup (pm_key <$> ms) ∧ ∀ m, m ∈ ms ↔ own_message p a t m.
Proof. exact add_sends. Qed.
Print Assumptions C11_sent_once.
Example C11_case :
  match add_block ex_prod rev_aorder ex_args with
  | (_, inr tm) => length (on_topic tm (str "states"%string)) = 2 ∧ length (on_topic tm (str "blocks"%string)) = 1
  | _ => False
  end.
Proof. by vm_compute. Qed.

(** What was sent for a block are exactly the messages a consumer needs to collect it. *)
Theorem C11_block_messages : ∀ p o b p' tm, aorder_ok o → add_block p o (bk_args b) = (p', inr tm) →
  (∀ t m, m ∈ on_topic tm t → ∃ kd, pm_key m = key_of kd ∧ sent (prefix_of_key p) b kd (pm_val m)) ∧
  (∀ kd v, sent (prefix_of_key p) b kd v →
    match kd with KSubHead _ _ | KSubMsg _ _ _ => True
    | _ => ∃ t m, m ∈ on_topic tm t ∧ pm_key m = key_of kd end).
Proof. exact add_sent. Qed.
Print Assumptions C11_block_messages.
Theorem C11_batch_messages : ∀ mt p b id ord d u t p' tm, (∀ l, ord l ≡ₚ l) →
  p_pending p !! id = Some (t, ba_hash (bk_args b)) → announced b id → is_parts d u (bk_parts b id) →
  send_batch p ord id d u = (p', Some tm) →
  (∀ t' m, m ∈ on_topic tm t' → ∃ kd, pm_key m = key_of kd ∧ sent mt b kd (pm_val m)) ∧
  (∃ m, m ∈ on_topic tm t ∧ pm_key m = key_of (KSubHead (ba_hash (bk_args b)) id)) ∧
  (∀ i, i < length (bk_parts b id) → ∃ m, m ∈ on_topic tm t ∧ pm_key m = key_of (KSubMsg (ba_hash (bk_args b)) id (Z.of_nat i))).
Proof. exact send_sent. Qed.
Print Assumptions C11_batch_messages.

(** C12.  Producers that route alike accept the same blocks, and send the same messages, except
    that headers may be encoded differently: those decode to the same header. *)
Theorem C12_blocks : ∀ p1 p2 o1 o2 a p1' p2' tm1 r2,
  (∀ k, route (p_schema p1) k = route (p_schema p2) k) → p_default p1 = p_default p2 → aorder_ok o1 → aorder_ok o2 →
  add_block p1 o1 a = (p1', inr tm1) → add_block p2 o2 a = (p2', r2) →
  ∃ tm2, r2 = inr tm2 ∧ ∀ t m1, m1 ∈ on_topic tm1 t →
    ∃ m2, m2 ∈ on_topic tm2 t ∧ pm_key m2 = pm_key m1 ∧
      (pm_val m2 = pm_val m1 ∨
       pm_key m1 = key_of (KBatch (ba_hash a)) ∧
       (args_ok (prefix_of_key p1) a → sized (length (pm_val m1)) → sized (length (pm_val m2)) →
        ∃ x, decode_batch (pm_val m1) = Some x ∧ decode_batch (pm_val m2) = Some x)).
Proof. exact same_blocks. Qed.
Print Assumptions C12_blocks.
(** Sub-batches are sent identically, after any history of the same calls ... *)
Theorem C12_batches : ∀ p1 p2 l1 l2 id r1 r2 d u,
  (∀ k, route (p_schema p1) k = route (p_schema p2) k) → p_pending p1 = ∅ → p_pending p2 = ∅ →
  Forall call_ok l1 → Forall call_ok l2 → Forall2 same_call l1 l2 → no_refused_mention (prefix_of_key p1) l1 id →
  (∀ l, r1 l ≡ₚ l) → (∀ l, r2 l ≡ₚ l) →
  match snd (send_batch (calls p1 l1) r1 id d u), snd (send_batch (calls p2 l2) r2 id d u) with
  | Some tm1, Some tm2 => ∃ t1 t2 ms, tm1 = {[t1 := ms]} ∧ tm2 = {[t2 := ms]}
  | None, None => True
  | _, _ => False
  end.
Proof. exact same_messages. Qed.
Print Assumptions C12_batches.
(** ... and on the same topic, if no block gives the id to two of its keys. *)
Theorem C12_batch_topics : ∀ p1 p2 l1 l2 id r1 r2 d u,
  (∀ k, route (p_schema p1) k = route (p_schema p2) k) → p_default p1 = p_default p2 → p_pending p1 = ∅ → p_pending p2 = ∅ →
  Forall call_ok l1 → Forall call_ok l2 → Forall2 same_call l1 l2 → no_refused_mention (prefix_of_key p1) l1 id →
  (∀ o a k k', CAdd o a ∈ l1 → ba_batches a !! k = Some id → ba_batches a !! k' = Some id → k = k') →
  (∀ l, r1 l ≡ₚ l) → (∀ l, r2 l ≡ₚ l) →
  snd (send_batch (calls p1 l1) r1 id d u) = snd (send_batch (calls p2 l2) r2 id d u).
Proof. exact same_batches. Qed.
Print Assumptions C12_batch_topics.
Theorem C12_shared_id_topics_refuted : ∃ p o1 o2 a id, aorder_ok o1 ∧ aorder_ok o2 ∧ p_pending p = ∅ ∧ ¬ refused (prefix_of_key p) a ∧
  snd (send_batch (calls p [CAdd o1 a]) (λ l, l) id [] ∅) ≠ snd (send_batch (calls p [CAdd o2 a]) (λ l, l) id [] ∅).
Proof. exact shared_topics. Qed.
Print Assumptions C12_shared_id_topics_refuted.
(** Two producers whose schema was listed in different orders, with different iteration orders. *)
Example C12_case_producers : (∀ k, route (p_schema ex_prod) k = route (p_schema ex_prod2) k) ∧ p_schema ex_prod ≠ p_schema ex_prod2 ∧
  args_ok (prefix_of_key ex_prod) ex_args.
Proof. split; [exact ex_route|]. split; [intros [= E]; apply (f_equal (λ f, f (str "s/"%string))) in E; by vm_compute in E|exact ex_args_ok]. Qed.
Example C12_case_headers :
  match add_block ex_prod id_aorder ex_args, add_block ex_prod2 rev_aorder ex_args with
  | (_, inr tm1), (_, inr tm2) =>
    pm_val <$> on_topic tm1 (str "blocks"%string) ≠ pm_val <$> on_topic tm2 (str "blocks"%string) ∧
    (∀ m, m ∈ on_topic tm1 (str "blocks"%string) ++ on_topic tm2 (str "blocks"%string) → length (pm_val m) ≤ 200)
  | _, _ => False
  end.
Proof.
  assert (H : match add_block ex_prod id_aorder ex_args, add_block ex_prod2 rev_aorder ex_args with
  | (_, inr tm1), (_, inr tm2) =>
    pm_val <$> on_topic tm1 (str "blocks"%string) ≠ pm_val <$> on_topic tm2 (str "blocks"%string) ∧
    forallb (λ m, length (pm_val m) <=? 200) (on_topic tm1 (str "blocks"%string) ++ on_topic tm2 (str "blocks"%string)) = true
  | _, _ => False end) by (vm_compute; done).
  destruct (add_block ex_prod id_aorder ex_args) as [? [|tm1]]; [done|]. destruct (add_block ex_prod2 rev_aorder ex_args) as [? [|tm2]]; [done|].
  destruct H as [H1 H2]. split; [done|]. intros m Hm. rewrite forallb_forall in H2. apply Nat.leb_le, H2. by apply elem_of_list_In.
Qed.

(** C13.  After any history of calls on a new producer, SendBatch is accepted exactly for the ids
    awaited; the messages are numbered from 0 and counted in the header message. *)
Theorem C13_send_batch : ∀ p l id ord d u,
  p_pending p = ∅ → Forall call_ok l → no_refused_mention (prefix_of_key p) l id → (∀ x, ord x ≡ₚ x) →
  ((∀ a, ¬ awaiting (prefix_of_key p) l id a) → send_batch (calls p l) ord id d u = (calls p l, None)) ∧
  ∀ a, awaiting (prefix_of_key p) l id a → ∃ p' tm k ps,
    send_batch (calls p l) ord id d u = (p', Some tm) ∧ ba_batches a !! k = Some id ∧ is_parts d u ps ∧
    (∀ t, t ≠ topic_of_key p k → on_topic tm t = []) ∧
    ∃ entries, on_topic tm (topic_of_key p k) =
        PMsg (key_of (KSubHead (ba_hash a) id)) (avro_int (Z.of_nat (length ps))) :: entries ∧
      length entries = length ps ∧
      ∀ i pt, ps !! i = Some pt → entries !! i =
        Some (PMsg (key_of (KSubMsg (ba_hash a) id (Z.of_nat i))) (encode_sub (pt_deletes pt) (map_to_list (pt_updates pt)))).
Proof. exact send_history. Qed.
Print Assumptions C13_send_batch.
Example C13_case : p_pending ex_prod = ∅ ∧ no_refused_mention (prefix_of_key ex_prod) ex_history 9%N ∧
  awaiting (prefix_of_key ex_prod) ex_history 9%N ex_args.
Proof. split; [done|]. split; [exact ex_mention|exact ex_awaiting]. Qed.
Example C13_case_sent :
  match send_batch (calls ex_prod ex_history) (λ l, l) 9%N [str "x/d"%string] (<[str "x/l"%string := [x02]]> {[str "x/k"%string := [x01]]}) with
  | (q, Some tm) => length (on_topic tm (str "blocks"%string)) = 4 ∧ snd (send_batch q (λ l, l) 9%N [] ∅) = None
  | _ => False
  end.
Proof. by vm_compute. Qed.

(** C14.  Overlaps are refused, and nothing else (if all expressions compile). *)
Theorem C14_overlap : ∀ compile dflt schema es, es ≡ₚ map_to_list schema →
  (∀ i, i ∈ dom schema → is_Some (compile i) ∧ is_Some (compile (caret :: i))) →
  (new_producer compile dflt schema es = inl NOverlap ↔ ∃ i j, i ∈ dom schema ∧ j ∈ dom schema ∧ i ≠ j ∧ j `prefix_of` i) ∧
  new_producer compile dflt schema es ≠ inl NCompile.
Proof. exact overlap_iff. Qed.
Print Assumptions C14_overlap.
(** For plain texts at most one entry matches a key, the one that is a prefix of it. *)
Theorem C14_routing : ∀ compile dflt schema es p, es ≡ₚ map_to_list schema → (∀ i, i ∈ dom schema → plain_text compile i) →
  new_producer compile dflt schema es = inr p →
  p_default p = dflt ∧ p_pending p = ∅ ∧
  (∀ k i j, i ∈ dom schema → j ∈ dom schema → i `prefix_of` k → j `prefix_of` k → i = j) ∧
  ∀ k, match route (p_schema p) k with
       | Some (i, t) => schema !! i = Some t ∧ i `prefix_of` k
       | None => ∀ i, i ∈ dom schema → ¬ i `prefix_of` k
       end.
Proof. exact route_plain. Qed.
Print Assumptions C14_routing.
Theorem C14_order : ∀ compile dflt schema es1 es2 p1 p2, es1 ≡ₚ map_to_list schema → es2 ≡ₚ map_to_list schema →
  (∀ i, i ∈ dom schema → plain_text compile i) →
  new_producer compile dflt schema es1 = inr p1 → new_producer compile dflt schema es2 = inr p2 →
  ∀ k, route (p_schema p1) k = route (p_schema p2) k.
Proof. exact route_order. Qed.
Print Assumptions C14_order.
(** With plain directories and clean relative keys the rule on paths asked of blocks holds
    ([wf_paths] in SpecBlock.v). *)
Theorem C14_paths : ∀ compile dflt schema es p b, es ≡ₚ map_to_list schema →
  (∀ i, i ∈ dom schema → plain_text compile i ∧ directory i) → new_producer compile dflt schema es = inr p →
  (∀ k, k ∈ dom (ba_updates (bk_args b)) ∨ k ∈ ba_deletes (bk_args b) → prefix_of_key p k ≠ None → relative_path k) →
  ∀ k x, k ∈ dom (ba_updates (bk_args b)) ∨ k ∈ ba_deletes (bk_args b) → prefix_of_key p k = Some x →
    rooted k = false ∧ x ∈ lookup_keys k ∧ (∀ q, q ∈ lookup_keys k → count_of (prefix_of_key p) b q ≠ 0 → q = x).
Proof. exact literal_paths. Qed.
Print Assumptions C14_paths.
Example C14_case : (∀ i, i ∈ dom ex_schema → plain_text ex_compile i ∧ directory i) ∧
  (new_producer ex_compile (str "blocks"%string) ex_schema (map_to_list ex_schema) = inr ex_prod ∨
   new_producer ex_compile (str "blocks"%string) ex_schema (map_to_list ex_schema) = inr ex_prod2).
Proof. split; [exact ex_plain|exact ex_new]. Qed.
Example C14_case_overlap : new_producer ex_compile [] (<[(str "s/"%string : bytes) := str "a"%string]> {[(str "s/b"%string : bytes) := str "b"%string]})
  [(str "s/"%string, str "a"%string); (str "s/b"%string, str "b"%string)] = inl NOverlap.
Proof. by vm_compute. Qed.
(** Expressions that do not overlap as texts may match the same key, and then the order counts. *)
Theorem C14_expressions_refuted : ∃ compile dflt schema es1 es2 p1 p2 k,
  es1 ≡ₚ map_to_list schema ∧ es2 ≡ₚ map_to_list schema ∧
  new_producer compile dflt schema es1 = inr p1 ∧ new_producer compile dflt schema es2 = inr p2 ∧
  route (p_schema p1) k ≠ route (p_schema p2) k.
Proof. exact expressions_overlap. Qed.
Print Assumptions C14_expressions_refuted.

(** C15. *)
Theorem C15_refusal : ∀ p o a, aorder_ok o →
  ((∃ e, snd (add_block p o a) = inl e) ↔ zero_sub a ∨ two_roles (prefix_of_key p) a) ∧
  (snd (add_block p o a) = inl AInvalidBatch → zero_sub a) ∧
  (snd (add_block p o a) = inl APrefixConflict → two_roles (prefix_of_key p) a).
Proof. exact refusal. Qed.
Print Assumptions C15_refusal.
(** An accepted block satisfies the rules on roles asked of blocks (SpecBlock.v). *)
Theorem C15_accepted : ∀ mt b, ¬ refused mt (bk_args b) →
  (∀ id, announced b id → id ≠ zero_hash) ∧
  (∀ x id, ba_batches (bk_args b) !! x = Some id →
     (x ∈ dom (ba_updates (bk_args b)) ∨ x ∈ ba_deletes (bk_args b) → mt x ≠ None) ∧ count_of mt b x = 0) ∧
  (∀ x, (x ∈ dom (ba_updates (bk_args b)) ∨ x ∈ ba_deletes (bk_args b)) → mt x = None → count_of mt b x = 0).
Proof. exact accepted_roles. Qed.
Print Assumptions C15_accepted.
Example C15_case_zero : zero_sub bad_args.
Proof. exists (str "y/"%string). by vm_compute. Qed.
Example C15_case_roles :
  snd (add_block ex_prod id_aorder (BA 7 1 2 5 {[(str "s/a"%string : bytes) := [x01]]} {[(str "s/"%string : bytes)]} {[(str "s/"%string : bytes) := 9%N]}))
  = inl APrefixConflict.
Proof. by vm_compute. Qed.

(** C16 fails: the sub-batches of a refused block may be accepted afterwards.  What remains: *)
Theorem C16_refuted : ∃ p o a id q e, aorder_ok o ∧ p_pending p = ∅ ∧ add_block p o a = (q, inl e) ∧ q ≠ p ∧
  snd (send_batch p (λ l, l) id [] ∅) = None ∧ snd (send_batch q (λ l, l) id [] ∅) ≠ None.
Proof. exact failed_add_leaves. Qed.
Print Assumptions C16_refuted.
Theorem C16_other_ids_partial : ∀ p o a q e, aorder_ok o → add_block p o a = (q, inl e) →
  p_schema q = p_schema p ∧ p_default q = p_default p ∧ ∀ id, ¬ announces a id → p_pending q !! id = p_pending p !! id.
Proof. exact failed_add. Qed.
Print Assumptions C16_other_ids_partial.
