(** Collection of one block: what a [PendingBatch] holds after any set of its messages. *)
From Verif Require Import Base Lru LruFacts Types Avro AvroFacts Wire SpecWire WireFacts GoPath PathFacts Producer SpecBlock
  Consumer ConsumerBase.

Section assembly.
  Context (mt : bytes → option bytes) (b : block) (tr : bytes → bool).
  Context (Hwf : wf_block mt b).
  Notation a := (bk_args b).
  Notation h := (ba_hash (bk_args b)).
  Notation need := (needed mt b tr).
  Notation tid := (tracked_id b tr).

  Lemma tid_announced id : tid id → announced b id.
  Proof. intros (x & ? & _). by exists x. Qed.
  Lemma part_index_ok id i : announced b id → i < length (bk_parts b id) → in_int32 (Z.of_nat i).
  Proof. intros Ha Hi. destruct (wf_parts _ _ Hwf id Ha) as [_ H]. unfold in_int32 in *. lia. Qed.

  Lemma sent_ok kd v : sent mt b kd v → kind_ok kd ∧ kind_hash kd = h.
  Proof.
    intros H. pose proof (wf_hash _ _ Hwf). destruct H as [x es H1 H2|k v p H1 H2|k v p H1 H2|id Ha|id i pt es Ha Hp Hes]; (split; [|done]);
      split; cbn; try done.
    - by destruct (wf_parts _ _ Hwf id Ha).
    - destruct (wf_parts _ _ Hwf id Ha) as [? _]. split; [done|]. apply (part_index_ok id); [done|].
      by apply lookup_lt_Some in Hp.
  Qed.
  Lemma need_ok kd : need kd → kind_ok kd ∧ kind_hash kd = h.
  Proof.
    intros H. pose proof (wf_hash _ _ Hwf). destruct H as [|k p H1 H2 H3|k p H1 H2 H3|id Ha%tid_announced|id i Ha%tid_announced Hi]; (split; [|done]);
      split; cbn; try done.
    - by destruct (wf_parts _ _ Hwf id Ha).
    - destruct (wf_parts _ _ Hwf id Ha) as [? _]. split; [done|]. by apply (part_index_ok id).
  Qed.
  Lemma key_eq k k' : kind_ok k → kind_ok k' → key_of k = key_of k' → k = k'.
  Proof. apply key_inj. Qed.

  (** * State of a pending batch as a function of the set [A] of keys of applied messages *)
  Definition val_in (A : gset bytes) (k v : bytes) : Prop :=
    (mt k = None ∧ ba_updates a !! k = Some v ∧ tr k = true) ∨
    (∃ p, mt k = Some p ∧ tr p = true ∧ ba_updates a !! k = Some v ∧ key_of (KUpdate h k) ∈ A) ∨
    (∃ id i pt, tid id ∧ bk_parts b id !! i = Some pt ∧ pt_updates pt !! k = Some v ∧ key_of (KSubMsg h id (Z.of_nat i)) ∈ A).
  Definition del_in (A : gset bytes) (k : bytes) : Prop :=
    (mt k = None ∧ k ∈ ba_deletes a ∧ tr k = true) ∨
    (∃ p, mt k = Some p ∧ tr p = true ∧ k ∈ ba_deletes a ∧ key_of (KDelete h k) ∈ A) ∨
    (∃ id i pt, tid id ∧ bk_parts b id !! i = Some pt ∧ k ∈ pt_deletes pt ∧ key_of (KSubMsg h id (Z.of_nat i)) ∈ A).
  Definition left (A : gset bytes) (p : bytes) : nat :=
    size (filter (λ k, mt k = Some p ∧ key_of (KUpdate h k) ∉ A) (dom (ba_updates a))) +
    size (filter (λ k, mt k = Some p ∧ key_of (KDelete h k) ∉ A) (ba_deletes a)).

  Record pb_fun (A : gset bytes) (pb : pending_batch) : Prop := PF {
    pf_num : pb_num pb = ba_num a;
    pf_weight : pb_weight pb = ba_weight a;
    pf_parent : pb_parent pb = ba_parent a;
    pf_hash : pb_hash pb = h;
    pf_values : ∀ k v, pb_values pb !! k = Some v ↔ val_in A k v;
    pf_deletes : ∀ k, k ∈ pb_deletes pb ↔ del_in A k;
    pf_prefixes : ∀ p z, pb_prefixes pb !! p = Some z ↔ tr p = true ∧ count_of mt b p ≠ 0 ∧ z = Z.of_nat (left A p);
    pf_pbatches : ∀ id, id ∈ pb_pbatches pb ↔ tid id ∧ key_of (KSubHead h id) ∉ A;
    pf_batches : ∀ id bits, pb_batches pb !! id = Some bits ↔
       tid id ∧ key_of (KSubHead h id) ∈ A ∧ length bits = length (bk_parts b id) ∧
       ∀ i x, bits !! i = Some x → (x = true ↔ key_of (KSubMsg h id (Z.of_nat i)) ∈ A)
  }.
  (** Applied messages are needed ones, and entries of a sub-batch come after its header. *)
  Definition applied_ok (A : gset bytes) : Prop :=
    ∀ k, k ∈ A → ∃ kd, k = key_of kd ∧ need kd ∧
      (∀ id i, kd = KSubMsg h id i → key_of (KSubHead h id) ∈ A).

  Lemma val_in_fun A k v w : val_in A k v → val_in A k w → v = w.
  Proof.
    intros [(H1 & H2 & H3)|[(p & H1 & H2 & H3 & H4)|(id & i & pt & H1 & H2 & H3 & H4)]]
           [(J1 & J2 & J3)|[(q & J1 & J2 & J3 & J4)|(id' & i' & pt' & J1 & J2 & J3 & J4)]]; try congruence.
    - symmetry. by apply (wf_part_keys _ _ Hwf id' i' pt' k (tid_announced _ J1) J2).
    - symmetry. by apply (wf_part_keys _ _ Hwf id' i' pt' k (tid_announced _ J1) J2).
    - by apply (wf_part_keys _ _ Hwf id i pt k (tid_announced _ H1) H2).
    - by apply (wf_part_keys _ _ Hwf id i pt k (tid_announced _ H1) H2).
    - eapply (wf_part_disj _ _ Hwf id i pt id' i' pt' k); eauto using tid_announced.
  Qed.

  (** Resumption offsets *)
  Definition res_le (pb : pending_batch) (m : msg) : Prop := ∃ o, pb_res pb !! m_src m = Some o ∧ (o ≤ m_off m)%Z.
  Definition res_mono (pb pb' : pending_batch) : Prop := ∀ m, res_le pb m → res_le pb' m.
  Lemma upd_res_le pb m : res_le (pb_update_res pb m) m.
  Proof.
    unfold pb_update_res, res_le. destruct (pb_res pb !! m_src m) as [o|] eqn:E; [case_bool_decide|].
    - cbn. rewrite lookup_insert. eexists; split; [done|lia].
    - exists o. split; [done|lia].
    - cbn. rewrite lookup_insert. eexists; split; [done|lia].
  Qed.
  Lemma upd_res_mono pb m : res_mono pb (pb_update_res pb m).
  Proof.
    intros m' (o & Ho & Hle). unfold pb_update_res, res_le. destruct (pb_res pb !! m_src m) as [o'|] eqn:E; [case_bool_decide|].
    - cbn. destruct (decide (m_src m = m_src m')) as [Es|Es].
      + rewrite Es, lookup_insert. eexists; split; [done|]. rewrite Es in E. simplify_eq. lia.
      + rewrite lookup_insert_ne by done. eauto.
    - eauto.
    - cbn. rewrite lookup_insert_ne by congruence. eauto.
  Qed.
  Lemma upd_res_fields pb m :
    let p := pb_update_res pb m in
    pb_values p = pb_values pb ∧ pb_deletes p = pb_deletes pb ∧ pb_prefixes p = pb_prefixes pb ∧
    pb_batches p = pb_batches pb ∧ pb_pbatches p = pb_pbatches pb ∧ pb_pmsgs p = pb_pmsgs pb.
  Proof. unfold pb_update_res. destruct (pb_res pb !! m_src m); [case_bool_decide|]; done. Qed.
  Lemma pb_fun_ext A pb pb' : pb_fun A pb → same_id pb pb' →
    pb_values pb' = pb_values pb → pb_deletes pb' = pb_deletes pb → pb_prefixes pb' = pb_prefixes pb →
    pb_batches pb' = pb_batches pb → pb_pbatches pb' = pb_pbatches pb → pb_fun A pb'.
  Proof.
    intros [] (S1 & S2 & S3 & S4 & _) E1 E2 E3 E4 E5. split; rewrite ?E1, ?E2, ?E3, ?E4, ?E5; try congruence; done.
  Qed.
  Lemma pb_fun_upd_res A pb m : pb_fun A pb → pb_fun A (pb_update_res pb m).
  Proof.
    intros H. destruct (upd_res_fields pb m) as (? & ? & ? & ? & ? & _). eapply pb_fun_ext; [exact H|apply same_id_upd_res|..]; done.
  Qed.
  Lemma pb_fun_keep A pb m : pb_fun A pb → pb_fun A (keep_msg pb m).
  Proof. intros H. eapply pb_fun_ext; [exact H|..]; done. Qed.

  (** * Applying messages *)
  Lemma apply_update_eq pb m : head (m_key m) = Some BatchMsgType → 33 ≤ length (m_key m) →
    apply_msg pb m =
    let p := pb_update_res pb m in let path : bytes := drop 33 (m_key m) in
    match (pb_values p !! path : option bytes) with
    | Some (_ :: _) => Ok (p, false)
    | _ =>
      r ← dec_prefix (pb_prefixes p) (pb_frp p) path;
      match r with
      | Some q => Ok (pb_set_data p (<[path := m_val m]> (pb_values p)) (pb_deletes p) q (pb_batches p), true)
      | None => Ok (keep_msg p m, false)
      end
    end.
  Proof.
    intros Ht Hl. unfold apply_msg. destruct (m_key m) as [|t r] eqn:E; [done|]. cbn in Ht. injection Ht as ->.
    rewrite bool_decide_eq_false_2 by done. rewrite bool_decide_eq_true_2 by done.
    rewrite bool_decide_eq_false_2 by lia. done.
  Qed.
  Lemma apply_delete_eq pb m : head (m_key m) = Some BatchDeleteMsgType → 33 ≤ length (m_key m) →
    apply_msg pb m =
    let p := pb_update_res pb m in let path : bytes := drop 33 (m_key m) in
    if bool_decide (path ∈ pb_deletes p) then Ok (p, false)
    else
      r ← dec_prefix (pb_prefixes p) (pb_frp p) path;
      match r with
      | Some q => Ok (pb_set_data p (pb_values p) ({[path]} ∪ pb_deletes p) q (pb_batches p), true)
      | None => Ok (keep_msg p m, false)
      end.
  Proof.
    intros Ht Hl. unfold apply_msg. destruct (m_key m) as [|t r] eqn:E; [done|]. cbn in Ht. injection Ht as ->.
    rewrite bool_decide_eq_false_2 by done. rewrite bool_decide_eq_false_2 by done. rewrite bool_decide_eq_true_2 by done.
    rewrite bool_decide_eq_false_2 by lia. done.
  Qed.
  Lemma apply_sub_eq pb m id idx : head (m_key m) = Some SubBatchMsgType → 65 ≤ length (m_key m) →
    bytes_hash (take 32 (drop 33 (m_key m))) = id → decode_int (drop 65 (m_key m)) = Some idx →
    apply_msg pb m =
    let p := pb_update_res pb m in
    match pb_batches p !! id with
    | None => Ok (keep_msg p m, false)
    | Some bits =>
      if bool_decide (idx < 0)%Z then Panic else
      match bits !! Z.to_nat idx with
      | None => Panic
      | Some true => Ok (p, false)
      | Some false =>
        match decode_sub (m_val m) with
        | None => Ok (p, false)
        | Some u =>
          Ok (pb_set_data p (sr_updates u ∪ pb_values p) (list_to_set (sr_delete u) ∪ pb_deletes p) (pb_prefixes p)
                (<[id := <[Z.to_nat idx := true]> bits]> (pb_batches p)), true)
        end
      end
    end.
  Proof.
    intros Ht Hl Hid Hidx. unfold apply_msg. destruct (m_key m) as [|t r] eqn:E; [done|]. cbn in Ht. injection Ht as ->.
    rewrite bool_decide_eq_true_2 by done. rewrite bool_decide_eq_false_2 by lia. rewrite Hidx. rewrite Hid. done.
  Qed.
  Lemma apply_other_eq pb m t : head (m_key m) = Some t →
    t ≠ SubBatchMsgType → t ≠ BatchMsgType → t ≠ BatchDeleteMsgType → apply_msg pb m = Ok (pb_update_res pb m, true).
  Proof.
    intros Ht H1 H2 H3. unfold apply_msg. destruct (m_key m) as [|t' r] eqn:E; [done|]. cbn in Ht. injection Ht as ->.
    by rewrite !bool_decide_eq_false_2 by done.
  Qed.

  Definition kind_type (kd : message_kind) : byte :=
    match kd with
    | KBatch _ => BatchType | KSubHead _ _ => SubBatchHeaderType | KSubMsg _ _ _ => SubBatchMsgType
    | KUpdate _ _ => BatchMsgType | KDelete _ _ => BatchDeleteMsgType | KReorg _ => ReorgType | KReorgDone _ => ReorgCompleteType
    end.
  Lemma key_type kd : head (key_of kd) = Some (kind_type kd).
  Proof. by destruct kd. Qed.
  Lemma key_len kd : 33 ≤ length (key_of kd) ∧ (∀ x id i, kd = KSubMsg x id i → 65 ≤ length (key_of kd)).
  Proof.
    split; [destruct kd; cbn [key_of get_key concat length]; rewrite !app_length, hash_bytes_length; lia|].
    intros x id i ->. cbn [key_of get_key concat length]. rewrite !app_length, !hash_bytes_length. lia.
  Qed.

  (** The message is of use: it is needed and (for an entry of a sub-batch) its header is here. *)
  Definition usable (A : gset bytes) (kd : message_kind) : Prop :=
    need kd ∧ ∀ id i, kd = KSubMsg h id i → key_of (KSubHead h id) ∈ A.
  (** Messages handled by ApplyMessage. *)
  Definition body (kd : message_kind) : Prop :=
    match kd with KSubMsg _ _ _ | KUpdate _ _ | KDelete _ _ => True | _ => False end.

  Lemma left_update A k p v : ba_updates a !! k = Some v → mt k = Some p → key_of (KUpdate h k) ∉ A →
    (∀ q, left (A ∪ {[key_of (KUpdate h k)]}) q + (if decide (q = p) then 1 else 0) = left A q).
  Proof.
    intros Hk Hp HA q. unfold left.
    assert (E2 : filter (λ x, mt x = Some q ∧ key_of (KDelete h x) ∉ A ∪ {[key_of (KUpdate h k)]}) (ba_deletes a) =
                 filter (λ x, mt x = Some q ∧ key_of (KDelete h x) ∉ A) (ba_deletes a)).
    { apply set_eq. intros x. rewrite !elem_of_filter. rewrite not_elem_of_union, not_elem_of_singleton.
      split; [tauto|]. intros [[? ?] ?]. split; [|done]. split; [done|]. split; [done|]. done. }
    rewrite E2. clear E2.
    assert (Hk' : k ∈ dom (ba_updates a)) by (apply elem_of_dom; by eexists).
    destruct (decide (q = p)) as [->|Hne].
    - assert (E : filter (λ x, mt x = Some p ∧ key_of (KUpdate h x) ∉ A) (dom (ba_updates a)) =
                  {[k]} ∪ filter (λ x, mt x = Some p ∧ key_of (KUpdate h x) ∉ A ∪ {[key_of (KUpdate h k)]}) (dom (ba_updates a))).
      { apply set_eq. intros x. rewrite elem_of_union, elem_of_singleton, !elem_of_filter, not_elem_of_union, not_elem_of_singleton.
        split.
        - intros [[H1 H2] H3]. destruct (decide (x = k)) as [->|Hx]; [by left|right]. split; [|done]. split; [done|]. split; [done|].
          intros E. apply key_eq in E; [congruence|..]; split; try done; apply (wf_hash _ _ Hwf).
        - intros [->|[[H1 [H2 _]] H3]]; [|done]. done. }
      rewrite E, size_union, size_singleton; [lia|]. intros x. rewrite elem_of_singleton. intros -> [[_ Hn] _]%elem_of_filter.
      apply Hn. set_solver.
    - assert (E : filter (λ x, mt x = Some q ∧ key_of (KUpdate h x) ∉ A ∪ {[key_of (KUpdate h k)]}) (dom (ba_updates a)) =
                  filter (λ x, mt x = Some q ∧ key_of (KUpdate h x) ∉ A) (dom (ba_updates a))).
      { apply set_eq. intros x. rewrite !elem_of_filter, not_elem_of_union, not_elem_of_singleton. split; [tauto|].
        intros [[H1 H2] H3]. split; [|done]. split; [done|]. split; [done|].
        intros E. apply key_eq in E; [congruence|..]; split; try done; apply (wf_hash _ _ Hwf). }
      rewrite E. lia.
  Qed.
  Lemma left_delete A k p : k ∈ ba_deletes a → mt k = Some p → key_of (KDelete h k) ∉ A →
    (∀ q, left (A ∪ {[key_of (KDelete h k)]}) q + (if decide (q = p) then 1 else 0) = left A q).
  Proof.
    intros Hk Hp HA q. unfold left.
    assert (E2 : filter (λ x, mt x = Some q ∧ key_of (KUpdate h x) ∉ A ∪ {[key_of (KDelete h k)]}) (dom (ba_updates a)) =
                 filter (λ x, mt x = Some q ∧ key_of (KUpdate h x) ∉ A) (dom (ba_updates a))).
    { apply set_eq. intros x. rewrite !elem_of_filter. rewrite not_elem_of_union, not_elem_of_singleton.
      split; [tauto|]. intros [[? ?] ?]. split; [|done]. split; [done|]. split; [done|]. done. }
    rewrite E2. clear E2.
    destruct (decide (q = p)) as [->|Hne].
    - assert (E : filter (λ x, mt x = Some p ∧ key_of (KDelete h x) ∉ A) (ba_deletes a) =
                  {[k]} ∪ filter (λ x, mt x = Some p ∧ key_of (KDelete h x) ∉ A ∪ {[key_of (KDelete h k)]}) (ba_deletes a)).
      { apply set_eq. intros x. rewrite elem_of_union, elem_of_singleton, !elem_of_filter, not_elem_of_union, not_elem_of_singleton.
        split.
        - intros [[H1 H2] H3]. destruct (decide (x = k)) as [->|Hx]; [by left|right]. split; [|done]. split; [done|]. split; [done|].
          intros E. apply key_eq in E; [congruence|..]; split; try done; apply (wf_hash _ _ Hwf).
        - intros [->|[[H1 [H2 _]] H3]]; [|done]. done. }
      rewrite E, size_union, size_singleton; [lia|]. intros x. rewrite elem_of_singleton. intros -> [[_ Hn] _]%elem_of_filter.
      apply Hn. set_solver.
    - assert (E : filter (λ x, mt x = Some q ∧ key_of (KDelete h x) ∉ A ∪ {[key_of (KDelete h k)]}) (ba_deletes a) =
                  filter (λ x, mt x = Some q ∧ key_of (KDelete h x) ∉ A) (ba_deletes a)).
      { apply set_eq. intros x. rewrite !elem_of_filter, not_elem_of_union, not_elem_of_singleton. split; [tauto|].
        intros [[H1 H2] H3]. split; [|done]. split; [done|]. split; [done|].
        intros E. apply key_eq in E; [congruence|..]; split; try done; apply (wf_hash _ _ Hwf). }
      rewrite E. lia.
  Qed.

  Lemma elem_add (A : gset bytes) kd kd' : kind_ok kd → kind_ok kd' →
    (key_of kd ∈ A ∪ {[key_of kd']} ↔ key_of kd ∈ A ∨ kd = kd').
  Proof.
    intros H H'. rewrite elem_of_union, elem_of_singleton. split; (intros [?|E]; [by left|right]).
    - by apply key_eq.
    - by subst.
  Qed.
  Lemma ok_update k : kind_ok (KUpdate h k).
  Proof. split; [apply (wf_hash _ _ Hwf)|done]. Qed.
  Lemma ok_delete k : kind_ok (KDelete h k).
  Proof. split; [apply (wf_hash _ _ Hwf)|done]. Qed.
  Lemma ok_sub id i : tid id → is_Some (bk_parts b id !! i) → kind_ok (KSubMsg h id (Z.of_nat i)).
  Proof. intros H Hi. apply need_ok. apply NSubMsg; [done|]. by apply lookup_lt_is_Some. Qed.
  Lemma ok_head id : tid id → kind_ok (KSubHead h id).
  Proof. intros H. apply need_ok. by apply NSubHead. Qed.

  Lemma val_add A kd k v : kind_ok kd → (val_in (A ∪ {[key_of kd]}) k v ↔ val_in A k v ∨
    (kd = KUpdate h k ∧ ∃ p, mt k = Some p ∧ tr p = true ∧ ba_updates a !! k = Some v) ∨
    (∃ id i pt, kd = KSubMsg h id (Z.of_nat i) ∧ tid id ∧ bk_parts b id !! i = Some pt ∧ pt_updates pt !! k = Some v)).
  Proof.
    intros Hk. unfold val_in. split.
    - intros [H|[(p & H1 & H2 & H3 & H4)|(id & i & pt & H1 & H2 & H3 & H4)]]; [by left; left|..].
      + apply elem_add in H4 as [H4|H4]; [|by subst; right; left; eauto|apply ok_update|done].
        left; right; left. eauto 10.
      + apply elem_add in H4 as [H4|H4]; [left; right; right; by eauto 10|right; right; by eauto 10|apply ok_sub; [done|by eexists]|done].
    - intros [[H|[(p & H1 & H2 & H3 & H4)|(id & i & pt & H1 & H2 & H3 & H4)]]|[(-> & p & H1 & H2 & H3)|(id & i & pt & -> & H1 & H2 & H3)]].
      + by left.
      + right; left. exists p. set_solver.
      + right; right. exists id, i, pt. set_solver.
      + right; left. exists p. set_solver.
      + right; right. exists id, i, pt. set_solver.
  Qed.
  Lemma del_add A kd k : kind_ok kd → (del_in (A ∪ {[key_of kd]}) k ↔ del_in A k ∨
    (kd = KDelete h k ∧ ∃ p, mt k = Some p ∧ tr p = true ∧ k ∈ ba_deletes a) ∨
    (∃ id i pt, kd = KSubMsg h id (Z.of_nat i) ∧ tid id ∧ bk_parts b id !! i = Some pt ∧ k ∈ pt_deletes pt)).
  Proof.
    intros Hk. unfold del_in. split.
    - intros [H|[(p & H1 & H2 & H3 & H4)|(id & i & pt & H1 & H2 & H3 & H4)]]; [by left; left|..].
      + apply elem_add in H4 as [H4|H4]; [|by subst; right; left; eauto|apply ok_delete|done].
        left; right; left. eauto 10.
      + apply elem_add in H4 as [H4|H4]; [left; right; right; by eauto 10|right; right; by eauto 10|apply ok_sub; [done|by eexists]|done].
    - intros [[H|[(p & H1 & H2 & H3 & H4)|(id & i & pt & H1 & H2 & H3 & H4)]]|[(-> & p & H1 & H2 & H3)|(id & i & pt & -> & H1 & H2 & H3)]].
      + by left.
      + right; left. exists p. set_solver.
      + right; right. exists id, i, pt. set_solver.
      + right; left. exists p. set_solver.
      + right; right. exists id, i, pt. set_solver.
  Qed.
  (** A message that is not an update or a deletion of its own leaves the counters alone. *)
  Lemma left_other A kd p : kind_ok kd → (∀ k, kd ≠ KUpdate h k) → (∀ k, kd ≠ KDelete h k) →
    left (A ∪ {[key_of kd]}) p = left A p.
  Proof.
    intros Hk Hu Hd. unfold left. f_equal; f_equal; apply set_eq; intros x; rewrite !elem_of_filter.
    - pose proof (elem_add A (KUpdate h x) kd (ok_update x) Hk) as E. specialize (Hu x). naive_solver.
    - pose proof (elem_add A (KDelete h x) kd (ok_delete x) Hk) as E. specialize (Hd x). naive_solver.
  Qed.
  Lemma batches_add (A : gset bytes) kd (pbb : gmap hash (list bool)) : kind_ok kd → (∀ id, kd ≠ KSubHead h id) → (∀ id i, kd ≠ KSubMsg h id i) →
    (∀ id bits, pbb !! id = Some bits ↔
       tid id ∧ key_of (KSubHead h id) ∈ A ∧ length bits = length (bk_parts b id) ∧
       ∀ i x, bits !! i = Some x → (x = true ↔ key_of (KSubMsg h id (Z.of_nat i)) ∈ A)) →
    (∀ id bits, pbb !! id = Some bits ↔
       tid id ∧ key_of (KSubHead h id) ∈ A ∪ {[key_of kd]} ∧ length bits = length (bk_parts b id) ∧
       ∀ i x, bits !! i = Some x → (x = true ↔ key_of (KSubMsg h id (Z.of_nat i)) ∈ A ∪ {[key_of kd]})).
  Proof.
    intros Hk H1 H2 Hb id bits. rewrite Hb.
    split; intros (Ht & Hh & Hl & Hi); (split; [done|]); pose proof (elem_add A (KSubHead h id) kd (ok_head id Ht) Hk) as E;
      specialize (H1 id); (split; [naive_solver|]); (split; [done|]); intros i x Hx; rewrite (Hi i x Hx);
      (pose proof (elem_add A (KSubMsg h id (Z.of_nat i)) kd) as E'; 
       feed specialize E'; [apply ok_sub; [done|]; apply lookup_lt_is_Some; rewrite <- Hl; by eapply lookup_lt_Some|done|]);
      specialize (H2 id (Z.of_nat i)); naive_solver.
  Qed.
  Lemma pbatches_add (A : gset bytes) kd (P : gset hash) : kind_ok kd → (∀ id, kd ≠ KSubHead h id) →
    (∀ id, id ∈ P ↔ tid id ∧ key_of (KSubHead h id) ∉ A) → (∀ id, id ∈ P ↔ tid id ∧ key_of (KSubHead h id) ∉ A ∪ {[key_of kd]}).
  Proof.
    intros Hk H1 H id. rewrite H. specialize (H1 id).
    split; intros [Ht Hn]; (split; [done|]); pose proof (elem_add A (KSubHead h id) kd (ok_head id Ht) Hk); naive_solver.
  Qed.

  Lemma union_in (A : gset bytes) x : x ∈ A → A ∪ {[x]} = A.
  Proof. set_solver. Qed.

  Definition applied (A : gset bytes) (pb : pending_batch) (m : msg) (kd : message_kind) : Prop :=
    ∃ pb' d A', apply_msg pb m = Ok (pb', d) ∧ pb_fun A' pb' ∧ pb_res pb' = pb_res (pb_update_res pb m) ∧
      ((usable A kd ∧ A' = A ∪ {[m_key m]} ∧ pb_pmsgs pb' = pb_pmsgs pb) ∨
       (¬ usable A kd ∧ A' = A ∧ d = false ∧ pb_pmsgs pb' = <[m_key m := m]> (pb_pmsgs pb))).

  Lemma apply_update A pb m k p :
    pb_fun A pb → m_key m = key_of (KUpdate h k) → ba_updates a !! k = Some (m_val m) → mt k = Some p →
    applied A pb m (KUpdate h k).
  Proof.
    intros HF Hkey Hv Hmt. unfold applied.
    assert (Hl : 33 ≤ length (m_key m)) by (rewrite Hkey; apply key_len).
    assert (Ht : head (m_key m) = Some BatchMsgType) by (by rewrite Hkey, key_type).
    destruct (key_recovered _ (ok_update k)) as [_ Hpath]. cbn beta iota in Hpath. rewrite <- Hkey in Hpath.
    rewrite (apply_update_eq pb m Ht Hl). cbn zeta. rewrite Hpath.
    pose proof (pb_fun_upd_res A pb m HF) as HF'. destruct (upd_res_fields pb m) as (_ & _ & _ & _ & _ & Epm).
    set (q := pb_update_res pb m) in *.
    assert (Hin : k ∈ dom (ba_updates a)) by (apply elem_of_dom; by eexists).
    destruct (wf_paths _ _ Hwf k p (or_introl Hin) Hmt) as (Hroot & Hpl & Hother).
    assert (Hcnt : count_of mt b p ≠ 0).
    { unfold count_of. assert (size (filter (λ k, mt k = Some p) (dom (ba_updates a))) ≠ 0); [|lia].
      apply size_non_empty_iff. assert (k ∈ filter (λ k, mt k = Some p) (dom (ba_updates a))) by (by apply elem_of_filter). set_solver. }
    assert (Hval : ∀ w, pb_values q !! k = Some w ↔ tr p = true ∧ key_of (KUpdate h k) ∈ A ∧ w = m_val m).
    { intros w. rewrite (pf_values _ _ HF'). split.
      - intros [(H1 & _)|[(p' & H1 & H2 & H3 & H4)|(id & i & pt & H1 & H2 & H3 & H4)]]; [congruence| |].
        + split; [congruence|]. split; [done|congruence].
        + destruct (proj1 (wf_part_keys _ _ Hwf id i pt k (tid_announced _ H1) H2) w (m_val m) H3 Hv). congruence.
      - intros (H1 & H2 & ->). right; left. by exists p. }
    assert (Hused : usable A (KUpdate h k) ↔ tr p = true).
    { unfold usable. split.
      - intros [H _]. inversion H; subst; congruence.
      - intros H. split; [by apply (NUpdate _ _ _ _ p)|done]. }
    destruct (tr p) eqn:Etr.
    - destruct (decide (key_of (KUpdate h k) ∈ A)) as [HA|HA].
      + rewrite (proj2 (Hval (m_val m)) (conj eq_refl (conj HA eq_refl))).
        destruct (m_val m) eqn:Em; [exfalso; by apply (wf_values _ _ Hwf k [])|].
        exists q, false, A. split; [done|]. split; [done|]. split; [done|]. left. rewrite Hkey, union_in by done. 
        split; [by apply Hused|]. done.
      + destruct (pb_values q !! k) as [w|] eqn:Eq; [exfalso; by destruct (proj1 (Hval w) eq_refl) as (_ & ? & _)|].
        pose proof (left_update A k p (m_val m) Hv Hmt HA) as HL.
        assert (Hz : pb_prefixes q !! p = Some (Z.of_nat (left A p))) by (by apply (pf_prefixes _ _ HF')).
        assert (Hpos : (0 < Z.of_nat (left A p))%Z) by (specialize (HL p); rewrite decide_True in HL by done; lia).
        rewrite (dec_prefix_hit _ _ k p _ Hroot Hpl Hz Hpos).
        2: { intros q' Hq' Hne. destruct (pb_prefixes q !! q') as [z|] eqn:Ez; [|done]. exfalso. apply Hne, Hother; [done|].
             by apply (pf_prefixes _ _ HF') in Ez as (_ & ? & _). }
        cbn [mbind outcome_bind]. eexists _, true, _. split; [reflexivity|]. 
        split; [|split; [reflexivity|left; split; [by apply Hused|split; [reflexivity|done]]]].
        rewrite Hkey. pose proof (ok_update k) as Hok. destruct HF' as [F1 F2 F3 F4 F5 F6 F7 F8 F9].
        split; cbn [pb_set_data pb_num pb_weight pb_parent pb_hash pb_values pb_deletes pb_prefixes pb_batches pb_pbatches]; try done.
        * intros k' v'. rewrite val_add by done. rewrite <- F5. rewrite lookup_insert_Some. split.
          -- intros [[<- <-]|[Hne ?]]; [right; left; eauto|by left].
          -- intros [?|[(? & p' & H1 & H2 & H3)|(? & ? & ? & ? & _)]]; [|simplify_eq; by left|done].
             right. split; [|done]. intros <-. congruence.
        * intros k'. rewrite del_add by done. rewrite <- F6. split; [by left|]. by intros [?|[(? & _)|(? & ? & ? & ? & _)]].
        * intros p' z. rewrite lookup_insert_Some, F7. specialize (HL p'). split.
          -- intros [[<- <-]|[Hne (? & ? & ->)]]; [|rewrite decide_False in HL by done; by rewrite Nat.add_0_r in HL; rewrite HL].
             rewrite decide_True in HL by done. split; [done|]. split; [done|]. lia.
          -- intros (H1 & H2 & ->). destruct (decide (p' = p)) as [->|Hne]; [left|right].
             ++ split; [done|]. lia.
             ++ split; [done|]. rewrite Nat.add_0_r in HL. by rewrite HL.
        * apply pbatches_add; done.
        * apply batches_add; done.
    - destruct (pb_values q !! k) as [w|] eqn:Eq; [exfalso; by destruct (proj1 (Hval w) eq_refl) as (? & ? & _)|].
      rewrite dec_prefix_none; [|done|].
      2: { intros q' Hq'. destruct (pb_prefixes q !! q') as [z|] eqn:Ez; [|done]. exfalso.
           apply (pf_prefixes _ _ HF') in Ez as (? & Hc & _). rewrite (Hother q' Hq' Hc) in *. congruence. }
      cbn [mbind outcome_bind]. eexists _, false, A. split; [reflexivity|]. split; [by apply pb_fun_keep|]. split; [done|].
      right. split; [by rewrite Hused|]. split; [done|]. split; [done|]. cbn. by rewrite Epm.
  Qed.

  Lemma apply_delete A pb m k p :
    pb_fun A pb → m_key m = key_of (KDelete h k) → k ∈ ba_deletes a → mt k = Some p →
    applied A pb m (KDelete h k).
  Proof.
    intros HF Hkey Hin Hmt. unfold applied.
    assert (Hl : 33 ≤ length (m_key m)) by (rewrite Hkey; apply key_len).
    assert (Ht : head (m_key m) = Some BatchDeleteMsgType) by (by rewrite Hkey, key_type).
    destruct (key_recovered _ (ok_delete k)) as [_ Hpath]. cbn beta iota in Hpath. rewrite <- Hkey in Hpath.
    rewrite (apply_delete_eq pb m Ht Hl). cbn zeta. rewrite Hpath.
    pose proof (pb_fun_upd_res A pb m HF) as HF'. destruct (upd_res_fields pb m) as (_ & _ & _ & _ & _ & Epm).
    set (q := pb_update_res pb m) in *.
    destruct (wf_paths _ _ Hwf k p (or_intror Hin) Hmt) as (Hroot & Hpl & Hother).
    assert (Hcnt : count_of mt b p ≠ 0).
    { unfold count_of. assert (size (filter (λ k, mt k = Some p) (ba_deletes a)) ≠ 0); [|lia].
      apply size_non_empty_iff. assert (k ∈ filter (λ k, mt k = Some p) (ba_deletes a)) by (by apply elem_of_filter). set_solver. }
    assert (Hval : k ∈ pb_deletes q ↔ tr p = true ∧ key_of (KDelete h k) ∈ A).
    { rewrite (pf_deletes _ _ HF'). split.
      - intros [(H1 & _)|[(p' & H1 & H2 & H3 & H4)|(id & i & pt & H1 & H2 & H3 & H4)]]; [congruence| |].
        + split; [congruence|done].
        + pose proof (proj2 (wf_part_keys _ _ Hwf id i pt k (tid_announced _ H1) H2) H3 Hin). congruence.
      - intros (H1 & H2). right; left. by exists p. }
    assert (Hused : usable A (KDelete h k) ↔ tr p = true).
    { unfold usable. split.
      - intros [H _]. inversion H; subst; congruence.
      - intros H. split; [by apply (NDelete _ _ _ _ p)|done]. }
    destruct (tr p) eqn:Etr.
    - destruct (decide (key_of (KDelete h k) ∈ A)) as [HA|HA].
      + rewrite bool_decide_eq_true_2 by (by apply Hval).
        exists q, false, A. split; [done|]. split; [done|]. split; [done|]. left. rewrite Hkey, union_in by done. 
        split; [by apply Hused|]. done.
      + rewrite bool_decide_eq_false_2 by (rewrite Hval; naive_solver).
        pose proof (left_delete A k p Hin Hmt HA) as HL.
        assert (Hz : pb_prefixes q !! p = Some (Z.of_nat (left A p))) by (by apply (pf_prefixes _ _ HF')).
        assert (Hpos : (0 < Z.of_nat (left A p))%Z) by (specialize (HL p); rewrite decide_True in HL by done; lia).
        rewrite (dec_prefix_hit _ _ k p _ Hroot Hpl Hz Hpos).
        2: { intros q' Hq' Hne. destruct (pb_prefixes q !! q') as [z|] eqn:Ez; [|done]. exfalso. apply Hne, Hother; [done|].
             by apply (pf_prefixes _ _ HF') in Ez as (_ & ? & _). }
        cbn [mbind outcome_bind]. eexists _, true, _. split; [reflexivity|]. 
        split; [|split; [reflexivity|left; split; [by apply Hused|split; [reflexivity|done]]]].
        rewrite Hkey. pose proof (ok_delete k) as Hok. destruct HF' as [F1 F2 F3 F4 F5 F6 F7 F8 F9].
        split; cbn [pb_set_data pb_num pb_weight pb_parent pb_hash pb_values pb_deletes pb_prefixes pb_batches pb_pbatches]; try done.
        * intros k' v'. rewrite val_add by done. rewrite <- F5. split; [by left|]. by intros [?|[(? & _)|(? & ? & ? & ? & _)]].
        * intros k'. rewrite del_add by done. rewrite <- F6, elem_of_union, elem_of_singleton. split.
          -- intros [->|?]; [right; left; eauto|by left].
          -- intros [?|[(? & p' & H1 & H2 & H3)|(? & ? & ? & ? & _)]]; [by right|simplify_eq; by left|done].
        * intros p' z. rewrite lookup_insert_Some, F7. specialize (HL p'). split.
          -- intros [[<- <-]|[Hne (? & ? & ->)]]; [|rewrite decide_False in HL by done; by rewrite Nat.add_0_r in HL; rewrite HL].
             rewrite decide_True in HL by done. split; [done|]. split; [done|]. lia.
          -- intros (H1 & H2 & ->). destruct (decide (p' = p)) as [->|Hne]; [left|right].
             ++ split; [done|]. lia.
             ++ split; [done|]. rewrite Nat.add_0_r in HL. by rewrite HL.
        * apply pbatches_add; done.
        * apply batches_add; done.
    - rewrite bool_decide_eq_false_2 by (rewrite Hval; naive_solver).
      rewrite dec_prefix_none; [|done|].
      2: { intros q' Hq'. destruct (pb_prefixes q !! q') as [z|] eqn:Ez; [|done]. exfalso.
           apply (pf_prefixes _ _ HF') in Ez as (? & Hc & _). rewrite (Hother q' Hq' Hc) in *. congruence. }
      cbn [mbind outcome_bind]. eexists _, false, A. split; [reflexivity|]. split; [by apply pb_fun_keep|]. split; [done|].
      right. split; [by rewrite Hused|]. split; [done|]. split; [done|]. cbn. by rewrite Epm.
  Qed.

  Lemma apply_sub A pb m id i pt es :
    pb_fun A pb → m_key m = key_of (KSubMsg h id (Z.of_nat i)) → announced b id → bk_parts b id !! i = Some pt →
    es ≡ₚ map_to_list (pt_updates pt) → m_val m = encode_sub (pt_deletes pt) es → sized (length (m_val m)) →
    applied A pb m (KSubMsg h id (Z.of_nat i)).
  Proof.
    intros HF Hkey Han Hpt Hes Hval Hsz. unfold applied.
    assert (Hok : kind_ok (KSubMsg h id (Z.of_nat i))).
    { apply (sent_ok _ (encode_sub (pt_deletes pt) es)). by eapply SentSubMsg. }
    assert (Hl : 65 ≤ length (m_key m)) by (rewrite Hkey; by eapply key_len).
    assert (Ht : head (m_key m) = Some SubBatchMsgType) by (by rewrite Hkey, key_type).
    destruct (key_recovered _ Hok) as [_ [Hid Hidx]]. rewrite <- Hkey in Hid, Hidx.
    rewrite (apply_sub_eq pb m id _ Ht Hl Hid Hidx). cbn zeta.
    pose proof (pb_fun_upd_res A pb m HF) as HF'. destruct (upd_res_fields pb m) as (_ & _ & _ & _ & _ & Epm).
    set (q := pb_update_res pb m) in *.
    assert (Hi : i < length (bk_parts b id)) by (by eapply lookup_lt_Some).
    destruct (pb_batches q !! id) as [bits|] eqn:Eb.
    - apply (pf_batches _ _ HF') in Eb as Eb'. destruct Eb' as (Htid & Hhd & Hlen & Hbits).
      assert (Hused : usable A (KSubMsg h id (Z.of_nat i))).
      { split; [by apply NSubMsg|]. intros id' i' [= <- _]. done. }
      rewrite bool_decide_eq_false_2 by lia. rewrite Nat2Z.id.
      destruct (bits !! i) as [x|] eqn:Ex; [|exfalso; apply lookup_ge_None in Ex; lia].
      pose proof (Hbits i x Ex) as Hx. destruct x.
      + exists q, false, A. split; [done|]. split; [done|]. split; [done|]. left. rewrite Hkey, union_in by (by apply Hx). done.
      + rewrite Hval, (sub_roundtrip _ (pt_updates pt)); [|done|by rewrite <- Hval]. cbn [sr_updates sr_delete].
        assert (HA : key_of (KSubMsg h id (Z.of_nat i)) ∉ A) by naive_solver.
        eexists _, true, _. split; [reflexivity|].
        split; [|split; [reflexivity|left; split; [done|split; [reflexivity|done]]]].
        rewrite Hkey. destruct HF' as [F1 F2 F3 F4 F5 F6 F7 F8 F9].
        split; cbn [pb_set_data pb_num pb_weight pb_parent pb_hash pb_values pb_deletes pb_prefixes pb_batches pb_pbatches]; try done.
        * intros k' v'. rewrite lookup_union_Some_raw. split.
          -- intros [H|[Hn H]].
             ++ apply val_add; [done|]. right; right. eauto 10.
             ++ apply val_add; [done|]. left. by apply F5.
          -- intros H. apply val_add in H as H'; [|done].
             destruct (pt_updates pt !! k') as [w|] eqn:Ew.
             ++ left. f_equal. assert (Hw : val_in (A ∪ {[key_of (KSubMsg h id (Z.of_nat i))]}) k' w).
                { apply val_add; [done|]. right; right. eauto 10. }
                by eapply val_in_fun.
             ++ right. split; [done|]. apply F5. destruct H' as [?|[(? & _)|(id' & i' & pt' & ? & H1 & H2 & H3)]]; [done|done|].
                assert (id' = id) as -> by congruence. assert (i' = i) as -> by (simplify_eq; lia). congruence.
        * intros k'. rewrite del_add by done. rewrite <- F6, elem_of_union, elem_of_list_to_set. split.
          -- intros [?|?]; [right; right; eauto 10|by left].
          -- intros [?|[(? & _)|(id' & i' & pt' & ? & H1 & H2 & H3)]]; [by right|done|].
             assert (id' = id) as -> by congruence. assert (i' = i) as -> by (simplify_eq; lia). simplify_eq. by left.
        * intros p' z. rewrite F7, left_other; done.
        * apply pbatches_add; done.
        * intros id' bits'. rewrite lookup_insert_Some, F9. split.
          -- intros [[<- <-]|[Hne (H1 & H2 & H3 & H4)]].
             ++ split; [done|]. split; [by apply elem_of_union_l|]. rewrite insert_length. split; [done|].
                intros j x Hj. rewrite elem_add; [|apply ok_sub; [done|]; apply lookup_lt_is_Some; apply lookup_lt_Some in Hj; rewrite insert_length in Hj; lia|done].
                destruct (decide (j = i)) as [->|Hji].
                ** rewrite list_lookup_insert in Hj by lia. simplify_eq. naive_solver.
                ** rewrite list_lookup_insert_ne in Hj by done. rewrite (Hbits j x Hj). split; [by left|].
                   intros [?|[=]]; [done|]. lia.
             ++ split; [done|]. split; [by apply elem_of_union_l|]. split; [done|]. intros j x Hj. rewrite (H4 j x Hj).
                rewrite elem_add; [|apply ok_sub; [done|]; apply lookup_lt_is_Some; apply lookup_lt_Some in Hj; lia|done].
                clear -Hne. split; [by left|]. intros [?|[=]]; [done|congruence].
          -- intros (H1 & H2 & H3 & H4). apply elem_add in H2 as [H2|H2]; [|done|by apply ok_head|done].
             destruct (decide (id = id')) as [->|Hne]; [left; split; [done|]|right; split; [done|]].
             ++ apply list_eq. intros j. destruct (decide (j = i)) as [->|Hji].
                ** rewrite list_lookup_insert by lia. destruct (bits' !! i) as [x|] eqn:Ex'; [|apply lookup_ge_None in Ex'; lia].
                   f_equal. symmetry. apply (H4 i x Ex'). by apply elem_of_union_r, elem_of_singleton.
                ** rewrite list_lookup_insert_ne by done.
                   destruct (decide (j < length bits)) as [Hj|Hj].
                   2: { rewrite !lookup_ge_None_2 by lia. done. }
                   destruct (bits !! j) as [x|] eqn:E1; [|apply lookup_ge_None in E1; lia].
                   destruct (bits' !! j) as [y|] eqn:E2; [|apply lookup_ge_None in E2; lia].
                   f_equal. pose proof (Hbits j x E1) as B1. pose proof (H4 j y E2) as B2.
                   rewrite elem_add in B2; [|apply ok_sub; [done|]; apply lookup_lt_is_Some; lia|done].
                   assert (B3 : KSubMsg h id' (Z.of_nat j) ≠ KSubMsg h id' (Z.of_nat i)) by (intros [=]; lia).
                   clear -B1 B2 B3. destruct x, y; intuition congruence.
             ++ split; [done|]. split; [done|]. split; [done|]. intros j x Hj. rewrite (H4 j x Hj).
                rewrite elem_add; [|apply ok_sub; [done|]; apply lookup_lt_is_Some; apply lookup_lt_Some in Hj; lia|done].
                clear -Hne. split; [intros [?|[=]]; [done|congruence]|by left].
    - exists (keep_msg q m), false, A. split; [done|]. split; [by apply pb_fun_keep|]. split; [done|]. right.
      split; [|split; [done|split; [done|cbn; by rewrite Epm]]].
      intros [Hn Hh]. specialize (Hh id _ eq_refl).
      assert (Htid : tid id) by (clear -Hn; inversion Hn; by subst).
      assert (Hex : ∃ bits, pb_batches q !! id = Some bits).
      { exists ((λ j, bool_decide (key_of (KSubMsg h id (Z.of_nat j)) ∈ A)) <$> seq 0 (length (bk_parts b id))).
        apply (pf_batches _ _ HF'). split; [done|]. split; [done|]. rewrite fmap_length, seq_length. split; [done|].
        intros j x. rewrite list_lookup_fmap_Some. intros (j' & Hj' & ->). apply lookup_seq in Hj' as [-> _]. apply bool_decide_eq_true. }
      destruct Hex as [? ?]. congruence.
  Qed.
End assembly.
