(** A concrete block, used to show that the hypotheses of the theorems about collection can be met. *)
From Coq Require Import Strings.String.
From Verif Require Import Base Lru Types Avro AvroFacts Wire SpecWire WireFacts GoPath Producer SpecBlock Consumer SpecCollect.

(** Keys below "s/" travel in messages of their own. *)
Definition ex_mt (k : bytes) : option bytes := if has_prefix k (str "s/") then Some (str "s/"%string) else None.
Definition ex_updates : gmap bytes bytes := <[(str "s/a"%string : bytes) := [x01]]> {[(str "n"%string : bytes) := [x02]]}.
Definition ex_parts : list part :=
  [Part [str "x/d"%string] {[(str "x/k"%string : bytes) := [x03]]}; Part [] {[(str "x/l"%string : bytes) := [x04]]}].
Definition ex_block : block :=
  Block (BA 7 1 2 5 ex_updates {[(str "s/b"%string : bytes)]} {[(str "x/"%string : bytes) := 9%N]})
        (λ id, if bool_decide (id = 9%N) then ex_parts else []).

Lemma ex_mt_some k p : ex_mt k = Some p → p = str "s/"%string.
Proof. unfold ex_mt. destruct (has_prefix k _); congruence. Qed.
Lemma ex_upd k v : ex_updates !! k = Some v → (k = str "s/a"%string ∧ v = [x01]) ∨ (k = str "n"%string ∧ v = [x02]).
Proof.
  unfold ex_updates. intros [[<- <-]|[_ [<- <-]%lookup_singleton_Some]]%lookup_insert_Some; [by left|by right].
Qed.
Lemma ex_updom k : k ∈ dom ex_updates → k = str "s/a"%string ∨ k = str "n"%string.
Proof. intros [v [[-> _]|[-> _]]%ex_upd]%elem_of_dom; auto. Qed.
Lemma ex_count_other p : p ≠ str "s/"%string → count_of ex_mt ex_block p = 0.
Proof.
  intros Hp. unfold count_of.
  assert (H : ∀ S : gset bytes, size (filter (λ k, ex_mt k = Some p) S) = 0).
  { intros S. apply size_empty_iff. intros x. rewrite elem_of_filter. split; [|set_solver].
    intros [?%ex_mt_some _]. done. }
  by rewrite !H.
Qed.
Lemma ex_count : count_of ex_mt ex_block (str "s/"%string) = 2.
Proof. vm_compute. reflexivity. Qed.
Lemma ex_bat x id : ba_batches (bk_args ex_block) !! x = Some id → x = str "x/"%string ∧ id = 9%N.
Proof.
  change (ba_batches (bk_args ex_block)) with ({[(str "x/"%string : bytes) := 9%N]} : gmap bytes hash).
  intros [<- <-]%lookup_singleton_Some. done.
Qed.
Lemma ex_del k : k ∈ ba_deletes (bk_args ex_block) → k = str "s/b"%string.
Proof.
  change (ba_deletes (bk_args ex_block)) with ({[(str "s/b"%string : bytes)]} : gset bytes).
  by intros ?%elem_of_singleton.
Qed.
Lemma ex_ann id : announced ex_block id → id = 9%N.
Proof. intros [x [_ ->]%ex_bat]. done. Qed.

Lemma ex_wf : wf_block ex_mt ex_block.
Proof.
  constructor.
  - done.
  - done.
  - vm_compute. done.
  - intros p. destruct (decide (p = str "s/"%string)) as [->|Hp]; [rewrite ex_count|rewrite ex_count_other by done]; vm_compute; done.
  - intros id ->%ex_ann. vm_compute. done.
  - intros id ->%ex_ann. done.
  - intros x id [-> ->]%ex_bat. split; [|by apply ex_count_other].
    intros [[H|H]%ex_updom|H%ex_del]; done.
  - intros x [[->| ->]%ex_updom| ->%ex_del] H; done.
  - intros k v [[-> ->]|[-> ->]]%ex_upd; done.
  - intros k H [->| ->]%ex_updom; [done|]. intros ?%ex_del. done.
  - intros k p Hk Hp. pose proof (ex_mt_some _ _ Hp) as ->. 
    split; [|split].
    + destruct Hk as [[->| ->]%ex_updom| ->%ex_del]; done.
    + destruct Hk as [[->| ->]%ex_updom| ->%ex_del]; try done; apply (bool_decide_unpack _); vm_compute; done.
    + intros q _ Hc. destruct (decide (q = str "s/"%string)) as [->|Hq]; [done|]. by rewrite ex_count_other in Hc.
  - intros x y id [-> _]%ex_bat [-> _]%ex_bat. done.
  - intros id i pt k ->%ex_ann Hi. cbn in Hi. destruct i as [|[|i]]; simplify_eq/=.
    + split; [intros v w [<- <-]%lookup_singleton_Some [[? ?]|[? ?]]%ex_upd; done|].
      intros ->%elem_of_list_singleton ?%ex_del. done.
    + split; [intros v w [<- <-]%lookup_singleton_Some [[? ?]|[? ?]]%ex_upd; done|]. intros ?%elem_of_nil. done.
  - intros id i pt id' i' pt' k v v' ->%ex_ann ->%ex_ann Hi Hi'. cbn in Hi, Hi'.
    destruct i as [|[|i]], i' as [|[|i']]; simplify_eq/=;
      intros [<- <-]%lookup_singleton_Some [? <-]%lookup_singleton_Some; done.
Qed.

Definition ex_header : batch :=
  Batch 7 (bigint_bytes 5) 2
    (<[(str "n"%string : bytes) := BR [x02] 0 zero_hash false]> (<[(str "x/"%string : bytes) := BR [] 0 9 false]>
      {[(str "s/"%string : bytes) := BR [] 2 zero_hash false]})).
Lemma ex_is_header : is_header ex_mt ex_block ex_header.
Proof.
  split; [done|]. split; [done|]. split; [done|]. intros k r. split.
  - cbn [b_updates ex_header]. intros [[<- <-]|[_ [[<- <-]|[_ [<- <-]%lookup_singleton_Some]]%lookup_insert_Some]]%lookup_insert_Some.
    + apply HValue; [by vm_compute|done|]. intros ?%ex_del. done.
    + apply HBatch. done.
    + apply (HCount ex_mt ex_block (str "s/"%string)). by rewrite ex_count.
  - destruct 1 as [k v H1 H2 H3|k H1 H2|k id H1|p H1].
    + apply ex_upd in H1 as [[-> ->]|[-> ->]]; done.
    + apply ex_del in H1 as ->. done.
    + apply ex_bat in H1 as [-> ->]. done.
    + destruct (decide (p = str "s/"%string)) as [->|Hp]; [by rewrite ex_count|]. by rewrite ex_count_other in H1.
Qed.

(** The messages of the block (source "t", increasing offsets). *)
Definition ex_msg (i : nat) (kd : message_kind) (v : bytes) : msg := Msg (key_of kd) v (str "t"%string) (Z.of_nat i).
Definition ex_m_header i := ex_msg i (KBatch 1) (encode_batch ex_header (map_to_list (b_updates ex_header))).
Definition ex_m_update i := ex_msg i (KUpdate 1 (str "s/a"%string)) [x01].
Definition ex_m_delete i := ex_msg i (KDelete 1 (str "s/b"%string)) [].
Definition ex_m_subhead i := ex_msg i (KSubHead 1 9) (avro_int 2).
Definition ex_m_part0 i := ex_msg i (KSubMsg 1 9 0) (encode_sub [str "x/d"%string] [(str "x/k"%string, [x03])]).
Definition ex_m_part1 i := ex_msg i (KSubMsg 1 9 1) (encode_sub [] [(str "x/l"%string, [x04])]).

Lemma ex_copies i : Forall (copy_of ex_mt ex_block)
  [ex_m_header i; ex_m_update i; ex_m_delete i; ex_m_subhead i; ex_m_part0 i; ex_m_part1 i].
Proof.
  rewrite !Forall_cons. split_and!; [..|by apply Forall_nil].
  - eexists. split; [reflexivity|]. split; [|vm_compute; done]. apply SentHeader; [exact ex_is_header|done].
  - eexists. split; [reflexivity|]. split; [|vm_compute; done]. by eapply SentUpdate.
  - eexists. split; [reflexivity|]. split; [|vm_compute; done]. eapply SentDelete; [by vm_compute|done].
  - eexists. split; [reflexivity|]. split; [|vm_compute; done]. apply (SentSubHead ex_mt ex_block 9). by exists (str "x/"%string).
  - eexists. split; [reflexivity|]. split; [|vm_compute; done].
    apply (SentSubMsg ex_mt ex_block 9 0 (Part [str "x/d"%string] {[(str "x/k"%string : bytes) := [x03]]}) [(str "x/k"%string, [x03])]); [by exists (str "x/"%string)|done|done].
  - eexists. split; [reflexivity|]. split; [|vm_compute; done].
    apply (SentSubMsg ex_mt ex_block 9 1 (Part [] {[(str "x/l"%string : bytes) := [x04]]}) [(str "x/l"%string, [x04])]); [by exists (str "x/"%string)|done|done].
Qed.

(** Two consumers: one tracks everything, the other nothing below "s/". *)
Definition ex_all : mp_config := MPC 2 (λ _, true) false.
Definition ex_some : mp_config := MPC 2 (λ k, negb (bool_decide (k = str "s/"%string))) false.

(** Parts first, duplicates, and a message of a foreign type. *)
Definition ex_deliveries : list msg :=
  [ex_m_part1 0; ex_m_update 1; ex_m_header 2; ex_m_part0 3; ex_m_update 4; ex_m_subhead 5;
   ex_msg 6 (KReorgDone 1) []; ex_m_header 7; ex_m_part1 8; ex_m_delete 9; ex_m_delete 10].
Definition ex_inputs (ms : list msg) : list mp_input := (λ m, IMsg m id_env) <$> ms.
(** The run of a new consumer; the emitted batches with the data to compare. *)
Definition ex_result (c : mp_config) (ms : list msg) : option (list (Z * hash * list (bytes * bytes) * list bytes)) :=
  match mp_new c 0 with
  | Ok st0 =>
    match mp_run c (ex_inputs ms) st0 with
    | Ok st => Some (omap (λ e, match e with
        | EBatch pb => Some (pb_num pb, pb_hash pb, map_to_list (pb_values pb), elements (pb_deletes pb))
        | _ => None end) (mp_out st))
    | _ => None
    end
  | _ => None
  end.

(** * Reading off results of concrete runs *)
Definition run_new (c : mp_config) (ms : list msg) : outcome mp := st0 ← mp_new c 0; mp_run c (ex_inputs ms) st0.
Lemma run_new_run c ms st : run_new c ms = Ok st → consumer_run c (ex_inputs ms) st.
Proof.
  unfold run_new. destruct (mp_new c 0) as [st0| |] eqn:E; cbn; try done. intros H. by exists 0%Z, st0.
Qed.
Lemma run_new_ok c ms : match run_new c ms with Ok _ => True | _ => False end → ∃ st, run_new c ms = Ok st.
Proof. destruct (run_new c ms); try done. intros _. by eexists. Qed.
Fixpoint first_batch (l : list mp_event) : option pending_batch :=
  match l with [] => None | EBatch pb :: _ => Some pb | _ :: r => first_batch r end.
Lemma first_batch_elem l pb : first_batch l = Some pb → EBatch pb ∈ l.
Proof.
  induction l as [|[h p n c|b|n h] l IH]; cbn; [done|..]; intros H; [apply elem_of_list_further; auto| |apply elem_of_list_further; auto].
  simplify_eq. apply elem_of_list_here.
Qed.
Lemma ex_messages ms : messages (ex_inputs ms) = ms.
Proof. unfold messages, ex_inputs. induction ms as [|m ms IH]; cbn; [done|by f_equal]. Qed.
Lemma ex_inputs_ok ms : Forall input_ok (ex_inputs ms).
Proof. unfold ex_inputs. apply Forall_fmap, Forall_true. intros m. by split. Qed.
Lemma ex_requested ms n : ¬ requested (ex_inputs ms) n.
Proof.
  unfold ex_inputs. intros [(m & E & _)%elem_of_list_fmap|(m & e & k & (m' & E & _)%elem_of_list_fmap & Hn)]; [done|].
  simplify_eq. by apply elem_of_nil in Hn.
Qed.
Lemma ex_faithful : faithful ex_mt ex_block ex_deliveries.
Proof.
  intros m Hm _ _.
  assert (H : ∀ i, m ∈ [ex_m_header i; ex_m_update i; ex_m_delete i; ex_m_subhead i; ex_m_part0 i; ex_m_part1 i] →
    copy_of ex_mt ex_block m).
  { intros i. pose proof (ex_copies i) as Hc. rewrite Forall_forall in Hc. apply Hc. }
  unfold ex_deliveries in Hm. rewrite !elem_of_cons in Hm.
  destruct Hm as [->|[->|[->|[->|[->|[->|[->|[->|[->|[->|[->|Hm]]]]]]]]]]]; 
    [left; apply (H 0)|left; apply (H 1)|left; apply (H 2)|left; apply (H 3)|left; apply (H 4)|left; apply (H 5)|right
    |left; apply (H 7)|left; apply (H 8)|left; apply (H 9)|left; apply (H 10)|]; try (rewrite !elem_of_cons; tauto).
  - exists ReorgCompleteType. split; [done|]. apply (bool_decide_unpack _). by vm_compute.
  - by apply elem_of_nil in Hm.
Qed.

(** * A block with an empty value *)
Definition ex2_updates : gmap bytes bytes := <[(str "s/a"%string : bytes) := []]> {[(str "s/b"%string : bytes) := [x02]]}.
Definition ex2_block : block := Block (BA 7 1 2 5 ex2_updates ∅ ∅) (λ _, []).
Definition ex2_header : batch := Batch 7 (bigint_bytes 5) 2 {[(str "s/"%string : bytes) := BR [] 2 zero_hash false]}.
Definition ex2_deliveries : list msg :=
  [ex_msg 0 (KBatch 1) (encode_batch ex2_header (map_to_list (b_updates ex2_header)));
   ex_msg 1 (KUpdate 1 (str "s/a"%string)) []; ex_msg 2 (KUpdate 1 (str "s/a"%string)) []].
Lemma ex2_upd k v : ex2_updates !! k = Some v → (k = str "s/a"%string ∧ v = []) ∨ (k = str "s/b"%string ∧ v = [x02]).
Proof. unfold ex2_updates. intros [[<- <-]|[_ [<- <-]%lookup_singleton_Some]]%lookup_insert_Some; [by left|by right]. Qed.
Lemma ex2_count_other p : p ≠ str "s/"%string → count_of ex_mt ex2_block p = 0.
Proof.
  intros Hp. unfold count_of.
  assert (H : ∀ S : gset bytes, size (filter (λ k, ex_mt k = Some p) S) = 0).
  { intros S. apply size_empty_iff. intros x. rewrite elem_of_filter. split; [|set_solver].
    intros [?%ex_mt_some _]. done. }
  by rewrite !H.
Qed.
Lemma ex2_count : count_of ex_mt ex2_block (str "s/"%string) = 2.
Proof. vm_compute. reflexivity. Qed.
Lemma ex2_is_header : is_header ex_mt ex2_block ex2_header.
Proof.
  split; [done|]. split; [done|]. split; [done|]. intros k r. split.
  - cbn [b_updates ex2_header]. intros [<- <-]%lookup_singleton_Some. apply (HCount ex_mt ex2_block (str "s/"%string)). by rewrite ex2_count.
  - destruct 1 as [k v H1 H2 H3|k H1 H2|k id H1|p H1].
    + apply ex2_upd in H1 as [[-> ->]|[-> ->]]; done.
    + by apply elem_of_empty in H1.
    + change (ba_batches (bk_args ex2_block)) with (∅ : gmap bytes hash) in H1. by rewrite lookup_empty in H1.
    + destruct (decide (p = str "s/"%string)) as [->|Hp]; [by rewrite ex2_count|]. by rewrite ex2_count_other in H1.
Qed.
Lemma ex2_copies : Forall (copy_of ex_mt ex2_block) ex2_deliveries.
Proof.
  unfold ex2_deliveries. rewrite !Forall_cons. split_and!; [..|by apply Forall_nil].
  - eexists. split; [reflexivity|]. split; [|vm_compute; done]. apply SentHeader; [exact ex2_is_header|done].
  - eexists. split; [reflexivity|]. split; [|vm_compute; done]. by eapply (SentUpdate ex_mt ex2_block).
  - eexists. split; [reflexivity|]. split; [|vm_compute; done]. by eapply (SentUpdate ex_mt ex2_block).
Qed.
