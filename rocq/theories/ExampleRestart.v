(** A consumer that stops after the first of two blocks, and is restarted (C58). *)
From Coq Require Import Strings.String.
From Verif Require Import Base Lru Types Avro AvroFacts Wire SpecWire WireFacts GoPath GoText Producer SpecBlock Consumer SpecCollect SpecToken
  Kafka SpecKafka Feed SpecFeed FeedFacts FeedFacts2 Ordering SpecChain System SpecSystem ExampleBlock
  OrderingBase OrderingFacts OrderingMisc OrderingGrow OrderingPanic SystemFacts PublishFacts ExampleProducer ExampleSystem Restart SpecRestart RestartFacts.
Local Open Scope string_scope.
Local Open Scope list_scope.

(** Runs that handle all messages first and then take all batches *)
Definition seq_run (c : mp_config) (cfg : config) (ms : list msg) : outcome (mp * omp * list (order * omp_input)) :=
  st0 ← mp_new c (cfg_last_num cfg); s0 ← new_omp cfg; st ← mp_run c (ex_inputs ms) st0;
  let l := (λ pb, (id_order, InBatch pb)) <$> sent_batches (mp_out st) in
  s ← omp_run s0 l; Ok (st, s, l).
Lemma seq_runs (P : list pending_batch → bool) c cfg ms : mc_thr c = cfg_threshold cfg →
  match seq_run c cfg ms with Ok (st, s, l) => P (all_added (o_out s)) | _ => false end = true →
  ∃ y, sys_run c cfg y ∧ messages (y_ins y) = ms ∧ batches_of (y_taken y) = sent_batches (mp_out (y_mp y)) ∧ P (all_added (o_out (y_omp y))) = true.
Proof.
  intros Hthr H. unfold seq_run in H.
  destruct (mp_new c (cfg_last_num cfg)) as [st0| |] eqn:E0; try done.
  destruct (new_omp cfg) as [s0| |] eqn:E1; try done.
  cbn [mbind outcome_bind] in *. destruct (mp_run c (ex_inputs ms) st0) as [st| |] eqn:E2; try done. cbn [mbind outcome_bind] in *.
  destruct (omp_run s0 _) as [s| |] eqn:E3; try done. cbn [mbind outcome_bind] in *.
  destruct (in_batches_batches (sent_batches (mp_out st))) as [B1 B2].
  eexists (Sys st s (ex_inputs ms) _). split; [|split; [apply ex_messages|split; [exact B1|exact H]]].
  eapply sys_run_seq; try done.
  - apply Forall_forall. intros i (pb & -> & _)%elem_of_list_fmap. apply id_order_ok.
  - split; [by rewrite B1|]. rewrite B2. apply prefix_nil.
Qed.

(** * The chain: a block without data, and the block of ExampleBlock.v *)
Definition rx_block : block := Block (BA 6 2 4 4 ∅ ∅ ∅) (λ _, []).
Definition rx_header : batch := Batch 6 (bigint_bytes 4) 4 ∅.
Definition rx_new : list block := [rx_block; ex_block].
Lemma rx_ann id : ¬ announced rx_block id.
Proof. intros [x Hx]. cbn in Hx. by rewrite lookup_empty in Hx. Qed.
Lemma rx_count p : count_of ex_mt rx_block p = 0.
Proof. by vm_compute. Qed.
Lemma rx_wf1 : wf_block ex_mt rx_block.
Proof.
  constructor.
  - done.
  - done.
  - vm_compute. done.
  - intros p. rewrite rx_count. vm_compute. done.
  - intros id H. by apply rx_ann in H.
  - intros id H. by apply rx_ann in H.
  - intros x id Hx. exfalso. apply (rx_ann id). by exists x.
  - intros x _ _. apply rx_count.
  - intros k v H. cbn in H. by rewrite lookup_empty in H.
  - intros k H _ H2. by apply not_elem_of_empty in H2.
  - intros k p [H|H]; [cbn in H; rewrite dom_empty in H|]; by apply not_elem_of_empty in H.
  - intros x y id Hx. exfalso. apply (rx_ann id). by exists x.
  - intros id i pt k H. by apply rx_ann in H.
  - intros id i pt id' i' pt' k v v' H. by apply rx_ann in H.
Qed.
Lemma rx_wf b : b ∈ [] ++ rx_new → wf_block ex_mt b.
Proof. intros [->|[->|?%elem_of_nil]%elem_of_cons]%elem_of_cons; [apply rx_wf1|apply ex_wf|done]. Qed.
Lemma rx_is_header : is_header ex_mt rx_block rx_header.
Proof.
  split; [done|]. split; [done|]. split; [done|]. intros k r. split; [cbn [rx_header b_updates]; by rewrite lookup_empty|].
  destruct 1 as [k v H1 H2 H3|k H1 H2|k id H1|p H1].
  - cbn in H1. by rewrite lookup_empty in H1.
  - by apply not_elem_of_empty in H1.
  - cbn in H1. by rewrite lookup_empty in H1.
  - by rewrite rx_count in H1.
Qed.
Lemma rx_chain : chain_from 4 5 3 ([] ++ rx_new).
Proof. by vm_compute. Qed.
Lemma rx_nodup : NoDup (4%N :: map bk_hash ([] ++ rx_new)).
Proof. apply (bool_decide_unpack _). by vm_compute. Qed.
Definition rx_cfg : config := Config 5 4 3 2 ∅.
Definition rx_cfg2 : config := Config 6 2 4 2 ∅.

(** * The feed: the second partition is ahead of the first *)
Definition rx_f (m : msg) : fmsg := FM (m_off m) (m_key m) (m_val m).
Definition rx_m0 : msg := Msg (key_of (KBatch 2)) (encode_batch rx_header []) (str "p") 0.
Definition rx_q (m : msg) : msg := Msg (m_key m) (m_val m) (str "q") (m_off m).
Definition rx_old : list msg := rx_q <$> [ex_m_header 5; ex_m_update 6].
Definition rx_late : list msg := rx_q <$> [ex_m_delete 7; ex_m_subhead 8; ex_m_part0 9; ex_m_part1 10].
Definition rx_feed : list fpart :=
  [FPt (str "p") (FL (Prt 0 1) [rx_f rx_m0]) true [];
   FPt (str "q") (FL (Prt 5 7) (rx_f <$> rx_old)) true (rx_f <$> rx_late)].
(** what was read before the consumer stopped *)
Definition rx_before : list msg := rx_old ++ [rx_m0].
Definition rx_all_msgs : list msg := rx_before ++ rx_late.

Lemma rx_copies m : m ∈ rx_all_msgs → ∃ b, b ∈ rx_new ∧ copy_of ex_mt b m.
Proof.
  assert (Hc : ∀ i j x, [ex_m_header i; ex_m_update i; ex_m_delete i; ex_m_subhead i; ex_m_part0 i; ex_m_part1 i] !! j = Some x →
    copy_of ex_mt ex_block (rx_q x)).
  { intros i j x Hx. assert (H := ex_copies i). rewrite Forall_lookup in H. exact (H j x Hx). }
  unfold rx_all_msgs, rx_before, rx_old, rx_late. intros H.
  repeat (apply elem_of_cons in H as [->|H]); [..|by apply elem_of_nil in H].
  1: exists ex_block; split; [right; left|apply (Hc 5 0); done].
  1: exists ex_block; split; [right; left|apply (Hc 6 1); done].
  1: { exists rx_block. split; [left|]. eexists. split; [reflexivity|]. split; [|vm_compute; done]. apply SentHeader; [exact rx_is_header|done]. }
  1: exists ex_block; split; [right; left|apply (Hc 7 2); done].
  1: exists ex_block; split; [right; left|apply (Hc 8 3); done].
  1: exists ex_block; split; [right; left|apply (Hc 9 4); done].
  exists ex_block; split; [right; left|apply (Hc 10 5); done].
Qed.
Lemma rx_only_all : only_from ex_mt ([] ++ rx_new) rx_all_msgs.
Proof.
  intros m Hm. destruct (rx_copies m Hm) as (b & Hb & Hc). cbn [app].
  assert (Hh : hash_ok (bk_hash b)) by apply (wf_hash _ _ (rx_wf b Hb)).
  assert (Hc' := Hc). destruct Hc as (k & Ek & Hs & _). destruct (key_about _ _ _ _ Hh Hs) as (H1 & H2 & H3).
  unfold reorg_type, about. rewrite Ek. split; [done|]. split; [done|]. exists b. split; [done|]. split; [done|by left].
Qed.
Lemma rx_only : only_from ex_mt ([] ++ rx_new) rx_before.
Proof. intros m Hm. apply rx_only_all. unfold rx_all_msgs. apply elem_of_app. by left. Qed.
Lemma rx_feed_ok : feed_ok rx_feed.
Proof.
  split.
  - intros f [->|[->|?%elem_of_nil]%elem_of_cons]%elem_of_cons; [| |done]; (split; [done|split; repeat constructor; cbn; lia]).
  - intros f m [->|[->|?%elem_of_nil]%elem_of_cons]%elem_of_cons; [by intros ?%elem_of_nil| |done]. intros H. cbn in H.
    repeat (apply elem_of_cons in H as [->|H]); [cbn; lia..|by apply elem_of_nil in H].
  - apply (bool_decide_unpack _). by vm_compute.
  - intros f [->|[->|?%elem_of_nil]%elem_of_cons]%elem_of_cons; [| |done]; split; apply (bool_decide_unpack _); by vm_compute.
Qed.
Lemma rx_feed_from : feed_from ex_mt ([] ++ rx_new) rx_feed.
Proof.
  intros f m Hf Hm _ x ->%elem_of_list_singleton. apply rx_only_all. apply elem_of_cons in Hf as [->|Hf].
  - apply elem_of_list_singleton in Hm as ->. right; right; left.
  - apply elem_of_list_singleton in Hf as ->. cbn in Hm. unfold rx_all_msgs, rx_before, rx_old, rx_late.
    repeat (apply elem_of_cons in Hm as [->|Hm]); [..|by apply elem_of_nil in Hm]; cbn; repeat (apply elem_of_list_here || apply elem_of_list_further).
Qed.
Lemma rx_read : read_before rx_before rx_feed.
Proof.
  intros m Hm. unfold rx_before, rx_old in Hm.
  repeat (apply elem_of_cons in Hm as [->|Hm]); [| | |by apply elem_of_nil in Hm].
  - eexists. split; [right; left|]. split; [done|]. split; [cbn; lia|vm_compute; done].
  - eexists. split; [right; left|]. split; [done|]. split; [cbn; lia|vm_compute; done].
  - eexists. split; [left|]. split; [done|]. split; [cbn; lia|vm_compute; done].
Qed.

(** * The first life *)
Definition rx_facts (pb : pending_batch) : Prop :=
  pb_hash pb = 2%N ∧ pb_weight pb = 4%N ∧ pb_res pb = {[(str "p" : bytes) := 0%Z]} ∧
  pb_resdef pb = <[(str "p" : bytes) := 0%Z]> {[(str "q" : bytes) := 6%Z]}.
#[local] Instance rx_facts_dec pb : Decision (rx_facts pb).
Proof. unfold rx_facts. apply _. Defined.
Definition rx_one (l : list pending_batch) : bool := match l with [pb] => bool_decide (rx_facts pb) | _ => false end.
Lemma rx_first : ∃ y pb, sys_run ex_all rx_cfg y ∧ messages (y_ins y) = rx_before ∧ all_added (o_out (y_omp y)) = [] ++ pb :: [] ∧ rx_facts pb.
Proof.
  destruct (seq_runs rx_one ex_all rx_cfg rx_before) as (y & H1 & H2 & _ & H3); [done|by vm_compute|].
  unfold rx_one in H3. destruct (all_added (o_out (y_omp y))) as [|pb [|? ?]] eqn:E; try done.
  exists y, pb. split; [done|]. split; [done|]. split; [done|]. exact (bool_decide_eq_true_1 _ H3).
Qed.

(** * The partitions of the second life *)
Definition rx_done (m0 x : fmsg) (rest : list fmsg) (s0 s1 : Z) : warming :=
  WM [WP [] None true s0; WP [] None true s1] ([(0, m0); (1, x)] ++ map (pair 1) rest).
Lemma rx_warm m0 x rest s0 s1 : (s0 ≤ fm_off m0)%Z → (s1 ≤ fm_off x)%Z →
  rtc warm_step (warm_init [([m0], s0); (x :: rest, s1)]) (rx_done m0 x rest s0 s1).
Proof.
  intros H0 H1.
  eapply rtc_l. { eapply (WArrive _ _ 0); [reflexivity|done]. }
  eapply rtc_l. { eapply (WArrive _ _ 1); [reflexivity|done]. }
  eapply rtc_l. { eapply (WRelease _ _ 0); [reflexivity|]. constructor; [by right|]. constructor; [by right|constructor]. }
  eapply rtc_l. { eapply (WRelease _ _ 1); [reflexivity|]. constructor; [by left|]. constructor; [by right|constructor]. }
  enough (Hp : ∀ out, rtc warm_step (WM [WP [] None true s0; WP rest None true s1] out) (WM [WP [] None true s0; WP [] None true s1] (out ++ map (pair 1) rest)))
    by (apply (Hp [(0, m0); (1, x)])).
  clear. induction rest as [|y rest IH]; intros out.
  - rewrite app_nil_r. apply rtc_refl.
  - eapply rtc_l. { eapply (WPass _ _ 1); [reflexivity|by left]. }
    replace (out ++ map (pair 1) (y :: rest)) with ((out ++ [(1, y)]) ++ map (pair 1) rest) by (by rewrite <- app_assoc). apply IH.
Qed.
Lemma rx_stuck m0 x rest s0 s1 s' : ¬ warm_step (rx_done m0 x rest s0 s1) s'.
Proof. intros H. inversion H as [? ? i ? ? ? Hi|? ? i ? ? ? Hi|? ? i ? ? ? ? Hi]; subst; destruct i as [|[|i]]; discriminate Hi. Qed.
Lemma rx_all_out m0 x rest s0 s1 i : i < 2 → put_out i (wm_out (rx_done m0 x rest s0 s1)) ≠ [].
Proof. intros Hi. destruct i as [|[|i]]; [done|done|lia]. Qed.

Definition rx_tok : gmap bytes Z := {[(str "p" : bytes) := 0%Z]} ∪ <[(str "p" : bytes) := 0%Z]> {[(str "q" : bytes) := 6%Z]}.
(** One offset back is enough here, *)
Lemma rx_open1 : open_all rx_tok 1 2%N rx_feed = Some [([rx_f rx_m0], (-2)%Z); (rx_f <$> rx_old ++ rx_late, 5%Z)].
Proof. by vm_compute. Qed.
(** but without any the header of the second block is left out. *)
Lemma rx_open0 : open_all rx_tok 0 2%N rx_feed = Some [([rx_f rx_m0], 0%Z); (rx_f <$> drop 1 rx_old ++ rx_late, 6%Z)].
Proof. by vm_compute. Qed.

Lemma rx_life rb x rest s0 s1 ms t (P : list pending_batch → bool) :
  parse_token t = Some rx_tok → open_all rx_tok rb 2%N rx_feed = Some [([rx_f rx_m0], s0); (x :: rest, s1)] →
  (s0 ≤ 0)%Z → (s1 ≤ fm_off x)%Z → loop_messages rx_feed (wm_out (rx_done (rx_f rx_m0) x rest s0 s1)) = ms →
  match seq_run ex_all rx_cfg2 ms with Ok (st, s, l) => P (all_added (o_out s)) | _ => false end = true →
  ∃ s y, kafka_life ex_all rx_cfg2 t rb rx_feed s y ∧ (∀ s', ¬ warm_step s s') ∧ (∀ i, i < length rx_feed → put_out i (wm_out s) ≠ []) ∧
    messages (y_ins y) = loop_messages rx_feed (wm_out s) ∧ batches_of (y_taken y) = sent_batches (mp_out (y_mp y)) ∧ P (all_added (o_out (y_omp y))) = true.
Proof.
  intros Ht Ho H0 H1 Hl Hr. destruct (seq_runs P ex_all rx_cfg2 ms) as (y & Y1 & Y2 & Y3 & Y4); [done|done|].
  exists (rx_done (rx_f rx_m0) x rest s0 s1), y. split.
  - exists rx_tok. eexists. split; [done|]. split; [exact Ho|]. split; [by apply rx_warm|]. split; [done|]. by rewrite Y2, Hl.
  - split; [apply rx_stuck|]. split; [intros i Hi; by apply rx_all_out|]. split; [by rewrite Y2, Hl|]. by split.
Qed.
Definition rx_hashes (hs : list hash) (l : list pending_batch) : bool := bool_decide (map pb_hash l = hs).
Lemma rx_life1 t : parse_token t = Some rx_tok →
  ∃ s y, kafka_life ex_all rx_cfg2 t 1 rx_feed s y ∧ (∀ s', ¬ warm_step s s') ∧ (∀ i, i < length rx_feed → put_out i (wm_out s) ≠ []) ∧
    messages (y_ins y) = loop_messages rx_feed (wm_out s) ∧ batches_of (y_taken y) = sent_batches (mp_out (y_mp y)) ∧
    map pb_hash (all_added (o_out (y_omp y))) = [1%N].
Proof.
  intros Ht. destruct (rx_life 1 (rx_f (rx_q (ex_m_header 5))) (rx_f <$> drop 1 rx_old ++ rx_late) (-2)%Z 5%Z (rx_m0 :: rx_old ++ rx_late) t (rx_hashes [1%N]))
    as (s & y & H1 & H2 & H3 & H4 & H5 & H6); [done|exact rx_open1|lia|cbn; lia|by vm_compute|by vm_compute|].
  exists s, y. split_and!; try done. exact (bool_decide_eq_true_1 _ H6).
Qed.
Lemma rx_life0 t : parse_token t = Some rx_tok →
  ∃ s y, kafka_life ex_all rx_cfg2 t 0 rx_feed s y ∧ (∀ s', ¬ warm_step s s') ∧ (∀ i, i < length rx_feed → put_out i (wm_out s) ≠ []) ∧
    messages (y_ins y) = loop_messages rx_feed (wm_out s) ∧ batches_of (y_taken y) = sent_batches (mp_out (y_mp y)) ∧
    map pb_hash (all_added (o_out (y_omp y))) = [].
Proof.
  intros Ht. destruct (rx_life 0 (rx_f (rx_q (ex_m_update 6))) (rx_f <$> rx_late) 0%Z 6%Z (rx_m0 :: drop 1 rx_old ++ rx_late) t (rx_hashes []))
    as (s & y & H1 & H2 & H3 & H4 & H5 & H6); [done|exact rx_open0|lia|cbn; lia|by vm_compute|by vm_compute|].
  exists s, y. split_and!; try done. exact (bool_decide_eq_true_1 _ H6).
Qed.

(** * What is in reach *)
Lemma rx_marks m : marks rx_before 2%N m → m ∈ rx_before.
Proof. apply marks_read. Qed.
Lemma rx_held : marks_held rx_before 2%N rx_feed.
Proof.
  intros f m Hf Hm%rx_marks Es. unfold rx_before, rx_old in Hm.
  apply elem_of_cons in Hf as [->|[->|?%elem_of_nil]%elem_of_cons]; [| |done];
    (repeat (apply elem_of_cons in Hm as [->|Hm]); [..|by apply elem_of_nil in Hm]); try discriminate Es; by vm_compute.
Qed.
Lemma rx_kinds kd : needed ex_mt ex_block (mc_tracked ex_all) kd → ∃ m, m ∈ rx_old ++ rx_late ∧ m_key m = key_of kd.
Proof.
  assert (A : ∀ j m, (rx_old ++ rx_late) !! j = Some m → m ∈ rx_old ++ rx_late) by (intros j m; by apply elem_of_list_lookup_2).
  destruct 1 as [|k p Hk Hp _|k p Hk _ _|id Hid|id i Hid Hi].
  - eexists. split; [by apply (A 0)|done].
  - apply ex_updom in Hk as [->| ->]; [|done]. eexists. split; [by apply (A 1)|done].
  - apply ex_del in Hk as ->. eexists. split; [by apply (A 2)|done].
  - destruct Hid as (x & Hx & _). apply ex_bat in Hx as [_ ->]. eexists. split; [by apply (A 3)|done].
  - destruct Hid as (x & Hx & _). apply ex_bat in Hx as [_ ->]. change (length (bk_parts ex_block 9%N)) with 2 in Hi. destruct i as [|[|i]]; [| |lia].
    + eexists. split; [by apply (A 4)|done].
    + eexists. split; [by apply (A 5)|done].
Qed.
Lemma rx_reachable b kd : b ∈ drop 1 rx_new → needed ex_mt b (mc_tracked ex_all) kd → reachable 1 rx_before 2%N rx_feed kd.
Proof.
  intros ->%elem_of_list_singleton Hn. destruct (rx_kinds kd Hn) as (m & Hm & Ek).
  eexists. exists (rx_f m). split; [right; left|]. split; [|split; [exact Ek|]].
  - unfold fp_all. cbn [fp_log fl_msgs fp_new]. rewrite <- fmap_app. by apply elem_of_list_fmap_1.
  - assert (Hoff : (5 ≤ fm_off (rx_f m))%Z).
    { unfold rx_old, rx_late in Hm. repeat (apply elem_of_cons in Hm as [->|Hm]); [by vm_compute..|by apply elem_of_nil in Hm]. }
    intros m' Hm'%rx_marks Es. unfold rx_before, rx_old in Hm'.
    repeat (apply elem_of_cons in Hm' as [->|Hm']); [..|by apply elem_of_nil in Hm'];
      [left; cbn in *; lia|right; cbn in *; split; [lia|left; lia]|discriminate Es].
Qed.
