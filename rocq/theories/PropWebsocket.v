(** C36, C37, C38: the websocket transport. *)
From Coq Require Import Strings.String.
From Verif Require Import Base Types Producer Websocket SpecWebsocket.
From Verif Require Import WebsocketFacts WebsocketFacts2 WebsocketFacts3 WebsocketFacts4 WebsocketFacts5.

(** * C36: assembly *)

(** Whatever the order in which the messages of one connection arrive, a block is handed over
    exactly once when its batch message and all its sub-batches have arrived, with the union of the
    data, and nothing else is handed over.  (Every prefix of a delivery is a delivery.) *)
Theorem C36_assembled st0 ds :
  clean (items ds) → orders_ok ds →
  ∃ new, blocks_out (wsc_run (wsc_connect st0) ds) = blocks_out st0 ++ new ∧
    (∀ b, all_arrived (items ds) b →
       ∃ pb, filter (λ pb, pb_hash pb = tb_hash b) new = [pb] ∧ assembled (items ds) b pb) ∧
    (∀ pb, pb ∈ new → ∃ b, all_arrived (items ds) b ∧ pb_hash pb = tb_hash b).
Proof. exact (assembly st0 ds). Qed.
Print Assumptions C36_assembled.

(** ... at the arrival of the last part. *)
Theorem C36_last_part st0 ds d b :
  clean (items (ds ++ [d])) → orders_ok (ds ++ [d]) →
  ¬ all_arrived (items ds) b → all_arrived (items (ds ++ [d])) b →
  ∃ pb, blocks_out (wsc_run (wsc_connect st0) (ds ++ [d])) =
        blocks_out (wsc_run (wsc_connect st0) ds) ++ [pb] ∧ assembled (items (ds ++ [d])) b pb.
Proof. exact (assembly_last st0 ds d b). Qed.
Print Assumptions C36_last_part.

(** When the sub-batches do not contradict one another the values are determined. *)
Theorem C36_values l b pb :
  assembled l b pb →
  (∀ s1 s2 k v1 v2, part_of l b s1 → part_of l b s2 →
     ts_values s1 !! k = Some v1 → ts_values s2 !! k = Some v2 → v1 = v2) →
  ∀ k v, pb_values pb !! k = Some v ↔
    (∃ s, part_of l b s ∧ ts_values s !! k = Some v) ∨
    (tb_values b !! k = Some v ∧ ∀ s, part_of l b s → ts_values s !! k = None).
Proof. exact (assembled_exact l b pb). Qed.
Print Assumptions C36_values.

(** From the calls on the producer to the blocks handed over: all messages of a producer used with
    distinct hashes and identifiers, in any order. *)
Theorem C36_submitted cs ds st0 :
  calls_wf cs → Forall utf8_call cs → orders_ok ds →
  items ds ≡ₚ json_item <$> p_sent (wsp_run cs) →
  ∃ new, blocks_out (wsc_run (wsc_connect st0) ds) = blocks_out st0 ++ new ∧
    (∀ a, all_answered cs a →
       ∃ pb, filter (λ pb, pb_hash pb = ba_hash a) new = [pb] ∧ submitted cs a pb) ∧
    (∀ pb, pb ∈ new → ∃ a, all_answered cs a ∧ pb_hash pb = ba_hash a).
Proof. exact (end_to_end cs ds st0). Qed.
Print Assumptions C36_submitted.

(** What the producer puts on its feed. *)
Theorem C36_sent cs : calls_wf cs →
  clean (p_sent (wsp_run cs)) ∧
  (∀ s, ISub s ∈ p_sent (wsp_run cs) ↔
     ∃ a, answered cs a (ts_id s) (ts_deletes s) (ts_values s) ∧ ts_hash s = ba_hash a) ∧
  (∀ id, is_Some (p_expect (wsp_run cs) !! id) ↔
     ∃ a, added cs a ∧ has_id a id ∧ ∀ d u, ¬ answered cs a id d u).
Proof.
  intros W. split; [by apply producer_clean|]. destruct (producer_inv cs W) as (I1 & I2 & _).
  split; [exact I2|]. intros id. split.
  - intros (h & H). apply I1 in H as (a & X1 & X2 & _ & X3). by exists a.
  - intros (a & X1 & X2 & X3). exists (ba_hash a). apply I1. by exists a.
Qed.
Print Assumptions C36_sent.

(** A string survives the transport iff it is well-formed UTF-8. *)
Theorem C36_strings l : json_string l = l ↔ utf8 l.
Proof. exact (json_string_exact l). Qed.
Print Assumptions C36_strings.

(** ** Where assembly fails *)
Definition keep : list hash → list hash := λ l, l.
Definition dl (l : list item) : list delivery := (λ i, (keep, i)) <$> l.
Lemma dl_ok l : orders_ok (dl l).
Proof. apply Forall_forall. intros d H. apply elem_of_list_fmap in H as (i & -> & _). by intros l'. Qed.
Definition kv (k v : string) : gmap bytes bytes := {[str k := str v]}.

Definition wb1 : tbatch := TB 1 5 101 100 (kv "k" "v") [str "d"] {[str "p/" := 11%N; str "q/" := 12%N]}.
Definition ws11 : tsub := TS 101 11 (kv "p/a" "1") [].
Definition ws12 : tsub := TS 101 12 (kv "q/a" "2") [str "q/b"].
Definition wb2 : tbatch := TB 2 6 102 101 (kv "l" "w") [] ∅.

(** One identifier under two prefixes: the sub-batch arrives first, the block never completes. *)
Definition wshared : tbatch := TB 1 5 101 100 ∅ [] {[str "p/" := 11%N; str "q/" := 11%N]}.
Theorem C36_shared_id_refuted : ∃ b s,
  all_arrived [ISub s; IBatch b] b ∧ NoDup (tb_hash <$> batches_in [ISub s; IBatch b]) ∧
  (∃ pb, blocks_out (wsc_run (wsc_new 0 100) (dl [IBatch b; ISub s])) = [pb]) ∧
  blocks_out (wsc_run (wsc_new 0 100) (dl [ISub s; IBatch b])) = [].
Proof.
  exists wshared, ws11. split; [|split; [|split]].
  - split; [apply elem_of_list_further, elem_of_list_here|]. intros id (p & Hp).
    exists ws11. split; [apply elem_of_list_here|].
    simpl in Hp. apply lookup_insert_Some in Hp as [[_ Hp]|[_ Hp]]; [exact Hp|].
    by apply lookup_singleton_Some in Hp as [_ Hp].
  - cbn. apply NoDup_singleton.
  - eexists. vm_compute. reflexivity.
  - vm_compute. reflexivity.
Qed.
Print Assumptions C36_shared_id_refuted.

(** A batch message received twice while its sub-batches are outstanding: the parts received before
    the repetition are lost and the block never completes. *)
Theorem C36_repeated_batch_refuted : ∃ l b,
  all_arrived l b ∧ blocks_out (wsc_run (wsc_new 0 100) (dl l)) = [].
Proof.
  exists [IBatch wb1; ISub ws11; IBatch wb1; ISub ws12], wb1. split.
  - split; [apply elem_of_list_here|]. intros id (p & Hp).
    simpl in Hp. apply lookup_insert_Some in Hp as [[_ Hp]|[_ Hp]].
    + exists ws11. split; [apply elem_of_list_further, elem_of_list_here|exact Hp].
    + apply lookup_singleton_Some in Hp as [_ Hp]. exists ws12.
      split; [do 3 apply elem_of_list_further; apply elem_of_list_here|exact Hp].
  - vm_compute. reflexivity.
Qed.
Print Assumptions C36_repeated_batch_refuted.

(** A complete block received twice is handed over twice. *)
Theorem C36_twice_refuted : ∃ b, length (blocks_out (wsc_run (wsc_new 0 100) (dl [IBatch b; IBatch b]))) = 2.
Proof. exists wb2. vm_compute. reflexivity. Qed.
Print Assumptions C36_twice_refuted.

(** Two different submitted keys become one; a submitted key is not among the received ones. *)
Definition wbin : tbatch := TB 1 5 101 100 {[ [xff] := str "1"; [xfe] := str "2" ]} [] ∅.
Theorem C36_binary_keys_refuted : ∃ b k, is_Some (tb_values b !! k) ∧
  match json_item (IBatch b) with
  | IBatch b' => tb_values b' !! k = None ∧ size (tb_values b') < size (tb_values b)
  | _ => False
  end.
Proof. exists wbin, [xff]. split; [by eexists|]. vm_compute. split; [reflexivity|]. lia. Qed.
Print Assumptions C36_binary_keys_refuted.

(** ** A case *)
Definition wa1 : block_args := BA 1 101 100 5 (kv "k" "v") {[str "d"]} {[str "p/" := 11%N; str "q/" := 12%N]}.
Definition wa2 : block_args := BA 2 102 101 6 (kv "l" "w") ∅ ∅.
Definition wcs : list wcall :=
  [WAdd (λ l, l) wa1; WSend 99 [] ∅; WAdd (λ l, l) wa2; WSend 12 [str "q/b"] (kv "q/a" "2");
   WReorgCall 3 7; WSend 11 [] (kv "p/a" "1"); WSend 11 [] (kv "p/a" "again")].
Lemma wcs_wf : calls_wf wcs.
Proof.
  constructor.
  - apply (bool_decide_unpack _). by vm_compute.
  - apply (bool_decide_unpack _). by vm_compute.
  - intros od a H. repeat (apply elem_of_cons in H as [H|H]; [first [discriminate H|injection H as -> _; by intros l]|]).
    by apply elem_of_nil in H.
Qed.

Lemma utf8_ascii_string l : forallb (in_range 0 127) l = true → utf8 l.
Proof.
  induction l as [|b l IH]; [constructor|]. cbn. intros [H1 H2]%andb_true_iff. apply utf8_ascii; [by apply in_range_between|by apply IH].
Qed.
Lemma utf8_ascii_keys {V} (m : gmap bytes V) : forallb (λ kv, forallb (in_range 0 127) (fst kv)) (map_to_list m) = true → utf8_keys m.
Proof.
  intros H k (v & Hv). apply elem_of_map_to_list in Hv. rewrite forallb_forall in H.
  apply utf8_ascii_string. apply (H (k, v)). by apply elem_of_list_In.
Qed.
Lemma wcs_utf8 : Forall utf8_call wcs.
Proof.
  repeat (apply Forall_cons; split); try apply Forall_nil; cbn; try exact I.
  - split; [apply utf8_ascii_keys; by vm_compute|]. split; [apply utf8_ascii_keys; by vm_compute|].
    intros k ->%elem_of_singleton. apply utf8_ascii_string. by vm_compute.
  - split; [apply utf8_ascii_keys; by vm_compute|constructor].
  - split; [apply utf8_ascii_keys; by vm_compute|]. split; [apply utf8_ascii_keys; by vm_compute|].
    by intros k ?%elem_of_empty.
  - split; [apply utf8_ascii_keys; by vm_compute|]. repeat constructor; cbn; unfold between; cbn; lia.
  - split; [apply utf8_ascii_keys; by vm_compute|constructor].
  - split; [apply utf8_ascii_keys; by vm_compute|constructor].
Qed.

(** A sub-batch before its batch, the other after it, another block in between. *)
Example C36_case :
  calls_wf wcs ∧ Forall utf8_call wcs ∧
  p_sent (wsp_run wcs) = [IBatch wb1; IBatch wb2; ISub ws12; IReorg 3 7; ISub ws11] ∧
  (λ st, (pb_hash <$> blocks_out st, c_num st, c_hash st)) <$>
    [wsc_run (wsc_new 0 100) (dl [ISub ws12; IBatch wb1; IBatch wb2; IReorg 3 7]);
     wsc_run (wsc_new 0 100) (dl [ISub ws12; IBatch wb1; IBatch wb2; IReorg 3 7; ISub ws11])] =
  [([102%N], 2%Z, 102%N); ([102%N; 101%N], 1%Z, 101%N)].
Proof. split; [exact wcs_wf|]. split; [exact wcs_utf8|]. split; vm_compute; reflexivity. Qed.

Example C36_case_data :
  map (λ pb, (pb_hash pb, bool_decide (pb_values pb = {[str "k" := str "v"; str "p/a" := str "1"; str "q/a" := str "2"]}),
              bool_decide (pb_deletes pb = {[str "d"; str "q/b"]})))
    (filter (λ pb, pb_hash pb = 101%N) (blocks_out (wsc_run (wsc_new 0 100) (dl [ISub ws12; IBatch wb1; IBatch wb2; ISub ws11])))) =
  [(101%N, true, true)].
Proof. vm_compute. reflexivity. Qed.

(** * C37: reconnection *)

(** The position from which a new connection resumes is that of the block handed over last,
    whatever was received. *)
Theorem C37_remembered l n h : let st := wsc_sessions (wsc_new n h) l in
  (c_num st, c_hash st) = from_option (λ pb, (pb_num pb, pb_hash pb)) (n, h) (last (blocks_out st)).
Proof. exact (sessions_last l n h). Qed.
Print Assumptions C37_remembered.

(** If the messages of a block are contiguous, then however often and wherever the connection is
    cut, the blocks handed over are the first blocks of the chain, each once and in order, and the
    next connection resumes at the first block that was not completed.
    Missing for the full claim: interleaved blocks (refuted below). *)
Theorem C37_contiguous_partial chain n0 h0 l :
  NoDup (wb_hash <$> chain) → h0 ∉ wb_hash <$> chain →
  sessions_ok chain n0 h0 (wsc_new n0 h0) l →
  ∃ n, n ≤ length chain ∧ resume_at chain n0 h0 (wsc_sessions (wsc_new n0 h0) l) n ∧
    Forall2 block_done (take n chain) (blocks_out (wsc_sessions (wsc_new n0 h0) l)).
Proof.
  intros N Hh Hok.
  destruct (sessions_prefix chain n0 h0 N Hh l (wsc_new n0 h0) 0) as (n & _ & X1 & X2 & X3);
    [lia|by left|constructor|exact Hok|]. by exists n.
Qed.
Print Assumptions C37_contiguous_partial.

(** A connection that is not cut before the end hands over the rest of the chain. *)
Theorem C37_caught_up chain st n ds :
  caught_up chain n (items ds) → orders_ok ds →
  ∃ pbs, blocks_out (wsc_run (wsc_connect st) ds) = blocks_out st ++ pbs ∧ Forall2 block_done (drop n chain) pbs.
Proof.
  intros (groups & HF & E) Ho. destruct (groups_all _ groups (wsc_connect st) ds HF E Ho) as (pbs & H1 & H2); [done|].
  exists pbs. by rewrite H1, connect_blocks.
Qed.
Print Assumptions C37_caught_up.

(** A block whose sub-batch is outstanding when the next block completes is behind the remembered
    position when the connection breaks. *)
Theorem C37_refuted : ∃ cs a1 a2 k,
  calls_wf cs ∧ all_answered cs a1 ∧ all_answered cs a2 ∧ ba_parent a2 = ba_hash a1 ∧
  let st := wsc_run (wsc_new 0 100) (dl (take k (p_sent (wsp_run cs)))) in
  (c_num st, c_hash st) = (ba_num a2, ba_hash a2) ∧ pb_hash <$> blocks_out st = [ba_hash a2].
Proof.
  exists wcs, wa1, wa2, 2. split; [exact wcs_wf|]. split; [|split; [|split; [done|]]].
  - split; [exists (λ l, l); apply elem_of_list_here|]. intros id (p & Hp).
    simpl in Hp. apply lookup_insert_Some in Hp as [[_ Hp]|[_ Hp]].
    + subst id. exists [], (kv "p/a" "1"). split; [by exists (str "p/")|].
      exists [], (λ l, l), [WSend 99 [] ∅; WAdd (λ l, l) wa2; WSend 12 [str "q/b"] (kv "q/a" "2"); WReorgCall 3 7],
        [WSend 11 [] (kv "p/a" "again")]. split; [done|].
      intros d u H. repeat (apply elem_of_cons in H as [H|H]; [discriminate H|]). by apply elem_of_nil in H.
    + apply lookup_singleton_Some in Hp as [_ Hp]. subst id. exists [str "q/b"], (kv "q/a" "2").
      split; [exists (str "q/"); vm_compute; reflexivity|].
      exists [], (λ l, l), [WSend 99 [] ∅; WAdd (λ l, l) wa2],
        [WReorgCall 3 7; WSend 11 [] (kv "p/a" "1"); WSend 11 [] (kv "p/a" "again")]. split; [done|].
      intros d u H. repeat (apply elem_of_cons in H as [H|H]; [discriminate H|]). by apply elem_of_nil in H.
  - split; [exists (λ l, l); apply elem_of_list_further, elem_of_list_further, elem_of_list_here|].
    intros id (p & Hp). simpl in Hp. by rewrite lookup_empty in Hp.
  - vm_compute. split; reflexivity.
Qed.
Print Assumptions C37_refuted.

(** Cut in the middle of the first block, resumed; cut behind the second, resumed. *)
Definition wblk1 : wblock := WB wb1 [ws11; ws12].
Definition wblk2 : wblock := WB wb2 [].
Definition wchain : list wblock := [wblk1; wblk2].
Lemma wb2_whole : whole wblk2 wb2.
Proof.
  split; [done|]. exists (to_pending wb2).
  assert (Hno : ∀ s, ¬ part_of (wb_items wblk2) wb2 s).
  { intros s [_ (p & Hs)]. cbn in Hs. rewrite lookup_empty in Hs. discriminate Hs. }
  split; [|split; [done|split; [done|split; [done|split; [done|split; [done|]]]]]].
  - constructor; try done.
    + intros k. cbn. split; [|intros [H|(s & Hs & _)]; [by apply elem_of_nil in H|by apply Hno in Hs]].
      intros H. by apply elem_of_empty in H.
    + intros k v H. right. split; [exact H|]. intros s Hs. by apply Hno in Hs.
    + intros k. split; [by left|]. intros [H|(s & Hs & _)]; [done|by apply Hno in Hs].
  - intros k. cbn. split; intros H; [by apply elem_of_nil in H|by apply elem_of_empty in H].
Qed.
Lemma wb1_msgs : block_msgs wb1 [ws12; ws11].
Proof.
  constructor.
  - apply (bool_decide_unpack _). by vm_compute.
  - apply (bool_decide_unpack _). by vm_compute.
  - repeat constructor.
Qed.
Definition wlife : list (list delivery) :=
  [dl [IReady; IBatch wb1; ISub ws12]; dl [IBatch wb1; ISub ws12; ISub ws11; IBatch wb2]; dl []].
Lemma wlife_ok : sessions_ok wchain 0 100 (wsc_new 0 100) wlife.
Proof.
  assert (G1 : group wblk1 [IReady; IBatch wb1; ISub ws12; ISub ws11]).
  { apply (group_live wblk1 [ws12; ws11] [IReady]); [repeat constructor|apply Permutation_swap|exact wb1_msgs]. }
  assert (G1' : group wblk1 [IBatch wb1; ISub ws12; ISub ws11]).
  { apply (group_live wblk1 [ws12; ws11] []); [constructor|apply Permutation_swap|exact wb1_msgs]. }
  assert (G2 : group wblk2 [IBatch wb2]).
  { apply (group_catch wblk2 wb2 []); [constructor|exact wb2_whole]. }
  apply (sessions_cons _ _ _ _ _ _ 0); [by left| |apply dl_ok|].
  { exists [[IReady; IBatch wb1; ISub ws12; ISub ws11]; [IBatch wb2]], [ISub ws11; IBatch wb2].
    split; [|done]. repeat constructor; assumption. }
  apply (sessions_cons _ _ _ _ _ _ 0); [left; split; [done|vm_compute; reflexivity]| |apply dl_ok|].
  { exists [[IBatch wb1; ISub ws12; ISub ws11]; [IBatch wb2]], [].
    split; [|done]. repeat constructor; assumption. }
  apply (sessions_cons _ _ _ _ _ _ 2); [| |apply dl_ok|apply sessions_nil].
  - right. exists wblk2. split; [lia|]. split; [done|]. vm_compute. reflexivity.
  - exists [], []. split; [constructor|done].
Qed.
Example C37_case :
  sessions_ok wchain 0 100 (wsc_new 0 100) wlife ∧ NoDup (wb_hash <$> wchain) ∧ 100%N ∉ wb_hash <$> wchain ∧
  pb_hash <$> blocks_out (wsc_sessions (wsc_new 0 100) wlife) = [101%N; 102%N].
Proof.
  split; [exact wlife_ok|]. split; [apply (bool_decide_unpack _); by vm_compute|].
  split; [apply (bool_decide_unpack _); by vm_compute|]. vm_compute. reflexivity.
Qed.

Example C37_caught_up_case :
  let ds := dl [IBatch wb1; ISub ws12; ISub ws11; IBatch wb2] in
  caught_up wchain 0 (items ds) ∧ orders_ok ds ∧ pb_hash <$> blocks_out (wsc_run (wsc_connect (wsc_new 0 100)) ds) = [101%N; 102%N].
Proof.
  split; [|split; [apply dl_ok|vm_compute; reflexivity]].
  exists [[IBatch wb1; ISub ws12; ISub ws11]; [IBatch wb2]]. split; [|done]. repeat constructor.
  - apply (group_live wblk1 [ws12; ws11] []); [constructor|apply Permutation_swap|exact wb1_msgs].
  - apply (group_catch wblk2 wb2 []); [constructor|exact wb2_whole].
Qed.

(** * C38: catch-up *)

(** What a subscriber receives: every block stored before the end of the catch-up, then "ready",
    then every message sent after the subscription; in particular nothing that was stored after the
    end and sent before the subscription. *)
Theorem C38_received db l s :
  sv_run (SV db 0 Reading []) l = Some s → sv_phase s = Live →
  ∃ l1 l2 l3, l = l1 ++ AEnd :: l2 ++ ASubscribe :: l3 ∧ AEnd ∉ l1 ∧
    sv_recv s = (RCatch <$> db ++ stores l1) ++ [RReady] ++ (RLive <$> sends l3).
Proof. exact (catchup_received db l s). Qed.
Print Assumptions C38_received.

(** If blocks are stored before they are sent and nothing is sent in the window between the two,
    every block sent is received.  Missing for the full claim: the window (refuted below). *)
Theorem C38_no_window_partial db blk l s i pb :
  sv_run (SV db 0 Reading []) l = Some s → sv_phase s = Live →
  stored_first db blk l → no_gap l → ASend i ∈ l → blk i = Some pb →
  RCatch pb ∈ sv_recv s ∨ RLive i ∈ sv_recv s.
Proof. exact (catchup_nogap db blk l s i pb). Qed.
Print Assumptions C38_no_window_partial.

Definition wp1 : pending_batch := bare_batch 1 5 100 101.
Definition wp2 : pending_batch := bare_batch 2 6 101 102.
Definition wi1 : item := IBatch (TB 1 5 101 100 ∅ [] ∅).
Definition wi2 : item := IBatch (TB 2 6 102 101 ∅ [] ∅).
Definition wblk (i : item) : option pending_batch :=
  match i with IBatch b => Some (bare_batch (tb_num b) (tb_weight b) (tb_parent b) (tb_hash b)) | _ => None end.

(** A block stored and sent in the window is never received, although later blocks are. *)
Theorem C38_refuted : ∃ l s i pb i', sv_run (SV [] 0 Reading []) l = Some s ∧ sv_phase s = Live ∧
  stored_first [] wblk l ∧ ASend i ∈ l ∧ wblk i = Some pb ∧
  RCatch pb ∉ sv_recv s ∧ RLive i ∉ sv_recv s ∧ ASend i' ∈ l ∧ RLive i' ∈ sv_recv s.
Proof.
  exists [AEnd; AStore wp1; ASend wi1; ASubscribe; AStore wp2; ASend wi2]. eexists. exists wi1, wp1, wi2.
  split; [reflexivity|]. split; [reflexivity|]. split; [|split; [|split; [reflexivity|]]].
  - intros l1 i l2 pb E Hb. right.
    repeat (destruct l1 as [|? l1]; [try discriminate E; injection E as <- <-; injection Hb as <-;
      repeat first [apply elem_of_list_here|apply elem_of_list_further] | try discriminate E; injection E as <- E]).
  - do 2 apply elem_of_list_further. apply elem_of_list_here.
  - cbn. split; [|split; [|split]].
    + intros H. repeat (apply elem_of_cons in H as [H|H]; [discriminate H|]). by apply elem_of_nil in H.
    + intros H. repeat (apply elem_of_cons in H as [H|H]; [discriminate H|]). by apply elem_of_nil in H.
    + do 5 apply elem_of_list_further. apply elem_of_list_here.
    + apply elem_of_list_further, elem_of_list_here.
Qed.
Print Assumptions C38_refuted.

(** A block sent before it is stored can be missed without any window. *)
Theorem C38_sent_first_refuted : ∃ l s, sv_run (SV [] 0 Reading []) l = Some s ∧ sv_phase s = Live ∧
  no_gap l ∧ ASend wi1 ∈ l ∧ AStore wp1 ∈ l ∧ sv_recv s = [RReady].
Proof.
  exists [ASend wi1; AEnd; ASubscribe; AStore wp1]. eexists. split; [reflexivity|]. split; [done|].
  split; [|split; [apply elem_of_list_here|split; [|done]]].
  - intros l1 l2 l3 E i Hi. destruct l1 as [|a l1]; [discriminate E|]. injection E as _ E.
    destruct l1 as [|a1 l1].
    + injection E as E. destruct l2 as [|a2 l2]; [by apply elem_of_nil in Hi|].
      injection E as _ E. destruct l2 as [|a3 l2]; [discriminate E|]. injection E as _ E. by destruct l2.
    + injection E as _ E. destruct l1 as [|a2 l1]; [discriminate E|]. injection E as _ E.
      destruct l1 as [|a3 l1]; [discriminate E|]. injection E as _ E. by destruct l1.
  - do 3 apply elem_of_list_further. apply elem_of_list_here.
Qed.
Print Assumptions C38_sent_first_refuted.

(** A block stored before the end and sent after the subscription is received twice. *)
Theorem C38_twice_refuted : ∃ l s, sv_run (SV [] 0 Reading []) l = Some s ∧
  sv_recv s = [RCatch wp1; RReady; RLive wi1] ∧
  length (blocks_out (wsc_run (wsc_new 0 100) (dl (received_item (λ l, l) <$> sv_recv s)))) = 2.
Proof.
  exists [AStore wp1; ARead; AEnd; ASubscribe; ASend wi1]. eexists. split; [reflexivity|]. split; [reflexivity|].
  vm_compute. reflexivity.
Qed.
Print Assumptions C38_twice_refuted.

Definition wrun : list sact := [AStore wp1; ARead; ASend wi1; AEnd; ASubscribe; AStore wp2; ASend wi2].
Example C38_case : ∃ s, sv_run (SV [] 0 Reading []) wrun = Some s ∧ sv_phase s = Live ∧
  stored_first [] wblk wrun ∧ no_gap wrun ∧ wblk wi2 = Some wp2 ∧
  sv_recv s = [RCatch wp1; RReady; RLive wi2].
Proof.
  eexists. split; [reflexivity|]. split; [done|]. split; [|split; [|by split]].
  - intros l1 i l2 pb E Hb. right. unfold wrun in E.
    repeat (destruct l1 as [|? l1]; [try discriminate E; injection E as <- <-; injection Hb as <-;
      repeat first [apply elem_of_list_here|apply elem_of_list_further] | try discriminate E; injection E as <- E]).
  - intros l1 l2 l3 E i Hi. unfold wrun in E.
    do 3 (destruct l1 as [|? l1]; [discriminate E|injection E as _ E]).
    destruct l1 as [|? l1].
    + injection E as E. destruct l2 as [|a2 l2]; [by apply elem_of_nil in Hi|].
      injection E as _ E. do 2 (destruct l2 as [|? l2]; [discriminate E|injection E as _ E]). by destruct l2.
    + injection E as _ E. do 3 (destruct l1 as [|? l1]; [discriminate E|injection E as _ E]). by destruct l1.
Qed.
