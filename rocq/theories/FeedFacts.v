(** Facts about Feed.v: the search for the latest block, the start of a producer. *)
From Verif Require Import Base Lru Types Avro Wire SpecWire GoText TextFacts Producer SpecBlock SpecProducer Consumer Kafka SpecKafka KafkaFacts KafkaFacts2 Feed SpecFeed.

(** ** The last 100 offsets *)
Definition window (l : flog) : list fmsg := filter (λ m, pt_newest (fl_part l) - 100 ≤ fm_off m)%Z (fl_msgs l).
Lemma window_elem l m : m ∈ window l ↔ recent l m.
Proof. unfold window, recent. rewrite elem_of_list_filter. naive_solver. Qed.
Lemma filter_agree (P Q : fmsg → Prop) `{∀ x, Decision (P x)} `{∀ x, Decision (Q x)} (l : list fmsg) :
  (∀ x, x ∈ l → P x ↔ Q x) → filter P l = filter Q l.
Proof.
  induction l as [|x l IH]; intros Hl; [done|]. rewrite !filter_cons. specialize (Hl x (elem_of_list_here _ _)) as Hx.
  rewrite IH by (intros y Hy; apply Hl; by right). destruct (decide (P x)), (decide (Q x)); naive_solver.
Qed.
Lemma held_msg l m : log_ok l → m ∈ fl_msgs l → held (fl_part l) (fm_off m).
Proof. intros (_ & _ & H) Hm. rewrite Forall_forall in H. by apply H. Qed.
Lemma recent_window l : log_ok l →
  ∃ o, recent_start (fl_part l) (back_100 (pt_newest (fl_part l))) = Some o ∧ from_offset l o = window l.
Proof.
  intros Hl. pose proof (proj1 Hl) as Hp. pose proof Hp as Hp'. unfold partition_ok in Hp'. unfold recent_start, back_100.
  assert (Hold : consume_partition (fl_part l) OffsetOldest = Some (pt_oldest (fl_part l))) by done.
  assert (Hall : ∀ o, (o ≤ pt_oldest (fl_part l))%Z → (pt_newest (fl_part l) - 100 ≤ pt_oldest (fl_part l))%Z → from_offset l o = window l).
  { intros o Ho Hn. unfold from_offset, window. apply filter_agree. intros m Hm. pose proof (held_msg _ _ Hl Hm) as [? ?]. lia. }
  case_bool_decide as Hn.
  - rewrite Hold. eexists. split; [done|]. apply Hall; lia.
  - destruct (decide (pt_oldest (fl_part l) ≤ pt_newest (fl_part l) - 100)%Z) as [Hle|Hgt].
    + rewrite consume_range by (done || lia). eexists. split; [done|]. done.
    + destruct (consume_partition (fl_part l) (pt_newest (fl_part l) - 100)) as [s|] eqn:E.
      * apply consume_some in E as [? [->|[[? ?]|[? ?]]]]; [lia|unfold OffsetNewest in *; lia|unfold OffsetOldest in *; lia|done].
      * rewrite Hold. eexists. split; [done|]. apply Hall; lia.
Qed.

(** ** LatestBlockFromFeed *)
Lemma highest_cases n m : (highest n m = n ∧ ∀ k, header_number m k → (k ≤ n)%Z) ∨
  (header_number m (highest n m) ∧ (n < highest n m)%Z ∧ ∀ k, header_number m k → (k ≤ highest n m)%Z).
Proof.
  unfold highest, header_number. destruct (fm_key m) as [|t r].
  { left. split; [done|]. intros k [? _]. done. }
  cbn [head]. case_bool_decide as Ht.
  - subst t. destruct (decode_batch (fm_val m)) as [b|].
    + case_bool_decide as Hn.
      * right. split; [by eauto|]. split; [done|]. intros k (_ & b' & [= <-] & <-). lia.
      * left. split; [done|]. intros k (_ & b' & [= <-] & <-). lia.
    + left. split; [done|]. intros k (_ & b' & ? & _). done.
  - left. split; [done|]. intros k ([= ->] & _). done.
Qed.
Lemma foldl_highest l n : (n ≤ foldl highest n l)%Z ∧
  (foldl highest n l = n ∨ ∃ m, m ∈ l ∧ header_number m (foldl highest n l)) ∧
  ∀ m k, m ∈ l → header_number m k → (k ≤ foldl highest n l)%Z.
Proof.
  revert n. induction l as [|x l IH]; intros n; cbn [foldl].
  { split; [lia|]. split; [by left|]. intros m k ?%elem_of_nil. done. }
  destruct (IH (highest n x)) as (H1 & H2 & H3). destruct (highest_cases n x) as [[E Hx]|(Hh & Hlt & Hx)].
  - rewrite E in *. split; [done|]. split.
    + destruct H2 as [H2|(m & Hm & H2)]; [by left|]. right. exists m. split; [by right|done].
    + intros m k [->|Hm]%elem_of_cons Hk; [|by eauto]. specialize (Hx k Hk). lia.
  - split; [lia|]. split.
    + right. destruct H2 as [H2|(m & Hm & H2)].
      * exists x. split; [by left|]. by rewrite H2.
      * exists m. split; [by right|done].
    + intros m k [->|Hm]%elem_of_cons Hk; [|by eauto]. specialize (Hx k Hk). lia.
Qed.
Definition on_scan (s : scan) (m : fmsg) : Prop := recent (sc_log s) m ∨ m ∈ sc_new s.
Lemma scan_partition_spec n s : log_ok (sc_log s) → ∃ n', scan_partition n s = Some n' ∧ (n ≤ n')%Z ∧
  (n' = n ∨ sc_get s = true ∧ ∃ m, on_scan s m ∧ header_number m n') ∧
  (sc_get s = true → all_read s → ∀ m k, recent (sc_log s) m → header_number m k → (k ≤ n')%Z).
Proof.
  intros Hl. unfold scan_partition. destruct (sc_get s); cbn [negb].
  2:{ exists n. split; [done|]. split; [lia|]. split; [by left|]. done. }
  case_bool_decide as Hz.
  { exists n. split; [done|]. split; [lia|]. split; [by left|]. intros _ _ m k [Hm _]. pose proof (held_msg _ _ Hl Hm) as [? ?].
    destruct Hl as [Hp _]. unfold partition_ok in Hp. lia. }
  destruct (recent_window _ Hl) as (o & -> & ->). set (l := take _ _). destruct (foldl_highest l n) as (H1 & H2 & H3).
  exists (foldl highest n l). split; [done|]. split; [done|]. split.
  - destruct H2 as [H2|(m & Hm & H2)]; [by left|]. right. split; [done|]. exists m. split; [|done].
    apply elem_of_take in Hm as (i & Hm & _). apply elem_of_list_lookup_2 in Hm. apply elem_of_app in Hm as [Hm|Hm]; [left|by right].
    by apply window_elem.
  - intros _ Hr m k Hm Hk. apply (H3 m); [|done]. unfold l. rewrite take_app_ge by exact Hr. apply elem_of_app. left. by apply window_elem.
Qed.
Lemma scan_all_spec l n : Forall (λ s, log_ok (sc_log s)) l → ∃ n', scan_all n l = Some n' ∧ (n ≤ n')%Z ∧
  (n' = n ∨ ∃ s m, s ∈ l ∧ sc_get s = true ∧ on_scan s m ∧ header_number m n') ∧
  (∀ s m k, s ∈ l → sc_get s = true → all_read s → recent (sc_log s) m → header_number m k → (k ≤ n')%Z).
Proof.
  intros H. revert n. induction H as [|s l Hs Hl IH]; intros n; cbn [scan_all].
  { exists n. split; [done|]. split; [lia|]. split; [by left|]. intros s m k ?%elem_of_nil. done. }
  destruct (scan_partition_spec n s Hs) as (n1 & -> & H1 & H2 & H3). destruct (IH n1) as (n2 & -> & H4 & H5 & H6).
  exists n2. split; [done|]. split; [lia|]. split.
  - destruct H5 as [->|(s' & m & Hs' & H5)].
    + destruct H2 as [->|(Hg & m & H2)]; [by left|]. right. exists s, m. split; [by left|]. done.
    + right. exists s', m. split; [by right|]. done.
  - intros s' m k [->|Hs']%elem_of_cons Hg Hr Hm Hk; [|by eauto]. specialize (H3 Hg Hr m k Hm Hk). lia.
Qed.
Lemma latest_recent l : Forall (λ s, log_ok (sc_log s)) l → ∃ n, latest_block l = Some n ∧ (0 ≤ n)%Z ∧
  (n = 0%Z ∨ ∃ s m, s ∈ l ∧ sc_get s = true ∧ (recent (sc_log s) m ∨ m ∈ sc_new s) ∧ header_number m n) ∧
  (∀ s m k, s ∈ l → sc_get s = true → all_read s → recent (sc_log s) m → header_number m k → (k ≤ n)%Z).
Proof. exact (scan_all_spec l 0). Qed.
Lemma latest_on_feed l : Forall (λ s, log_ok (sc_log s) ∧ sc_get s = true ∧ all_read s) l →
  (∀ s m k, s ∈ l → m ∈ fl_msgs (sc_log s) → header_number m k → (k ≤ 0)%Z ∨
     ∃ s' m' k', s' ∈ l ∧ recent (sc_log s') m' ∧ header_number m' k' ∧ (k ≤ k')%Z) →
  ∃ n, latest_block l = Some n ∧ (∀ s m k, s ∈ l → m ∈ fl_msgs (sc_log s) → header_number m k → (k ≤ n)%Z) ∧
    (n = 0%Z ∨ ∃ s m, s ∈ l ∧ (m ∈ fl_msgs (sc_log s) ∨ m ∈ sc_new s) ∧ header_number m n).
Proof.
  intros H Hold. destruct (latest_recent l) as (n & En & H0 & H1 & H2).
  { eapply Forall_impl; [exact H|]. by intros s (? & _). }
  rewrite Forall_forall in H. exists n. split; [done|]. split.
  - intros s m k Hs Hm Hk. destruct (Hold s m k Hs Hm Hk) as [?|(s' & m' & k' & Hs' & Hm' & Hk' & Hle)]; [lia|].
    destruct (H s' Hs') as (_ & Hg & Hr). specialize (H2 s' m' k' Hs' Hg Hr Hm' Hk'). lia.
  - destruct H1 as [->|(s & m & Hs & _ & Hm & Hk)]; [by left|]. right. exists s, m. split; [done|]. split; [|done].
    destruct Hm as [[? _]|?]; [by left|by right].
Qed.

(** ** Start of a producer *)
Lemma reader_start_shape f : log_ok (fd_log f) → ∃ todo ready, reader_start f = RD todo None ready (pt_newest (fl_part (fd_log f))) (fd_end f) ∧
  (ready = true ↔ fd_get f = false ∨ pt_newest (fl_part (fd_log f)) = 0%Z) ∧
  (fd_get f = true → todo = window (fd_log f) ++ fd_new f).
Proof.
  intros Hl. unfold reader_start. destruct (fd_get f); cbn [negb orb].
  - destruct (recent_window _ Hl) as (o & Eo & Ew). case_bool_decide as Hz.
    + assert (Hw : fl_msgs (fd_log f) = []).
      { destruct (fl_msgs (fd_log f)) as [|m ms] eqn:Em; [done|]. pose proof (held_msg (fd_log f) m Hl) as Hh. rewrite Em in Hh.
        destruct (Hh (elem_of_list_here _ _)). destruct Hl as [Hp _]. unfold partition_ok in Hp. lia. }
      cbn. eexists _, _. split; [done|]. split; [naive_solver|]. intros _. unfold from_offset, window. by rewrite Hw.
    + rewrite Eo, Ew. eexists _, _. split; [done|]. split; [naive_solver|]. done.
  - cbn. eexists _, _. split; [done|]. split; [naive_solver|]. done.
Qed.
Definition hand_list (r : reader) : list fmsg := match rd_hand r with Some m => [m] | None => [] end.
Definition recorded (evs : list kp_event) (m : fmsg) : Prop := ∃ now, KFeed now (fm_key m) ∈ evs.
(** One reader: what it has read is recorded, except for the message in its hand. *)
Definition reader_inv (f : feeding) (r : reader) (evs : list kp_event) : Prop :=
  rd_newest r = pt_newest (fl_part (fd_log f)) ∧ rd_end r = fd_end f ∧
  (fd_get f = true → ∃ don, window (fd_log f) ++ fd_new f = don ++ hand_list r ++ rd_todo r ∧ Forall (recorded evs) don ∧
    (rd_ready r = true → pt_newest (fl_part (fd_log f)) = 0%Z ∨ ∃ m, m ∈ don ++ hand_list r ∧ (pt_newest (fl_part (fd_log f)) - 1 ≤ fm_off m)%Z) ∧
    (rd_ready r = false → ∀ m, m ∈ don ++ hand_list r → fm_off m ≠ (fd_end f - 1)%Z)) ∧
  (fd_get f = false → rd_ready r = true).
Lemma reader_inv_mono f r evs evs' : evs ⊆ evs' → reader_inv f r evs → reader_inv f r evs'.
Proof.
  intros Hs (H1 & H2 & H3 & H4). split; [done|]. split; [done|]. split; [|done]. intros Hg. destruct (H3 Hg) as (don & E & Hd & Hr).
  exists don. split; [done|]. split; [|done]. eapply Forall_impl; [exact Hd|]. intros m (now & Hm). exists now. by apply Hs.
Qed.
Definition start_inv (self : bytes) (dp : producer) (fs : list feeding) (s : starting) : Prop :=
  Forall2 (λ f r, reader_inv f r (st_fed s)) fs (st_readers s) ∧ kp_run self (kp_new dp) (st_fed s) = Ok (st_kp s).
Lemma start_inv_init self dp fs : Forall feeding_ok fs → start_inv self dp fs (start_init dp fs).
Proof.
  intros H. split; [|done]. cbn [start_init st_readers st_fed]. induction H as [|f fs Hf Hfs IH]; cbn [map]; constructor; [|exact IH].
  destruct (reader_start_shape f (proj1 Hf)) as (todo & ready & -> & Hr & Ht). split; [done|]. split; [done|]. cbn [rd_ready rd_todo]. split.
  - intros Hg. exists []. split; [by rewrite (Ht Hg)|]. split; [by apply Forall_nil|]. split.
    + intros [?|?]%Hr; [congruence|by left].
    + intros _ m ?%elem_of_nil. done.
  - intros Hg. apply Hr. by left.
Qed.
Lemma Forall2_insert_r {A B} (R : A → B → Prop) l k i y : Forall2 R l k → (∀ x, l !! i = Some x → R x y) → Forall2 R l (<[i := y]> k).
Proof.
  intros H. revert i. induction H as [|a b l k Hab H IH]; intros i Hi; [destruct i; constructor|]. destruct i as [|i]; cbn.
  - constructor; [by apply Hi|done].
  - constructor; [done|]. apply IH. intros x Hx. by apply Hi.
Qed.
Lemma start_inv_step self dp fs s s' : start_inv self dp fs s → start_step self s s' → start_inv self dp fs s'.
Proof.
  intros [Hr Hk] Hst. destruct Hst as [rs i todo m ready newest stop hwm kp evs Hi Hh Hm|rs i todo m ready newest stop now kp kp' evs Hi Hf]; cbn [st_readers st_fed st_kp] in *.
  - split; [|done]. cbn [st_readers st_fed]. apply Forall2_insert_r; [done|]. intros f Hfi.
    destruct (Forall2_lookup_lr _ _ _ _ _ _ Hr Hfi Hi) as (H1 & H2 & H3 & H4). cbn [rd_newest rd_end rd_todo rd_ready] in *. subst newest stop.
    split; [done|]. split; [done|]. cbn [rd_ready rd_todo]. split; [|intros Hg; by rewrite (H4 Hg)].
    intros Hg. destruct (H3 Hg) as (don & E & Hd & Hr1 & Hr2). cbn [hand_list rd_hand app] in *. rewrite app_nil_r in *. exists don.
    split; [exact E|]. split; [done|]. split.
    + intros [->|Hb%bool_decide_eq_true]%orb_prop.
      * destruct (Hr1 eq_refl) as [?|(m' & Hm' & ?)]; [by left|]. right. exists m'. split; [apply elem_of_app; by left|done].
      * right. exists m. split; [apply elem_of_app; right; left|]. lia.
    + intros [-> Hb%bool_decide_eq_false]%orb_false_iff m' [Hm'|Hm']%elem_of_app; [by apply Hr2|]. apply elem_of_list_singleton in Hm' as ->. lia.
  - assert (Hsub : evs ⊆ evs ++ [KFeed now (fm_key m)]) by (intros x Hx; apply elem_of_app; by left).
    split.
    + cbn [st_readers st_fed]. apply Forall2_insert_r.
      { eapply Forall2_impl; [exact Hr|]. intros f r. by apply reader_inv_mono. }
      intros f Hfi. destruct (Forall2_lookup_lr _ _ _ _ _ _ Hr Hfi Hi) as (H1 & H2 & H3 & H4). cbn [rd_newest rd_end rd_todo rd_ready] in *.
      split; [done|]. split; [done|]. cbn [rd_ready rd_todo]. split; [|done]. intros Hg. destruct (H3 Hg) as (don & E & Hd & Hr1 & Hr2).
      cbn [hand_list rd_hand app] in *. exists (don ++ [m]). rewrite app_nil_r. split; [by rewrite <- app_assoc|]. split; [|done].
      apply Forall_app. split.
      * eapply Forall_impl; [exact Hd|]. intros m' (now' & Hm'). exists now'. by apply Hsub.
      * apply Forall_singleton. exists now. apply elem_of_app. right. left.
    + cbn [st_fed st_kp]. apply kp_run_app. exists kp. split; [done|]. unfold kp_run. cbn [foldM kp_step]. by rewrite Hf.
Qed.
Lemma start_inv_reach self dp fs s : Forall feeding_ok fs → rtc (start_step self) (start_init dp fs) s → start_inv self dp fs s.
Proof.
  intros Hf H. cut (∀ s0, rtc (start_step self) s0 s → start_inv self dp fs s0 → start_inv self dp fs s).
  { intros Hc. eapply Hc; [exact H|]. by apply start_inv_init. }
  clear H. intros s0 H. induction H as [|x y z Hxy _ IH]; intros Hi; [done|]. apply IH. by eapply start_inv_step.
Qed.
Lemma sorted_feed f : feeding_ok f → StronglySorted (λ a b, fm_off a < fm_off b)%Z (window (fd_log f) ++ fd_new f).
Proof.
  intros ((Hp & Hs & Hh) & Hn & Hb & _). unfold window. revert Hs Hh. generalize (fl_msgs (fd_log f)) as ms. intros ms Hs Hh.
  rewrite Forall_forall in Hb.
  induction Hs as [|m ms Hms IH Hm]; [done|]. apply Forall_cons in Hh as [Hh1 Hh]. rewrite filter_cons. destruct (decide _); [|by apply IH].
  cbn [app]. constructor; [by apply IH|]. apply Forall_app. split.
  - rewrite Forall_forall in Hm |- *. intros x [_ Hx]%elem_of_list_filter. by apply Hm.
  - apply Forall_forall. intros x Hx. specialize (Hb x Hx). destruct Hh1. lia.
Qed.
Lemma sorted_order (l1 l2 : list fmsg) a b : StronglySorted (λ a b, fm_off a < fm_off b)%Z (l1 ++ l2) → a ∈ l1 → b ∈ l2 → (fm_off a < fm_off b)%Z.
Proof.
  induction l1 as [|x l1 IH]; intros Hs Ha Hb; [by apply elem_of_nil in Ha|]. cbn [app] in Hs. inversion Hs as [|? ? Hs' Hx]; subst.
  apply elem_of_cons in Ha as [->|Ha]; [|by apply IH]. rewrite Forall_forall in Hx. apply Hx. apply elem_of_app. by right.
Qed.
Lemma started_recorded self dp fs s f m : Forall feeding_ok fs → rtc (start_step self) (start_init dp fs) s → started s →
  f ∈ fs → fd_get f = true → recent (fd_log f) m → (fm_off m < pt_newest (fl_part (fd_log f)) - 1)%Z → recorded (st_fed s) m.
Proof.
  intros Hok H Hst Hf Hg Hm Hlt. destruct (start_inv_reach _ _ _ _ Hok H) as [Hr _]. rewrite Forall_forall in Hok. specialize (Hok f Hf).
  apply elem_of_list_lookup in Hf as (i & Hi). destruct (Forall2_lookup_l _ _ _ _ _ Hr Hi) as (r & Hri & _ & _ & H3 & _).
  unfold started in Hst. rewrite Forall_forall in Hst. specialize (Hst r (elem_of_list_lookup_2 _ _ _ Hri)).
  destruct (H3 Hg) as (don & E & Hd & Hr1 & _). destruct (Hr1 Hst) as [Hz|(m' & Hm' & Hoff)].
  { destruct Hm as [Hm _]. destruct (held_msg _ _ (proj1 Hok) Hm). destruct Hok as [[Hp _] _]. unfold partition_ok in Hp. lia. }
  pose proof (sorted_feed f Hok) as Hs. rewrite E in Hs.
  assert (Hin : m ∈ don ++ hand_list r ++ rd_todo r). { rewrite <- E. apply elem_of_app. left. by apply window_elem. }
  rewrite Forall_forall in Hd. apply elem_of_app in Hin as [Hin|Hin]; [by apply Hd|]. exfalso.
  apply elem_of_app in Hm' as [Hm'|Hm'].
  - pose proof (sorted_order _ _ _ _ Hs Hm' Hin). lia.
  - apply elem_of_app in Hin as [Hin|Hin].
    + unfold hand_list in *. destruct (rd_hand r) as [x|]; [|by apply elem_of_nil in Hin].
      apply elem_of_list_singleton in Hm' as ->. apply elem_of_list_singleton in Hin as ->. lia.
    + rewrite app_assoc in Hs. assert (Hm2 : m' ∈ don ++ hand_list r) by (apply elem_of_app; by right).
      pose proof (sorted_order _ _ _ _ Hs Hm2 Hin). lia.
Qed.
Lemma block_keys_app l1 l2 : block_keys (l1 ++ l2) = block_keys l1 ++ block_keys l2.
Proof. unfold block_keys, feed_of. by rewrite omap_app, fmap_app, filter_app. Qed.
Lemma started_known self dp fs s f m o ids e a : Forall feeding_ok fs → rtc (start_step self) (start_init dp fs) s → started s →
  f ∈ fs → fd_get f = true → recent (fd_log f) m → (fm_off m < pt_newest (fl_part (fd_log f)) - 1)%Z →
  hash_ok (ba_hash a) → fm_key m = key_of (KBatch (ba_hash a)) → (Z.of_nat (length (block_keys (st_fed s))) ≤ 4096)%Z →
  let r := kp_add (st_kp s) o ids e a in r.2 = None ∧ kp_sent r.1 = kp_sent (st_kp s) ∧ kp_dp r.1 = kp_dp (st_kp s).
Proof.
  intros Hok H Hst Hf Hg Hm Hlt Hh Hkey Hn r. destruct (started_recorded _ _ _ _ _ _ Hok H Hst Hf Hg Hm Hlt) as (now & Hin).
  destruct (start_inv_reach _ _ _ _ Hok H) as [_ Hk]. rewrite Hkey in Hin.
  assert (Hnp : KPurge ∉ st_fed s).
  { clear -H. cut (∀ s0, rtc (start_step self) s0 s → KPurge ∉ st_fed s0 → KPurge ∉ st_fed s).
    { intros Hc. eapply Hc; [exact H|]. apply not_elem_of_nil. }
    clear H. intros s0 H. induction H as [|x y z Hxy _ IH]; intros Hi; [done|]. apply IH. destruct Hxy; cbn [st_fed] in *; [done|].
    rewrite not_elem_of_app, elem_of_list_singleton. split; [done|]. discriminate. }
  unfold r. rewrite kp_add_known; [done|]. eapply seen_recent; [done|exact Hk|].
  apply elem_of_list_split in Hin as (pre & post & E). exists pre, now, post. split; [done|]. split.
  - intros Hp. apply Hnp. rewrite E. apply elem_of_app. right. by right.
  - rewrite E, block_keys_app, block_keys_cons, !app_length in Hn.
    assert (H1 : length (block_keys [KFeed now (key_of (KBatch (ba_hash a)))]) = 1) by done. lia.
Qed.
(** The constructor returns. *)
Lemma last_window f : feeding_ok f → end_held f → ∃ m, last (window (fd_log f) ++ fd_new f) = Some m ∧ fm_off m = (fd_end f - 1)%Z.
Proof.
  intros (Hl & _ & _ & Hle) (_ & m & Hlast & Hoff). exists m. split; [|done]. destruct (fd_new f) as [|x l] eqn:En using rev_ind.
  - rewrite app_nil_r in *. unfold window. apply last_Some in Hlast as (l & ->). rewrite filter_app, filter_cons. rewrite decide_True by lia.
    rewrite filter_nil. by rewrite last_snoc.
  - rewrite app_assoc, last_snoc in Hlast. by rewrite app_assoc, last_snoc.
Qed.
Lemma start_progress self dp fs s : Forall feeding_ok fs → Forall (λ f, Forall key_long (fl_msgs (fd_log f) ++ fd_new f)) fs →
  Forall (λ f, fd_get f = true → pt_newest (fl_part (fd_log f)) ≠ 0%Z → end_held f) fs →
  rtc (start_step self) (start_init dp fs) s → ¬ started s → ∃ s', start_step self s s'.
Proof.
  intros Hok Hkeys Hend H Hst. pose proof (start_inv_reach _ _ _ _ Hok H) as [Hr _].
  apply not_Forall_Exists in Hst; [|intros r; apply _]. apply Exists_exists in Hst as (r & Hin & Hnr). apply not_true_is_false in Hnr.
  apply elem_of_list_lookup in Hin as (i & Hi). destruct (Forall2_lookup_r _ _ _ _ _ Hr Hi) as (f & Hfi & H1 & H2 & H3 & H4).
  pose proof (elem_of_list_lookup_2 _ _ _ Hfi) as Hf. rewrite Forall_forall in Hok, Hkeys, Hend. specialize (Hok f Hf). specialize (Hkeys f Hf). specialize (Hend f Hf).
  destruct (fd_get f) eqn:Hg; [|by rewrite (H4 eq_refl) in Hnr]. destruct (H3 eq_refl) as (don & E & Hd & _ & Hr2). specialize (Hr2 Hnr).
  rewrite Forall_forall in Hkeys.
  assert (Hall : ∀ m, m ∈ don ++ hand_list r ++ rd_todo r → key_long m ∧ (fm_off m < fd_end f)%Z).
  { intros m Hm. rewrite <- E in Hm. destruct Hok as (Hl & _ & Hb & Hle). rewrite Forall_forall in Hb. apply elem_of_app in Hm as [Hm|Hm].
    - apply window_elem in Hm as [Hm _]. split; [apply Hkeys, elem_of_app; by left|]. destruct (held_msg _ _ Hl Hm). lia.
    - split; [apply Hkeys, elem_of_app; by right|]. specialize (Hb m Hm). lia. }
  destruct s as [rs kp evs], r as [todo hand ready newest stop]. cbn [st_readers rd_ready rd_todo rd_hand rd_newest rd_end hand_list st_fed] in *. subst ready newest stop.
  destruct hand as [m|].
  - destruct (Hall m) as [Hk _]. { apply elem_of_app. right. left. }
    assert (∃ kp', kp_feed self kp 0 (fm_key m) = Ok kp') as (kp' & Hkp).
    { unfold key_long in Hk. unfold kp_feed. destruct (fm_key m) as [|t k]; [by eexists|]. cbn [head] in Hk. case_bool_decide as Ht.
      - subst t. specialize (Hk eq_refl). rewrite bool_decide_eq_false_2 by lia. by eexists.
      - repeat case_bool_decide; by eexists. }
    eexists. by eapply SRecord.
  - destruct todo as [|m todo].
    + exfalso. cbn [hand_list rd_hand app] in *. rewrite !app_nil_r in *. assert (Hz : pt_newest (fl_part (fd_log f)) ≠ 0%Z).
      { intros Hz. assert (Hinit : ∀ s0, rtc (start_step self) s0 (ST rs kp evs) → ∀ r0, st_readers s0 !! i = Some r0 → rd_ready r0 = true → False).
        { clear -Hi. intros s0 H. remember (ST rs kp evs) as s eqn:Es. revert Es. induction H as [x|x y z Hxy _ IH]; intros ->.
          - intros r0 Hr0 Ht. cbn [st_readers] in Hr0. rewrite Hi in Hr0. injection Hr0 as <-. done.
          - intros r0 Hr0 Ht. specialize (IH eq_refl). destruct Hxy as [rs' j todo m ready newest stop hwm kp' evs' Hj _ _|rs' j todo m ready newest stop now kp1 kp2 evs' Hj _]; cbn [st_readers] in *.
            + destruct (decide (i = j)) as [->|Hne].
              * rewrite Hr0 in Hj. injection Hj as ->. cbn in Ht. subst ready. eapply IH; [rewrite list_lookup_insert by (by eapply lookup_lt_Some); done|]. done.
              * eapply IH; [by rewrite list_lookup_insert_ne by done|done].
            + destruct (decide (i = j)) as [->|Hne].
              * rewrite Hr0 in Hj. injection Hj as ->. cbn in Ht. subst ready. eapply IH; [rewrite list_lookup_insert by (by eapply lookup_lt_Some); done|]. done.
              * eapply IH; [by rewrite list_lookup_insert_ne by done|done]. }
        destruct (reader_start_shape f (proj1 Hok)) as (todo & ready & Er & Hrd & _). eapply (Hinit _ H (reader_start f)).
        - cbn [start_init st_readers]. change (map reader_start fs) with (reader_start <$> fs). by rewrite list_lookup_fmap, Hfi.
        - rewrite Er. cbn. apply Hrd. by right. }
      destruct (last_window f Hok (Hend eq_refl Hz)) as (m & Hlast & Hoff). rewrite E in Hlast. apply last_Some in Hlast as (l & ->).
      apply (Hr2 m); [apply elem_of_app; right; left|done].
    + destruct (Hall m) as [_ Hlt]. { apply elem_of_app. right. left. }
      eexists. eapply (SReceive _ _ _ _ _ _ _ _ (fd_end f)); [exact Hi| |exact Hlt]. destruct Hok as (_ & _ & _ & ?). lia.
Qed.
Definition cost (r : reader) : nat := 2 * length (rd_todo r) + length (hand_list r).
Definition work (rs : list reader) : nat := sum_list_with cost rs.
Lemma work_insert rs i r r' : rs !! i = Some r → work (<[i := r']> rs) + cost r = work rs + cost r'.
Proof.
  unfold work. revert i. induction rs as [|x rs IH]; intros [|i] Hi; try done.
  - injection Hi as ->. change (<[0 := r']> (r :: rs)) with (r' :: rs). cbn [sum_list_with]. lia.
  - specialize (IH i Hi). change (<[S i := r']> (x :: rs)) with (x :: <[i := r']> rs). cbn [sum_list_with]. lia.
Qed.
Lemma step_work self s s' : start_step self s s' → work (st_readers s) = S (work (st_readers s')).
Proof.
  intros H. destruct H as [rs i todo m ready newest stop hwm kp evs Hi _ _|rs i todo m ready newest stop now kp kp' evs Hi _]; cbn [st_readers].
  - pose proof (work_insert rs i _ (RD todo (Some m) (ready || bool_decide (hwm - fm_off m ≤ 1)%Z) newest stop) Hi) as E.
    unfold cost in E. cbn [rd_todo hand_list rd_hand length] in E. lia.
  - pose proof (work_insert rs i _ (RD todo None ready newest stop) Hi) as E. unfold cost in E. cbn [rd_todo hand_list rd_hand length] in E. lia.
Qed.
Lemma start_cost f : cost (reader_start f) ≤ 2 * length (fl_msgs (fd_log f) ++ fd_new f).
Proof.
  unfold reader_start. destruct (recent_start _ _) as [o|]; unfold cost; cbn [rd_todo hand_list rd_hand length]; [|lia].
  assert (H : length (from_offset (fd_log f) o) ≤ length (fl_msgs (fd_log f))) by apply filter_length. rewrite !app_length. lia.
Qed.
Lemma start_work fs : work (map reader_start fs) ≤ 2 * sum_list_with (λ f, length (fl_msgs (fd_log f) ++ fd_new f)) fs.
Proof.
  unfold work. induction fs as [|f fs IH]; [done|]. cbn [map sum_list_with]. pose proof (start_cost f). lia.
Qed.
Lemma start_bounded self dp fs n s : nsteps (start_step self) n (start_init dp fs) s →
  n ≤ 2 * sum_list_with (λ f, length (fl_msgs (fd_log f) ++ fd_new f)) fs.
Proof.
  intros H. pose proof (start_work fs) as Hw. change (map reader_start fs) with (st_readers (start_init dp fs)) in Hw.
  cut (n ≤ work (st_readers (start_init dp fs))); [lia|]. clear Hw. revert H. generalize (start_init dp fs) as s0. intros s0 H.
  induction H as [|n x y z Hxy H IH]; [lia|]. pose proof (step_work _ _ _ Hxy). lia.
Qed.
