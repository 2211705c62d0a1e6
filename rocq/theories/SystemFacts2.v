(** C44: the submitted chain arrives intact. *)
From Verif Require Import Base Lru LruFacts Types Avro Wire SpecWire GoPath Producer SpecBlock Consumer ConsumerBase ConsumerFacts
  SpecCollect CollectFacts CollectFacts2 Ordering SpecChain OrderingBase OrderingFacts OrderingMisc OrderingTotal OrderingChain
  System SpecSystem SystemFacts.

Lemma map_at {A B} (f : A → B) (l : list A) i : map f l !! i = f <$> l !! i.
Proof. apply list_lookup_fmap. Qed.

(** [pb] has the header of [b]. *)
Definition headed (b : block) (pb : pending_batch) : Prop :=
  pb_num pb = ba_num (bk_args b) ∧ pb_weight pb = ba_weight (bk_args b) ∧ pb_parent pb = ba_parent (bk_args b) ∧
  pb_hash pb = bk_hash b.
Lemma exact_headed mt b tr pb : exact mt b tr pb → headed b pb.
Proof. intros (E1 & E2 & E3 & E4 & _). done. Qed.

(** * The block tree of a submitted chain *)
Definition hashes (base : hash) (bs : list block) : list hash := base :: map bk_hash bs.
Definition weights (w : N) (bs : list block) : list N := w :: map (λ b, ba_weight (bk_args b)) bs.

Lemma chain_at p n w bs : chain_from p n w bs → ∀ i b, bs !! i = Some b →
  hashes p bs !! i = Some (ba_parent (bk_args b)) ∧ ba_num (bk_args b) = (n + 1 + Z.of_nat i)%Z ∧
  (∃ x, weights w bs !! i = Some x ∧ (x < ba_weight (bk_args b))%N) ∧ bk_hash b ≠ zero_hash.
Proof.
  revert p n w; induction bs as [|b' bs IH]; intros p n w; [done|].
  intros (H1 & H2 & H3 & H4 & H5) [|i] b Hb; cbn in Hb.
  - injection Hb as ->. split; [by rewrite H1|]. split; [lia|]. split; [|done]. exists w. done.
  - destruct (IH _ _ _ H5 i b Hb) as (A1 & A2 & (x & A3 & A4) & A5). split; [exact A1|]. split; [lia|].
    split; [|done]. exists x. done.
Qed.

Definition above (l : list N) : N := foldr N.max 0%N l + 1.
Lemma above_lt l x : x ∈ l → (x < above l)%N.
Proof.
  unfold above. induction 1 as [x l|x y l _ IH]; cbn; lia.
Qed.

Section tree.
  Context (base : hash) (num : Z) (w : N) (bs : list block).
  Context (Hc : chain_from base num w bs) (Hnd : NoDup (hashes base bs)).

  Definition ch (i : nat) : hash := default (above (hashes base bs) + N.of_nat i)%N (hashes base bs !! i).
  Definition wtl (i : nat) : N := default (above (weights w bs) + N.of_nat i)%N (weights w bs !! i).
  Definition idx (h : hash) : nat :=
    match list_find (λ x, x = h) (hashes base bs) with
    | Some (i, _) => i
    | None => N.to_nat (h - above (hashes base bs))
    end.
  Definition T : tree :=
    Tree (λ h, match idx h with 0 => zero_hash | S i => ch i end) (λ h, (num + Z.of_nat (idx h))%Z) (λ h, wtl (idx h)).

  Lemma idx_ch i : idx (ch i) = i.
  Proof.
    unfold idx, ch. destruct (hashes base bs !! i) as [h|] eqn:Hi; cbn [default from_option id].
    - destruct (list_find _ _) as [[j h']|] eqn:E.
      + apply list_find_Some in E as (Hj & -> & _). eapply NoDup_lookup; [exact Hnd|exact Hj|exact Hi].
      + eapply list_find_None in E. eapply Forall_forall in E; [|by eapply elem_of_list_lookup_2]. done.
    - destruct (list_find _ _) as [[j h']|] eqn:E.
      + apply list_find_Some in E as (Hj & -> & _). apply elem_of_list_lookup_2, above_lt in Hj. lia.
      + lia.
  Qed.
  Lemma ch_at i b : bs !! i = Some b → ch (S i) = bk_hash b.
  Proof.
    intros Hb. unfold ch, hashes. change ((base :: map bk_hash bs) !! S i) with (map bk_hash bs !! i). rewrite map_at, Hb. done.
  Qed.
  Lemma ch_inv i h : ch (S i) = h → h ∈ map bk_hash bs → ∃ b, bs !! i = Some b ∧ bk_hash b = h.
  Proof.
    intros E Hin. apply elem_of_list_fmap in Hin as (b & -> & Hb). apply elem_of_list_lookup in Hb as [j Hj].
    rewrite <- (ch_at _ _ Hj) in E. apply (f_equal idx) in E. rewrite !idx_ch in E. injection E as ->. eauto.
  Qed.
  Lemma wtl_lt i : (wtl i < wtl (S i))%N.
  Proof.
    unfold wtl. destruct (weights w bs !! S i) as [y|] eqn:E2.
    - change (map (λ b, ba_weight (bk_args b)) bs !! i = Some y) in E2. rewrite map_at in E2. destruct (bs !! i) as [b|] eqn:Eb; [|done].
      injection E2 as <-. destruct (chain_at _ _ _ _ Hc _ _ Eb) as (_ & _ & (x & -> & Hx) & _). done.
    - destruct (weights w bs !! i) as [x|] eqn:E1; cbn; [|lia].
      apply elem_of_list_lookup_2, above_lt in E1. lia.
  Qed.
  Lemma T_chain : single_chain T ch.
  Proof.
    intros i. unfold growing. cbn [T t_par t_num t_wt]. rewrite !idx_ch. split; [done|]. split; [lia|apply wtl_lt].
  Qed.

  Lemma headed_agree i b pb : bs !! i = Some b → headed b pb → agree T pb ∧ pb_hash pb = ch (S i).
  Proof.
    intros Hb (E1 & E2 & E3 & E4). destruct (chain_at _ _ _ _ Hc _ _ Hb) as (A1 & A2 & (x & A3 & A4) & A5).
    assert (E : pb_hash pb = ch (S i)) by (rewrite E4; by rewrite (ch_at _ _ Hb)).
    split; [|done]. split; [by rewrite E4|]. rewrite E. cbn [T t_par t_num t_wt]. rewrite idx_ch. split; [|split].
    - rewrite E3. symmetry. exact (f_equal (default _) A1).
    - rewrite E1, A2. lia.
    - rewrite E2. unfold wtl, weights.
      change ((w :: map (λ b, ba_weight (bk_args b)) bs) !! S i) with (map (λ b, ba_weight (bk_args b)) bs !! i).
      rewrite map_at, Hb. done.
  Qed.
End tree.

Lemma ch_end base old new : ch base (old ++ new) (length old) = end_hash base old.
Proof.
  unfold ch, end_hash, hashes. destruct (last old) as [b|] eqn:E.
  - rewrite last_lookup in E. destruct old as [|x old]; [done|]. cbn [length pred] in *.
    change ((base :: map bk_hash ((x :: old) ++ new)) !! S (length old)) with (map bk_hash ((x :: old) ++ new) !! length old).
    rewrite map_at, lookup_app_l by (cbn; lia). rewrite E. done.
  - apply last_None in E as ->. done.
Qed.
Lemma wtl_end w old new : wtl w (old ++ new) (length old) = end_weight w old.
Proof.
  unfold wtl, end_weight, weights. destruct (last old) as [b|] eqn:E.
  - rewrite last_lookup in E. destruct old as [|x old]; [done|]. cbn [length pred] in *.
    change ((w :: map (λ b, ba_weight (bk_args b)) ((x :: old) ++ new)) !! S (length old))
      with (map (λ b, ba_weight (bk_args b)) ((x :: old) ++ new) !! length old).
    rewrite map_at, lookup_app_l by (cbn; lia). rewrite E. done.
  - apply last_None in E as ->. done.
Qed.

(** * What the ordering layer makes of blocks of the chain *)
Section taken.
  Context (base : hash) (num : Z) (w : N) (old new : list block) (cfg : config) (R : block → pending_batch → Prop).
  Let bs := old ++ new.
  Context (HR : ∀ b pb, R b pb → headed b pb).
  Context (Hc : chain_from base num w bs) (Hnd : NoDup (base :: map bk_hash bs)) (Hint : ∀ b, b ∈ bs → in_int64 (ba_num (bk_args b)))
    (Hl : cfg_last_hash cfg = end_hash base old) (Hw : cfg_last_weight cfg = end_weight w old)
    (Hz : cfg_last_hash cfg ≠ zero_hash)
    (Hwl : ∀ b, b ∈ bs → (0 ≤ ba_num (bk_args b))%Z ∧
       ∀ h, cfg_whitelist cfg !! ba_num (bk_args b) = Some h → h = bk_hash b).

  Lemma headed_allowed i b pb : bs !! i = Some b → headed b pb → excluded (cfg_whitelist cfg) pb = false.
  Proof.
    intros Hi (En & _ & _ & Eh). assert (Hb : b ∈ bs) by (by eapply elem_of_list_lookup_2).
    destruct (Hwl b Hb) as [H0 H1]. assert (Hn := Hint b Hb). unfold in_int64 in Hn.
    unfold excluded, uint64. rewrite En, Z.mod_small by lia.
    destruct (cfg_whitelist cfg !! _) as [h|] eqn:E; [|done]. apply bool_decide_eq_false_2. intros Hne. apply Hne.
    rewrite Eh. by apply H1.
  Qed.

  Lemma taken_chain l s0 : new_omp cfg = Ok s0 → orders_ok l → no_reorgs l →
    (∀ pb, pb ∈ batches_of l → ∃ i b, bs !! i = Some b ∧ R b pb) →
    ∃ s k, omp_run s0 l = Ok s ∧ Forall2 R (take k new) (all_added (o_out s)) ∧
      all_removed (o_out s) = [] ∧ k ≤ length new ∧
      (∀ b, new !! k = Some b → bk_hash b ∉ map pb_hash (batches_of l)) ∧
      (∀ b n, new !! k = Some b → EvEvict n ∈ o_out s → (n ≤ ba_num (bk_args b))%Z).
  Proof.
    intros H0 Hord Hnr Hfrom.
    set (n := length old).
    assert (Hch : cfg_last_hash cfg = ch base bs n) by (unfold bs, n; by rewrite ch_end).
    destruct (chain_delivered_evs (T base num w bs) (ch base bs) cfg s0 l n) as (s & k & A1 & A2 & A3 & A4 & A5 & A6 & A7).
    - by apply T_chain.
    - done.
    - by rewrite <- Hch.
    - done.
    - cbn [T t_wt]. rewrite idx_ch by done. rewrite Hw. apply wtl_end.
    - done.
    - done.
    - apply Forall_forall. intros pb Hpb. destruct (Hfrom pb Hpb) as (i & b & Hi & He). eapply headed_agree; [done|done|done|by apply HR].
    - intros pb Hpb. destruct (Hfrom pb Hpb) as (i & b & Hi & He). split; [eapply headed_allowed; [done|by apply HR]|].
      exists i. eapply headed_agree; [done|done|done|by apply HR].
    - assert (Hk : k ≤ length new).
      { destruct (decide (k ≤ length new)) as [|Hgt]; [done|]. exfalso.
        assert (Hlb : length bs = length old + length new) by (unfold bs; apply app_length).
        assert (Hin := A3 (S (length bs))).
        destruct (proj1 (elem_of_list_fmap _ _ _) (Hin ltac:(unfold n; lia))) as (pb & E & Hpb).
        destruct (Hfrom pb Hpb) as (i & b & Hi & He). assert (Hlt := lookup_lt_Some _ _ _ Hi).
        destruct (headed_agree base num w bs Hc Hnd i b pb Hi (HR _ _ He)) as [_ E'].
        rewrite E' in E. apply (f_equal (idx base bs)) in E. rewrite !idx_ch in E by done. lia. }
      exists s, k. split; [done|]. split; [|split; [done|split; [done|split]]].
      + assert (Hlen : length (all_added (o_out s)) = k).
        { rewrite <- (map_length pb_hash), A2, map_length, seq_length. done. }
        apply Forall2_same_length_lookup_2; [rewrite take_length; lia|].
        intros j b pb Hb Hpb. assert (Hj : j < k) by (rewrite <- Hlen; by eapply lookup_lt_Some).
        rewrite lookup_take in Hb by done.
        assert (Hhash : pb_hash pb = ch base bs (S n + j)).
        { assert (Hm : map pb_hash (all_added (o_out s)) !! j = Some (pb_hash pb)) by (by rewrite map_at, Hpb).
          rewrite A2, map_at, lookup_seq_lt in Hm by done. cbn in Hm. by injection Hm. }
        destruct (Hfrom pb) as (i & b' & Hi & He); [apply A5; by eapply elem_of_list_lookup_2|].
        destruct (headed_agree base num w bs Hc Hnd i b' pb Hi (HR _ _ He)) as [_ E'].
        rewrite E' in Hhash. apply (f_equal (idx base bs)) in Hhash. rewrite !idx_ch in Hhash by done.
        injection Hhash as ->. unfold bs in Hi. rewrite lookup_app_r in Hi by (unfold n; lia).
        replace (n + j - length old) with j in Hi by (unfold n; lia). assert (b' = b) as -> by congruence. done.
      + intros b Hb. assert (Hi : bs !! (n + k) = Some b).
        { unfold bs. rewrite lookup_app_r by (unfold n; lia). by replace (n + k - length old) with k by (unfold n; lia). }
        rewrite <- (ch_at base bs _ _ Hi). done.
      + intros b x Hb Hx. assert (Hi : bs !! (n + k) = Some b).
        { unfold bs. rewrite lookup_app_r by (unfold n; lia). by replace (n + k - length old) with k by (unfold n; lia). }
        specialize (A7 x Hx). cbn [T t_num] in A7. rewrite idx_ch in A7 by done.
        destruct (chain_at _ _ _ _ Hc _ _ Hi) as (_ & -> & _). lia.
  Qed.
End taken.

(** * The theorem *)
Section end_to_end.
  Context (mt : bytes → option bytes) (base : hash) (num : Z) (w : N) (old new : list block) (c : mp_config) (cfg : config).
  Let bs := old ++ new.
  Context (Hc : chain_from base num w bs) (Hnd : NoDup (base :: map bk_hash bs)) (Hwf : ∀ b, b ∈ bs → wf_block mt b)
    (Hl : cfg_last_hash cfg = end_hash base old) (Hw : cfg_last_weight cfg = end_weight w old)
    (Hz : cfg_last_hash cfg ≠ zero_hash)
    (Hwl : ∀ b, b ∈ bs → (0 ≤ ba_num (bk_args b))%Z ∧
       ∀ h, cfg_whitelist cfg !! ba_num (bk_args b) = Some h → h = bk_hash b).
  Context (y : sys) (Hrun : sys_run c cfg y).

  Lemma same_block b b' : b ∈ bs → b' ∈ bs → bk_hash b = bk_hash b' → b = b'.
  Proof.
    intros [i Hi]%elem_of_list_lookup [j Hj]%elem_of_list_lookup E.
    apply NoDup_cons in Hnd as [_ Hnd']. assert (i = j) as ->; [|congruence].
    eapply NoDup_lookup; [exact Hnd'| |]; rewrite map_at; [by rewrite Hi|]. rewrite Hj, E. done.
  Qed.
  Lemma from_faithful ms b : only_from mt bs ms → b ∈ bs → faithful mt b ms.
  Proof.
    intros Hms Hb m Hm Hab _. destruct (Hms m Hm) as (Hlen & _ & b' & Hb' & Hab' & Hcf).
    assert (b' = b) as ->; [|done]. apply same_block; [done|done|].
    apply about_hash in Hab; [|apply (wf_hash _ _ (Hwf b Hb))]. apply about_hash in Hab'; [|apply (wf_hash _ _ (Hwf b' Hb'))].
    unfold bk_hash in *. congruence.
  Qed.
  Lemma emitted_from ins st pb : consumer_run c ins st → Forall input_ok ins → only_from mt bs (messages ins) →
    pb ∈ sent_batches (mp_out st) → ∃ i b, bs !! i = Some b ∧ exact mt b (mc_tracked c) pb.
  Proof.
    intros Hr Hok Hms Hpb%elem_of_sent. destruct (emitted_about _ _ _ _ Hr Hpb) as (m & Hm & Eh).
    destruct (Hms m Hm) as (Hlen & _ & b & Hb & Hab & _).
    apply about_hash in Hab; [|apply (wf_hash _ _ (Hwf b Hb))].
    destruct (proj1 (elem_of_list_lookup _ _) Hb) as [i Hi]. exists i, b. split; [done|].
    eapply reassembly_exact; [by apply Hwf|exact Hr|done|by apply from_faithful|]. split; [done|].
    unfold bk_hash in Hab. congruence.
  Qed.
  (** Whatever the ordering layer has taken, or could take next. *)
  Lemma sys_taken l s0 : only_from mt bs (messages (y_ins y)) → new_omp cfg = Ok s0 → orders_ok l → consumed l (mp_out (y_mp y)) →
    ∃ s k, omp_run s0 l = Ok s ∧ Forall2 (λ b pb, exact mt b (mc_tracked c) pb) (take k new) (all_added (o_out s)) ∧
      all_removed (o_out s) = [] ∧ k ≤ length new ∧
      (∀ b, new !! k = Some b → bk_hash b ∉ map pb_hash (batches_of l)) ∧
      (∀ b n, new !! k = Some b → EvEvict n ∈ o_out s → (n ≤ ba_num (bk_args b))%Z).
  Proof.
    intros Hms H0 Hord [Hcb Hcr]. assert (Hv := sys_run_inv _ _ _ Hrun).
    apply (taken_chain base num w old new cfg (λ b pb, exact mt b (mc_tracked c) pb)); try done.
    - intros b pb. apply exact_headed.
    - intros b Hb. apply (wf_num _ _ (Hwf b Hb)).
    - rewrite (quiet c (y_ins y)) in Hcr; [|apply Hv|intros m Hm; by apply Hms]. apply prefix_nil_inv in Hcr.
      unfold no_reorgs, reorgs_of. unfold taken_reorgs in Hcr.
      clear -Hcr. induction l as [|[o [pb|n h]] l IH]; cbn in *; [done|by apply IH|done].
    - intros pb Hpb. eapply emitted_from; [apply Hv|apply Hv|done|]. by eapply elem_of_prefix.
  Qed.

  Lemma end_to_end : only_from mt bs (messages (y_ins y)) →
    all_removed (o_out (y_omp y)) = [] ∧
    (∃ k, Forall2 (λ b pb, exact mt b (mc_tracked c) pb) (take k new) (all_added (o_out (y_omp y)))) ∧
    ((∀ b kd, b ∈ new → needed mt b (mc_tracked c) kd → delivered (messages (y_ins y)) kd) →
     batches_of (y_taken y) = sent_batches (mp_out (y_mp y)) →
     Forall2 (λ b pb, exact mt b (mc_tracked c) pb) new (all_added (o_out (y_omp y)))).
  Proof.
    intros Hms. assert (Hv := sys_run_inv _ _ _ Hrun). destruct (sv_omp _ _ _ Hv) as (s0 & H0 & Hr).
    destruct (sys_taken (y_taken y) s0 Hms H0 (sv_ord _ _ _ Hv) (sv_con _ _ _ Hv)) as (s & k & A1 & A2 & A3 & A4 & A5 & A6).
    assert (s = y_omp y) as -> by congruence.
    split; [done|]. split; [by exists k|]. intros Hall Hdone.
    destruct (new !! k) as [b|] eqn:Hb.
    - exfalso. assert (Hin : b ∈ new) by (by eapply elem_of_list_lookup_2).
      assert (Hin' : b ∈ bs) by (apply elem_of_app; by right).
      destruct (completes mt b c (y_ins y) (y_mp y)) as (pb & Hpb & Eh); try done.
      + by apply Hwf.
      + apply Hv.
      + apply Hv.
      + by apply from_faithful.
      + intros n Hn. eapply A6; [done|]. by apply (sv_req _ _ _ Hv).
      + intros kd Hk. by eapply Hall.
      + apply (A5 b eq_refl). apply elem_of_list_fmap. exists pb. split; [done|]. rewrite Hdone. by apply elem_of_sent.
    - apply lookup_ge_None in Hb. rewrite take_ge in A2 by done. done.
  Qed.

  Lemma end_to_end_live m e i : only_from mt bs (messages (y_ins y)) →
    (only_from mt bs [m] → menv_ok e → ∃ r, process c e (y_mp y) m = Ok r) ∧
    (order_ok i.1 → consumed (y_taken y ++ [i]) (mp_out (y_mp y)) → ∃ s', omp_step (y_omp y) i = Ok s').
  Proof.
    intros Hms. assert (Hv := sys_run_inv _ _ _ Hrun). split.
    - intros Hm He. destruct (sv_mp _ _ _ Hv) as (last & st0 & Hn & Hr).
      destruct (run_total mt (λ b, b ∈ bs) c (y_ins y ++ [IMsg m e]) st0 last) as [st' Hst]; try done.
      + intros b b' Hb Hb'. by apply same_block.
      + apply Forall_app. split; [apply Hv|by apply Forall_singleton].
      + intros m' Hm'. assert (Hor : only_from mt bs [m']).
        { intros x ->%elem_of_list_singleton. apply elem_messages_snoc in Hm' as [Hm'|[e' [= <- <-]]]; [by apply Hms|].
          apply Hm. by apply elem_of_list_singleton. }
        destruct (Hor m') as (H1 & _ & b & H2 & H3); [by apply elem_of_list_singleton|]. split; [done|]. right. by exists b.
      + apply run_snoc_inv in Hst as (st & Hr' & Hs). assert (st = y_mp y) as -> by congruence.
        cbn in Hs. destruct (process c e (y_mp y) m) as [r| |]; try discriminate. eauto.
    - intros Ho Hcons. destruct (sv_omp _ _ _ Hv) as (s0 & H0 & Hr).
      destruct (sys_taken (y_taken y ++ [i]) s0 Hms H0) as (s & k & A1 & _); try done.
      + apply Forall_app. split; [apply Hv|by apply Forall_singleton].
      + unfold omp_run in A1, Hr. rewrite foldM_app, Hr in A1. cbn in A1. destruct (omp_step (y_omp y) i) as [s'| |]; try discriminate. eauto.
  Qed.
End end_to_end.
