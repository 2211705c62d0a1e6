From Verif Require Import Base Waiter SpecWaiter WaiterFacts WaiterFacts2.

(** ** How long announced blocks are found *)
Definition expired (tr : list waction) (n : Z) : Prop := ∃ t, donen tr n t ∧ (t + sixty ≤ clock tr)%N.
Lemma clock_snoc tr a : (clock tr ≤ clock (tr ++ [a]))%N.
Proof. rewrite clock_app. lia. Qed.
Lemma expired_mono tr a n : expired tr n → expired (tr ++ [a]) n.
Proof. intros (t & H1 & H2). exists t. split; [by apply donen_mono|]. pose proof (clock_snoc tr a). lia. Qed.

Definition alone (tr : list waction) (x : hash * Z * N) : Prop := x ∈ received tr ∧ ∀ y, y ∈ received tr → y.1.1 = x.1.1 → y = x.
Definition found (tr : list waction) (s : wst) : Prop :=
  (∀ h n ch, alone tr (h, n, ch) → w_hashes s !! h = Some ch ∨ expired tr n) ∧
  (∀ h n ch, (h, n, ch) ∈ received tr → is_Some (w_numbers s !! n) ∨ expired tr n).

Lemma found_step tr a s s' : basic tr s → good tr s → found tr s → wstep s a = Ok s' → found (tr ++ [a]) s'.
Proof.
  intros B G [F1 F2] Hs.
  assert (Hkeep : a ≠ ARecv → w_hashes s' = w_hashes s → w_numbers s' = w_numbers s → found (tr ++ [a]) s').
  { intros Ha H1 H2. assert (Hrec : received (tr ++ [a]) = received tr).
    { unfold received. rewrite arrivals_snoc. destruct a; try done; by rewrite app_nil_r. }
    split.
    - intros h n ch [Hh1 Hh2]. rewrite Hrec in Hh1, Hh2. rewrite H1. destruct (F1 h n ch) as [?|?]; [done|by left|right; by apply expired_mono].
    - intros h n ch Hr. rewrite Hrec in Hr. rewrite H2. destruct (F2 _ _ _ Hr); [by left|right; by apply expired_mono]. }
  destruct a as [h n ch| |id|id|id|d|ch|k ch|k|q k d|q b|q]; cbn [wstep] in Hs.
  - injection Hs as <-. by apply Hkeep.
  - injection Hs as <-. unfold receive. rewrite (b_queue _ _ B). clear Hkeep. destruct (endq tr []) as [|[[h n] ch] r] eqn:Eq.
    + assert (Hrec : received (tr ++ [ARecv]) = received tr). { unfold received. rewrite arrivals_snoc, Eq. by rewrite app_nil_r. }
      split.
      * intros h n ch [Hh1 Hh2]. rewrite Hrec in Hh1, Hh2. destruct (F1 h n ch) as [?|?]; [done|by left|right; by apply expired_mono].
      * intros h n ch Hr. rewrite Hrec in Hr. destruct (F2 _ _ _ Hr); [by left|right; by apply expired_mono].
    + assert (Hrec : received (tr ++ [ARecv]) = received tr ++ [(h, n, ch)]). { unfold received. by rewrite arrivals_snoc, Eq. }
      set (s1 := match w_numbers s !! n with Some c => _ | None => _ end).
      split.
      * intros h' n' ch' [Hh1 Hh2]. destruct (decide (h' = h)) as [->|Hne].
        -- left. assert ((h, n, ch) = (h, n', ch')) as [= <- <-]. { apply Hh2; [|done]. rewrite Hrec. apply elem_of_app. right. left. }
           unfold s1. destruct (w_numbers s !! n); cbn [w_hashes]; by rewrite lookup_insert.
        -- assert (alone tr (h', n', ch')) as Ha.
           { rewrite Hrec in Hh1, Hh2. split.
             - apply elem_of_app in Hh1 as [?|Hh1]; [done|]. apply elem_of_list_singleton in Hh1. by injection Hh1 as -> _ _.
             - intros y Hy. apply Hh2. apply elem_of_app. by left. }
           destruct (F1 _ _ _ Ha) as [H|H]; [left|right; by apply expired_mono].
           unfold s1. destruct (w_numbers s !! n); cbn [w_hashes]; by rewrite lookup_insert_ne.
      * intros h' n' ch' Hr. rewrite Hrec in Hr. destruct (decide (n' = n)) as [->|Hne].
        -- left. unfold s1. destruct (w_numbers s !! n) eqn:En; cbn [w_numbers]; [by rewrite En; eexists|rewrite lookup_insert; by eexists].
        -- apply elem_of_app in Hr as [Hr|Hr]; [|apply elem_of_list_singleton in Hr; by injection Hr as _ -> _].
           destruct (F2 _ _ _ Hr) as [H|H]; [left|right; by apply expired_mono].
           unfold s1. destruct (w_numbers s !! n); cbn [w_numbers]; [done|by rewrite lookup_insert_ne].
  - destruct (w_tasks s !! id) as [[nch hch h n|]|]; [|by injection Hs as <-; apply Hkeep|by injection Hs as <-; apply Hkeep].
    case_bool_decide; [|by injection Hs as <-; apply Hkeep]. case_bool_decide; cbn [mbind outcome_bind] in Hs.
    + injection Hs as <-. by apply Hkeep.
    + destruct (close (CN n nch) s) as [s1| |] eqn:Ec; try done. injection Hs as <-. apply close_ok in Ec as [_ ->]. by apply Hkeep.
  - destruct (w_tasks s !! id) as [[nch hch h n|]|]; try case_bool_decide; injection Hs as <-; by apply Hkeep.
  - destruct (w_tasks s !! id) as [[nch hch h n|until h num]|] eqn:Et; [by injection Hs as <-; apply Hkeep| |by injection Hs as <-; apply Hkeep].
    case_bool_decide as E1; [|by injection Hs as <-; apply Hkeep]. injection Hs as <-. clear Hkeep.
    assert (Hrec : received (tr ++ [AExpire id]) = received tr). { unfold received. rewrite arrivals_snoc. by rewrite app_nil_r. }
    destruct (g_sleep _ _ G _ _ _ _ Et) as (n & ch & t & I1 & I2 & I3 & I4).
    assert (Hx : expired (tr ++ [AExpire id]) n).
    { apply expired_mono. exists t. split; [done|]. rewrite <- (b_now _ _ B). lia. }
    split.
    + intros h' n' ch' [Hh1 Hh2]. rewrite Hrec in Hh1, Hh2. destruct (decide (h' = h)) as [->|Hne].
      * assert ((h, n, ch) = (h, n', ch')) as [= <- <-] by (by apply Hh2). by right.
      * destruct (F1 h' n' ch') as [?|?]; [done| |right; by apply expired_mono]. left. cbn. by rewrite lookup_delete_ne.
    + intros h' n' ch' Hr. rewrite Hrec in Hr. destruct (decide (n' = n)) as [->|Hne]; [by right|].
      destruct (F2 _ _ _ Hr) as [H|H]; [left|right; by apply expired_mono]. cbn. destruct I2 as [->| ->]; [done|]. by rewrite lookup_delete_ne.
  - injection Hs as <-. by apply Hkeep.
  - unfold done in Hs. case_bool_decide; [by injection Hs as <-; apply Hkeep|]. apply close_ok in Hs as [_ ->]. by apply Hkeep.
  - injection Hs as <-. case_bool_decide; by apply Hkeep.
  - destruct (w_regs s !! k); [|by injection Hs as <-; apply Hkeep]. apply close_ok in Hs as [_ ->]. by apply Hkeep.
  - destruct (w_qs s !! q); injection Hs as <-; by apply Hkeep.
  - destruct (w_qs s !! q) as [[]|]; injection Hs as <-; by apply Hkeep.
  - destruct (w_qs s !! q) as [[]|]; try case_bool_decide; injection Hs as <-; by apply Hkeep.
Qed.
Lemma run_found tr s : wrun tr w_init = Ok s → found tr s.
Proof.
  revert tr s. apply run_ind.
  - split; intros h n ch H; [destruct H as [H _]|]; by apply elem_of_nil in H.
  - intros tr a s s' Hr Hf Hs. eapply found_step; [by apply run_basic|by apply run_good|done|done].
Qed.

(** ** When queries were made *)
Definition asked (tr : list waction) (q : N) (x : query) : Prop :=
  match x with
  | QLooked k c d => ALookup q k d ∈ tr
  | QParked k c dl => ∃ pre b post d, tr = pre ++ ASelect q b :: post ∧ ALookup q k d ∈ pre ∧ (0 < d ∨ b = false)%Z ∧ dl = (clock pre + Z.to_N d)%N
  | QDone k r => ∃ d, ALookup q k d ∈ tr
  end.
Lemma asked_mono tr a q x : asked tr q x → asked (tr ++ [a]) q x.
Proof.
  destruct x; cbn.
  - intros H. apply elem_of_app. by left.
  - intros (pre & b & post & d & -> & H). exists pre, b, (post ++ [a]), d. by rewrite <- app_assoc.
  - intros [d H]. exists d. apply elem_of_app. by left.
Qed.
Definition asked_all (tr : list waction) (s : wst) : Prop := ∀ q x, w_qs s !! q = Some x → asked tr q x.
Lemma asked_wake tr q c x : asked tr q x → asked tr q (wake_query c x).
Proof.
  destruct x as [| k c' dl|]; cbn; try done. case_bool_decide as Hcd; [|done]. intros (pre & b & post & d & -> & H & _). exists d. apply elem_of_app. by left.
Qed.
Lemma asked_step tr a s s' : basic tr s → asked_all tr s → wstep s a = Ok s' → asked_all (tr ++ [a]) s'.
Proof.
  intros B Q Hs.
  assert (Hkeep : w_qs s' = w_qs s → asked_all (tr ++ [a]) s') by (intros E q x H; rewrite E in H; by apply asked_mono, Q).
  assert (Hwake : ∀ c, w_qs s' = wake_query c <$> w_qs s → asked_all (tr ++ [a]) s').
  { intros c E q x H. rewrite E, lookup_fmap in H. destruct (w_qs s !! q) as [y|] eqn:Ey; [|done]. injection H as <-. by apply asked_wake, asked_mono, Q. }
  destruct a as [h n ch| |id|id|id|d|ch|k ch|k|q k d|q b|q]; cbn [wstep] in Hs.
  - injection Hs as <-. by apply Hkeep.
  - injection Hs as <-. apply Hkeep. unfold receive. destruct (w_queue s) as [|[[h n] ch] r]; [done|]. by destruct (w_numbers s !! n).
  - destruct (w_tasks s !! id) as [[nch hch h n|]|]; [|by injection Hs as <-; apply Hkeep|by injection Hs as <-; apply Hkeep].
    case_bool_decide; [|by injection Hs as <-; apply Hkeep]. case_bool_decide; cbn [mbind outcome_bind] in Hs.
    + injection Hs as <-. by apply Hkeep.
    + destruct (close (CN n nch) s) as [s1| |] eqn:Ec; try done. injection Hs as <-. apply close_ok in Ec as [_ ->]. by eapply Hwake.
  - destruct (w_tasks s !! id) as [[nch hch h n|]|]; try case_bool_decide; injection Hs as <-; by apply Hkeep.
  - destruct (w_tasks s !! id) as [[nch hch h n|]|]; try case_bool_decide; injection Hs as <-; by apply Hkeep.
  - injection Hs as <-. by apply Hkeep.
  - unfold done in Hs. case_bool_decide; [by injection Hs as <-; apply Hkeep|]. apply close_ok in Hs as [_ ->]. by eapply Hwake.
  - injection Hs as <-. case_bool_decide; by apply Hkeep.
  - destruct (w_regs s !! k); [|by injection Hs as <-; apply Hkeep]. apply close_ok in Hs as [_ ->]. by eapply Hwake.
  - destruct (w_qs s !! q) eqn:Eq; injection Hs as <-; [by apply Hkeep|]. intros q' x H. cbn in H. apply lookup_insert_Some in H as [[<- <-]|[_ H]]; [|by apply asked_mono, Q].
    destruct (find s k); cbn; [|exists d]; apply elem_of_app; right; left.
  - destruct (w_qs s !! q) as [[k c d| |]|] eqn:Eq; injection Hs as <-; try by apply Hkeep. intros q' x H. cbn in H.
    apply lookup_insert_Some in H as [[<- <-]|[_ H]]; [|by apply asked_mono, Q]. pose proof (Q _ _ Eq) as Hq. cbn in Hq.
    destruct (bool_decide (d ≤ 0)%Z && b) eqn:Eb; [exists d; apply elem_of_app; by left|].
    case_bool_decide; [exists d; apply elem_of_app; by left|]. cbn. exists tr, b, [], d. split; [done|]. split; [done|]. split; [|by rewrite (b_now _ _ B)].
    apply andb_false_iff in Eb as [Eb| ->]; [|by right]. apply bool_decide_eq_false_1 in Eb. left. lia.
  - destruct (w_qs s !! q) as [[|k c dl|]|] eqn:Eq; try case_bool_decide as Hcd; injection Hs as <-; try by apply Hkeep. intros q' x H. cbn in H.
    apply lookup_insert_Some in H as [[<- <-]|[_ H]]; [|by apply asked_mono, Q]. destruct (Q _ _ Eq) as (pre & b & post & d & -> & H1 & _).
    exists d. apply elem_of_app. left. apply elem_of_app. by left.
Qed.
Lemma run_asked tr s : wrun tr w_init = Ok s → asked_all tr s.
Proof.
  revert tr s. apply run_ind; [by intros q x H|]. intros tr a s s' Hr Hq Hs. eapply asked_step; [by apply run_basic|done|done].
Qed.

(** A query on a hash times out. *)
Lemma timeout_truthful tr a s s' q h : wrun tr w_init = Ok s → wstep s a = Ok s' →
  w_qs s !! q ≠ Some (QDone (KHash h) Timeout) → w_qs s' !! q = Some (QDone (KHash h) Timeout) →
  ∃ d, ALookup q (KHash h) d ∈ tr ∧
    ((d ≤ 0)%Z ∨ ∃ pre b post n ch, tr = pre ++ ASelect q b :: post ∧ (clock pre + Z.to_N d ≤ clock tr)%N ∧ (h, n, ch) ∈ received tr ∧ ADone ch ∉ tr).
Proof.
  intros Hr Hs Hn Hq. pose proof (run_basic _ _ Hr) as B. pose proof (run_good _ _ Hr) as G. pose proof (run_asked _ _ Hr) as Q.
  assert (Hwake : ∀ c, w_qs s' = wake_query c <$> w_qs s → False).
  { intros c E. rewrite E, lookup_fmap in Hq. destruct (w_qs s !! q) as [y|] eqn:Ey; [|done]. injection Hq as Hq. destruct y; cbn in Hq; [done|case_bool_decide; done|]. by rewrite Hq in Hn. }
  assert (Hsame : w_qs s' = w_qs s → False) by (intros E; by rewrite E in Hq).
  destruct a as [h' n ch| |id|id|id|d|ch|k ch|k|q' k d|q' b|q']; cbn [wstep] in Hs.
  - injection Hs as <-. by destruct Hsame.
  - injection Hs as <-. destruct Hsame. unfold receive. destruct (w_queue s) as [|[[h' n] ch] r]; [done|]. by destruct (w_numbers s !! n).
  - exfalso. destruct (w_tasks s !! id) as [[nch hch h' n|]|]; [|by injection Hs as <-; apply Hsame|by injection Hs as <-; apply Hsame].
    case_bool_decide; [|by injection Hs as <-; apply Hsame]. case_bool_decide; cbn [mbind outcome_bind] in Hs.
    + injection Hs as <-. by apply Hsame.
    + destruct (close (CN n nch) s) as [s1| |] eqn:Ec; try done. injection Hs as <-. apply close_ok in Ec as [_ ->]. by eapply Hwake.
  - exfalso. destruct (w_tasks s !! id) as [[nch hch h' n|]|]; try case_bool_decide; injection Hs as <-; by apply Hsame.
  - exfalso. destruct (w_tasks s !! id) as [[nch hch h' n|]|]; try case_bool_decide; injection Hs as <-; by apply Hsame.
  - exfalso. injection Hs as <-. by apply Hsame.
  - exfalso. unfold done in Hs. case_bool_decide; [by injection Hs as <-; apply Hsame|]. apply close_ok in Hs as [_ ->]. by eapply Hwake.
  - exfalso. injection Hs as <-. case_bool_decide; by apply Hsame.
  - exfalso. destruct (w_regs s !! k); [|by injection Hs as <-; apply Hsame]. apply close_ok in Hs as [_ ->]. by eapply Hwake.
  - exfalso. destruct (w_qs s !! q') eqn:Eq; injection Hs as <-; [by apply Hsame|]. cbn in Hq. apply lookup_insert_Some in Hq as [[-> Hq]|[_ Hq]]; [|done].
    by destruct (find s k).
  - destruct (w_qs s !! q') as [[k c d| |]|] eqn:Eq; injection Hs as <-; try by destruct Hsame. cbn in Hq.
    apply lookup_insert_Some in Hq as [[-> Hq]|[_ Hq]]; [|done]. pose proof (Q _ _ Eq) as Ha. cbn in Ha.
    destruct (bool_decide (d ≤ 0)%Z && b) eqn:Eb; [|by case_bool_decide]. injection Hq as ->. exists d. split; [done|]. left.
    apply andb_true_iff in Eb as [Eb _]. by apply bool_decide_eq_true_1 in Eb.
  - destruct (w_qs s !! q') as [[|k c dl|]|] eqn:Eq; try case_bool_decide as Hdl; injection Hs as <-; try by destruct Hsame. cbn in Hq.
    apply lookup_insert_Some in Hq as [[-> Hq]|[_ Hq]]; [|done]. injection Hq as ->.
    destruct (Q _ _ Eq) as (pre & b & post & d & E & Hl & _ & Hd). destruct (g_parked _ _ G _ _ _ _ Eq) as [(n & ch & -> & Hrec) Hc].
    exists d. split; [rewrite E; apply elem_of_app; by left|]. right. exists pre, b, post, n, ch. split; [done|]. split; [rewrite <- (b_now _ _ B); lia|].
    split; [done|]. intros Hd'. apply Hc. apply (b_nil _ _ B). by apply (b_done _ _ B).
Qed.

(** ** Calls of Done never panic if they do not overlap *)
Lemma close_ne_panic tr s c : basic tr s → (∀ ch, c = CH ch → ch ∉ w_nil s) → (∀ n id, c = CN n id → c ∉ w_closed s) → ∃ s', close c s = Ok s'.
Proof.
  intros B H1 H2. unfold close. rewrite bool_decide_eq_false_2; [by eexists|]. destruct c as [ch|n id]; [|by eapply H2].
  rewrite (b_nil _ _ B). by apply H1.
Qed.
Definition calls_ok (open : gmap N N) (s : wst) : Prop :=
  w_regs s ⊆ open ∧ (∀ k ch, w_regs s !! k = Some ch → ch ∉ w_nil s) ∧ (∀ k1 k2 ch, open !! k1 = Some ch → open !! k2 = Some ch → k1 = k2).
Lemma serial_ok tr0 tr open s : basic tr0 s → calls_ok open s → serial open tr → ∃ s', wrun tr s = Ok s'.
Proof.
  revert tr0 open s. induction tr as [|a tr IH]; intros tr0 open s B (C1 & C2 & C3) Hser; [by exists s|].
  unfold wrun in *. cbn [foldM].
  assert (Hone : ∀ open' s', wstep s a = Ok s' → calls_ok open' s' → serial open' tr → ∃ s'', (s0 ← wstep s a; foldM wstep tr s0) = Ok s'').
  { intros open' s' E C S. rewrite E. cbn [mbind outcome_bind]. eapply (IH (tr0 ++ [a])); [by eapply basic_step|done|done]. }
  assert (Hkeep : ∀ s', wstep s a = Ok s' → w_regs s' = w_regs s → w_nil s' = w_nil s → serial open tr → ∃ s'', (s0 ← wstep s a; foldM wstep tr s0) = Ok s'').
  { intros s' E E1 E2 S. eapply Hone; [done| |done]. split; [by rewrite E1|]. split; [|done]. intros k ch. rewrite E1, E2. apply C2. }
  destruct a as [h n ch| |id|id|id|d|ch|k ch|k|q k d|q b|q]; cbn [serial] in Hser.
  - by eapply Hkeep.
  - eapply Hkeep; [done| | |done]; unfold receive; destruct (w_queue s) as [|[[h n] ch] r]; try done; by destruct (w_numbers s !! n).
  - cbn [wstep] in *. destruct (w_tasks s !! id) as [[nch hch h n|]|]; [|by eapply Hkeep|by eapply Hkeep].
    case_bool_decide; [|by eapply Hkeep]. case_bool_decide as E2; [by eapply Hkeep|].
    destruct (close_ne_panic _ s (CN n nch) B) as [s1 E1]; [done|by intros ? ? [= <- <-]|]. rewrite E1 in *. cbn [mbind outcome_bind] in *.
    apply close_ok in E1 as [_ ->]. by eapply Hkeep.
  - cbn [wstep] in *. destruct (w_tasks s !! id) as [[nch hch h n|]|]; [|by eapply Hkeep|by eapply Hkeep]. case_bool_decide; by eapply Hkeep.
  - cbn [wstep] in *. destruct (w_tasks s !! id) as [[nch hch h n|]|]; [by eapply Hkeep| |by eapply Hkeep]. case_bool_decide; by eapply Hkeep.
  - by eapply Hkeep.
  - destruct Hser as [Hd Hser]. cbn [wstep] in *. unfold done in *. case_bool_decide as E; [by eapply Hkeep|].
    destruct (close (CH ch) (set_nil s ({[ch]} ∪ w_nil s))) as [s1| |] eqn:Ec; unfold close in Ec; cbn [set_nil w_closed] in Ec;
      (rewrite bool_decide_eq_false_2 in Ec; [|by intros Hbc%(b_nil _ _ B)]); try done.
    injection Ec as <-. eapply Hone; [done| |done]. split; [done|]. split; [|done]. cbn. intros k c Hk. apply not_elem_of_union. split; [|by eapply C2].
    apply not_elem_of_singleton. eapply (Hd k c), lookup_weaken; [exact Hk|exact C1].
  - destruct Hser as (Hk & Hd & Hser). cbn [wstep] in *. assert (C3' : ∀ k1 k2 c, <[k := ch]> open !! k1 = Some c → <[k := ch]> open !! k2 = Some c → k1 = k2).
    { intros k1 k2 c H1 H2. apply lookup_insert_Some in H1 as [[E1 E1']|[N1 H1]]; apply lookup_insert_Some in H2 as [[E2 E2']|[N2 H2]]; subst; [done| | |by eapply C3].
      - by destruct (Hd _ _ H2).
      - by destruct (Hd _ _ H1). }
    case_bool_decide as E.
    + eapply Hone; [done| |done]. split; [transitivity open; [done|by apply insert_subseteq]|done].
    + eapply Hone; [done| |done]. split; [cbn; by apply insert_mono|]. split; [|done]. cbn. intros k' c Hk'.
      apply lookup_insert_Some in Hk' as [[<- <-]|[_ Hk']]; [done|by eapply C2].
  - cbn [wstep] in *. assert (C3' : ∀ k1 k2 c, delete k open !! k1 = Some c → delete k open !! k2 = Some c → k1 = k2).
    { intros k1 k2 c H1 H2. apply lookup_delete_Some in H1 as [_ H1]. apply lookup_delete_Some in H2 as [_ H2]. by eapply C3. }
    destruct (w_regs s !! k) as [ch|] eqn:Ek.
    + destruct (close (CH ch) (set_regs (set_nil s ({[ch]} ∪ w_nil s)) (delete k (w_regs s)))) as [s1| |] eqn:Ec; unfold close in Ec; cbn [set_nil set_regs w_closed] in Ec;
        (rewrite bool_decide_eq_false_2 in Ec; [|intros Hbc%(b_nil _ _ B); by eapply C2]); try done.
      injection Ec as <-. eapply Hone; [done| |done]. split; [cbn; by apply delete_mono|]. split; [|done]. cbn. intros k' c Hk'.
      apply lookup_delete_Some in Hk' as [Hne Hk']. apply not_elem_of_union. split; [|by eapply C2]. apply not_elem_of_singleton. intros ->.
      apply Hne. eapply C3; (eapply lookup_weaken; [eassumption|exact C1]).
    + eapply Hone; [done| |done]. split; [|done]. apply map_subseteq_spec. intros k' c Hk'. rewrite lookup_delete_ne; [by eapply lookup_weaken|]. congruence.
  - cbn [wstep] in *. destruct (w_qs s !! q); by eapply Hkeep.
  - cbn [wstep] in *. destruct (w_qs s !! q) as [[]|]; by eapply Hkeep.
  - cbn [wstep] in *. destruct (w_qs s !! q) as [[]|]; try case_bool_decide; by eapply Hkeep.
Qed.
Lemma run_serial tr : serial ∅ tr → ∃ s, wrun tr w_init = Ok s.
Proof. intros H. eapply serial_ok; [apply basic_init| |done]. split; [done|]. by split. Qed.

(** ** ChainUpdate.Done *)
Lemma done_ok s ch : (CH ch ∈ w_closed s ↔ ch ∈ w_nil s) → ∃ s', done s ch = Ok s' ∧ ch ∈ w_nil s' ∧
  w_nil s' = {[ch]} ∪ w_nil s ∧ w_closed s' = {[CH ch]} ∪ w_closed s ∧ w_regs s' = w_regs s ∧
  (ch ∉ w_nil s → w_qs s' = wake_query (CH ch) <$> w_qs s) ∧ (ch ∈ w_nil s → s' = s).
Proof.
  intros H. unfold done. case_bool_decide as E.
  - exists s. split; [done|]. split; [done|]. split; [set_solver|]. split; [set_solver|]. done.
  - unfold close. cbn [set_nil w_closed]. rewrite bool_decide_eq_false_2 by (by rewrite H). eexists. split; [reflexivity|].
    split; [cbn; set_solver|]. done.
Qed.
Definition waked (l : list N) (q : query) : query :=
  match q with QParked k (CH ch) dl => if bool_decide (ch ∈ l) then QDone k Success else q | _ => q end.
Lemma update_done_ok l s : (∀ ch, CH ch ∈ w_closed s ↔ ch ∈ w_nil s) → (∀ q k c dl, w_qs s !! q = Some (QParked k c dl) → c ∉ w_closed s) →
  ∃ s', foldM done l s = Ok s' ∧ w_nil s' = list_to_set l ∪ w_nil s ∧ w_closed s' = list_to_set (CH <$> l) ∪ w_closed s ∧ w_regs s' = w_regs s ∧
    w_qs s' = waked l <$> w_qs s ∧ (Forall (λ ch, ch ∈ w_nil s) l → s' = s).
Proof.
  revert s. induction l as [|ch l IH]; intros s Hc Hp.
  - exists s. split; [done|]. split; [set_solver|]. split; [set_solver|]. split; [done|]. split; [|done].
    apply map_eq. intros q. rewrite lookup_fmap. destruct (w_qs s !! q) as [[| k [] |]|]; cbn; done.
  - destruct (done_ok s ch (Hc ch)) as (s1 & E1 & _ & En & Ecl & Er & Ew & Es). cbn [foldM]. rewrite E1. cbn [mbind outcome_bind].
    assert (Hqs : w_qs s1 = waked [ch] <$> w_qs s).
    { destruct (decide (ch ∈ w_nil s)) as [Hin|Hin].
      - rewrite Es by done. apply map_eq. intros q. rewrite lookup_fmap. destruct (w_qs s !! q) as [[| k c dl |]|] eqn:Eq; cbn; try done.
        destruct c as [c|]; [|done]. case_bool_decide as Hd; [|done]. apply elem_of_list_singleton in Hd as ->. apply Hp in Eq. destruct Eq. by apply Hc.
      - rewrite Ew by done. apply map_eq. intros q. rewrite !lookup_fmap. destruct (w_qs s !! q) as [[| k c dl |]|] eqn:Eq; cbn; try done.
        destruct c as [c|n i]; [|by rewrite bool_decide_eq_false_2]. repeat case_bool_decide; try done; set_solver. }
    destruct (IH s1) as (s2 & E2 & En2 & Ecl2 & Er2 & Eq2 & Es2).
    + intros c. rewrite En, Ecl. rewrite !elem_of_union, !elem_of_singleton, Hc. naive_solver.
    + intros q k c dl H. rewrite Hqs, lookup_fmap in H. rewrite Ecl. destruct (w_qs s !! q) as [[| k' c' dl' |]|] eqn:Eq; cbn in H; try done.
      apply Hp in Eq. destruct c' as [c'|n i].
      * case_bool_decide as Hd; [done|]. injection H as <- <- <-. set_solver.
      * injection H as <- <- <-. set_solver.
    + exists s2. split; [done|]. split; [rewrite En2, En; set_solver|]. split; [rewrite Ecl2, Ecl; set_solver|]. split; [by rewrite Er2|].
      split.
      * rewrite Eq2, Hqs. apply map_eq. intros q. rewrite !lookup_fmap. destruct (w_qs s !! q) as [[| k [c|n i] dl |]|]; cbn; try done.
        destruct (decide (c = ch)) as [->|Hne].
        -- rewrite bool_decide_eq_true_2 by (by apply elem_of_list_singleton). cbn. rewrite bool_decide_eq_true_2 by left. done.
        -- rewrite (bool_decide_eq_false_2 (c ∈ [ch])) by (by rewrite elem_of_list_singleton). cbn. f_equal.
           destruct (decide (c ∈ l)); [rewrite !bool_decide_eq_true_2; [done|by right|done]|]. rewrite !bool_decide_eq_false_2; [done| |done]. by apply not_elem_of_cons.
      * intros HF. apply Forall_cons in HF as [HF1 HF2]. assert (s1 = s) as -> by (by apply Es). by apply Es2.
Qed.
