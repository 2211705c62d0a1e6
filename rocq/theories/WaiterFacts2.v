From Verif Require Import Base Waiter SpecWaiter WaiterFacts.

(** ** Channels, goroutines and queries *)
Definition chan_of (tr : list waction) (k : wkey) (c : wchan) : Prop :=
  match k with
  | KHash h => ∃ n ch, c = CH ch ∧ (h, n, ch) ∈ received tr
  | KNum n => ∃ id, c = CN n id
  end.
(** A completed batch accounts for the closed channel. *)
Definition accounted (tr : list waction) (c : wchan) : Prop :=
  match c with
  | CH ch => ∃ t, called_at tr ch t
  | CN n _ => ∃ t, donen tr n t
  end.
Definition truthful (tr : list waction) (k : wkey) : Prop := ∃ x, x ∈ received tr ∧ matches k x ∧ called tr x.2.

Record good (tr : list waction) (s : wst) : Prop := {
  g_closed : ∀ c, c ∈ w_closed s → accounted tr c;
  g_hash : ∀ h ch, w_hashes s !! h = Some ch → ∃ n, (h, n, ch) ∈ received tr;
  g_wait : ∀ id nch hch h n, w_tasks s !! id = Some (TWait nch hch h n) → (h, n, hch) ∈ received tr;
  g_sleep : ∀ id until h num, w_tasks s !! id = Some (TSleep until h num) →
    ∃ n ch t, (h, n, ch) ∈ received tr ∧ (num = None ∨ num = Some n) ∧ donen tr n t ∧ (t + sixty ≤ until)%N;
  g_looked : ∀ q k c d, w_qs s !! q = Some (QLooked k c d) → chan_of tr k c;
  g_parked : ∀ q k c dl, w_qs s !! q = Some (QParked k c dl) → chan_of tr k c ∧ c ∉ w_closed s;
  g_success : ∀ q k, w_qs s !! q = Some (QDone k Success) → truthful tr k
}.

Lemma chan_of_mono tr a k c : chan_of tr k c → chan_of (tr ++ [a]) k c.
Proof. destruct k; [|done]. intros (n & ch & -> & H). exists n, ch. split; [done|by apply received_snoc]. Qed.
Lemma accounted_mono tr a c : accounted tr c → accounted (tr ++ [a]) c.
Proof. destruct c; intros [t H]; exists t; [by apply called_at_mono|by apply donen_mono]. Qed.
Lemma called_mono tr a ch : called tr ch → called (tr ++ [a]) ch.
Proof. intros [H|[k H]]; [left|right; exists k]; apply elem_of_app; by left. Qed.
Lemma truthful_mono tr a k : truthful tr k → truthful (tr ++ [a]) k.
Proof. intros (x & H1 & H2 & H3). exists x. split; [by apply received_snoc|]. split; [done|by apply called_mono]. Qed.
Lemma chan_accounted tr k c : chan_of tr k c → accounted tr c → truthful tr k.
Proof.
  destruct k as [h|n].
  - intros (n & ch & -> & H) [t Ht]. exists (h, n, ch). split; [done|]. split; [done|]. by eapply called_at_called.
  - intros [id ->] [t (h & c' & H1 & H2)]. exists (h, n, c'). split; [done|]. split; [done|]. by eapply called_at_called.
Qed.

(** A channel is closed. *)
Lemma good_close tr a s c s' : good tr s → accounted (tr ++ [a]) c → close c s = Ok s' →
  good (tr ++ [a]) s'.
Proof.
  intros [Gc Gh Gw Gs Gl Gp Gu] Hc Hs. apply close_ok in Hs as [Hn ->]. split; cbn [w_closed w_hashes w_tasks w_qs].
  - intros c' [->%elem_of_singleton|H]%elem_of_union; [done|]. by apply accounted_mono, Gc.
  - intros h ch H. destruct (Gh _ _ H) as [n Hr]. exists n. by apply received_snoc.
  - intros id nch hch h n H. by eapply received_snoc, Gw.
  - intros id until h num H. destruct (Gs _ _ _ _ H) as (n & ch & t & H1 & H2 & H3 & H4). exists n, ch, t. split; [by apply received_snoc|].
    split; [done|]. split; [by apply donen_mono|done].
  - intros q k c' d H. rewrite lookup_fmap in H. destruct (w_qs s !! q) as [q0|] eqn:E; [|done]. cbn in H. injection H as H. destruct q0; cbn in H; [|case_bool_decide; done|done].
    injection H as -> -> ->. by eapply chan_of_mono, Gl.
  - intros q k c' dl H. rewrite lookup_fmap in H. destruct (w_qs s !! q) as [q0|] eqn:E; [|done]. cbn in H. injection H as H. destruct q0; cbn in H; [done| |done].
    case_bool_decide as Hd; [done|]. injection H as -> -> ->. destruct (Gp _ _ _ _ E) as [H1 H2]. split; [by apply chan_of_mono|]. apply not_elem_of_union. split; [|done]. by apply not_elem_of_singleton.
  - intros q k H. rewrite lookup_fmap in H. destruct (w_qs s !! q) as [q0|] eqn:E; [|done]. cbn in H. injection H as H. destruct q0; cbn in H; [done| |].
    + case_bool_decide as Hd; [|done]. injection H as ->. subst. destruct (Gp _ _ _ _ E) as [H1 _]. eapply chan_accounted; [by apply chan_of_mono|done].
    + injection H as -> ->. by eapply truthful_mono, Gu.
Qed.
(** Nothing relevant changes. *)
Lemma good_keep tr a s s' : good tr s → w_closed s' = w_closed s → w_hashes s' = w_hashes s → w_tasks s' = w_tasks s →
  w_qs s' = w_qs s → good (tr ++ [a]) s'.
Proof.
  intros [Gc Gh Gw Gs Gl Gp Gu] H1 H2 H3 H4. split; rewrite ?H1, ?H2, ?H3, ?H4.
  - intros c H. by apply accounted_mono, Gc.
  - intros h ch H. destruct (Gh _ _ H) as [n Hr]. exists n. by apply received_snoc.
  - intros id nch hch h n H. by eapply received_snoc, Gw.
  - intros id until h num H. destruct (Gs _ _ _ _ H) as (n & ch & t & I1 & I2 & I3 & I4). exists n, ch, t. split; [by apply received_snoc|].
    split; [done|]. split; [by apply donen_mono|done].
  - intros q k c d H. by eapply chan_of_mono, Gl.
  - intros q k c dl H. destruct (Gp _ _ _ _ H). split; [by apply chan_of_mono|done].
  - intros q k H. by eapply truthful_mono, Gu.
Qed.
(** A goroutine goes to sleep. *)
Lemma good_sleep tr s id h num n ch t : good tr s → (h, n, ch) ∈ received tr → (num = None ∨ num = Some n) → donen tr n t → (t ≤ w_now s)%N →
  good tr (set_tasks s (<[id := TSleep (w_now s + sixty) h num]> (w_tasks s))).
Proof.
  intros [Gc Gh Gw Gs Gl Gp Gu] H1 H2 H3 H4. split; cbn [w_closed w_hashes w_tasks w_qs set_tasks]; try done.
  - intros id' nch hch h' n' H. apply lookup_insert_Some in H as [[_ ?]|[_ H]]; [done|]. by eapply Gw.
  - intros id' until h' num' H. apply lookup_insert_Some in H as [[_ [= <- <- <-]]|[_ H]]; [|by eapply Gs].
    exists n, ch, t. split; [done|]. split; [done|]. split; [done|lia].
Qed.
Lemma good_delete tr s id h nums : good tr s → good tr (set_maps (set_tasks s (delete id (w_tasks s))) (delete h (w_hashes s)) nums).
Proof.
  intros [Gc Gh Gw Gs Gl Gp Gu]. split; cbn [w_closed w_hashes w_tasks w_qs set_tasks set_maps]; try done.
  - intros h' ch H. apply lookup_delete_Some in H as [_ H]. by eapply Gh.
  - intros id' nch hch h' n H. apply lookup_delete_Some in H as [_ H]. by eapply Gw.
  - intros id' until h' num H. apply lookup_delete_Some in H as [_ H]. by eapply Gs.
Qed.
Lemma good_query tr s q x : good tr s →
  (∀ k c d, x = QLooked k c d → chan_of tr k c) → (∀ k c dl, x = QParked k c dl → chan_of tr k c ∧ c ∉ w_closed s) →
  (∀ k, x = QDone k Success → truthful tr k) → good tr (set_qs s (<[q := x]> (w_qs s))).
Proof.
  intros [Gc Gh Gw Gs Gl Gp Gu] H1 H2 H3. split; cbn [w_closed w_hashes w_tasks w_qs set_qs]; try done.
  - intros q' k c d H. apply lookup_insert_Some in H as [[_ E]|[_ H]]; [by eapply H1|by eapply Gl].
  - intros q' k c d H. apply lookup_insert_Some in H as [[_ E]|[_ H]]; [by eapply H2|by eapply Gp].
  - intros q' k H. apply lookup_insert_Some in H as [[_ E]|[_ H]]; [by eapply H3|by eapply Gu].
Qed.
Lemma donen_le tr n t : donen tr n t → (t ≤ clock tr)%N.
Proof. intros (h & c & _ & H). by eapply called_at_le. Qed.

Lemma good_step tr a s s' : basic tr s → good tr s → wstep s a = Ok s' → good (tr ++ [a]) s'.
Proof.
  intros B0 G Hs.
  assert (G' : s' = s → good (tr ++ [a]) s') by (intros ->; by eapply good_keep).
  destruct a as [h n ch| |id|id|id|d|ch|k ch|k|q k d|q b|q]; cbn [wstep] in Hs.
  - injection Hs as <-. by eapply good_keep.
  - injection Hs as <-. unfold receive in *. destruct (w_queue s) as [|[[h n] ch] r] eqn:Eq; [by apply G'|].
    rewrite (b_queue _ _ B0) in Eq.
    assert (Hin : (h, n, ch) ∈ received (tr ++ [ARecv])).
    { unfold received. rewrite arrivals_snoc. rewrite Eq. apply elem_of_app. right. left. }
    destruct G as [Gc Gh Gw Gs Gl Gp Gu].
    destruct (w_numbers s !! n) as [nch|] eqn:En.
    + split; cbn [w_closed w_hashes w_tasks w_qs].
      * intros c H. by apply accounted_mono, Gc.
      * intros h' ch' H. apply lookup_insert_Some in H as [[<- <-]|[_ H]]; [by exists n|]. destruct (Gh _ _ H) as [n' Hr]. exists n'. by apply received_snoc.
      * intros id nch' hch h' n' H. apply lookup_insert_Some in H as [[_ [= <- <- <- <-]]|[_ H]]; [done|]. by eapply received_snoc, Gw.
      * intros id until h' num H. apply lookup_insert_Some in H as [[_ ?]|[_ H]]; [done|].
        destruct (Gs _ _ _ _ H) as (n' & ch' & t & I1 & I2 & I3 & I4). exists n', ch', t. split; [by apply received_snoc|]. split; [done|]. split; [by apply donen_mono|done].
      * intros q k c d H. by eapply chan_of_mono, Gl.
      * intros q k c dl H. destruct (Gp _ _ _ _ H). split; [by apply chan_of_mono|done].
      * intros q k H. by eapply truthful_mono, Gu.
    + split; cbn [w_closed w_hashes w_tasks w_qs].
      * intros c H. by apply accounted_mono, Gc.
      * intros h' ch' H. apply lookup_insert_Some in H as [[<- <-]|[_ H]]; [by exists n|]. destruct (Gh _ _ H) as [n' Hr]. exists n'. by apply received_snoc.
      * intros id nch' hch h' n' H. apply lookup_insert_Some in H as [[_ [= <- <- <- <-]]|[_ H]]; [done|]. by eapply received_snoc, Gw.
      * intros id until h' num H. apply lookup_insert_Some in H as [[_ ?]|[_ H]]; [done|].
        destruct (Gs _ _ _ _ H) as (n' & ch' & t & I1 & I2 & I3 & I4). exists n', ch', t. split; [by apply received_snoc|]. split; [done|]. split; [by apply donen_mono|done].
      * intros q k c d H. by eapply chan_of_mono, Gl.
      * intros q k c dl H. destruct (Gp _ _ _ _ H). split; [by apply chan_of_mono|done].
      * intros q k H. by eapply truthful_mono, Gu.
  - destruct (w_tasks s !! id) as [[nch hch h n|]|] eqn:Et; [|by injection Hs as <-; apply G'|by injection Hs as <-; apply G'].
    case_bool_decide as E1; [|by injection Hs as <-; apply G'].
    pose proof (g_wait _ _ G _ _ _ _ _ Et) as Hr. destruct (g_closed _ _ G _ E1) as [t Ht].
    assert (Hd : donen tr n t) by (by exists h, hch).
    case_bool_decide as E2; cbn [mbind outcome_bind] in Hs.
    + injection Hs as <-. eapply good_sleep; [|by apply received_snoc|by right|by apply donen_mono|].
      * by eapply good_keep.
      * rewrite (b_now _ _ B0). by eapply called_at_le.
    + destruct (close (CN n nch) s) as [s1| |] eqn:Ec; try done. injection Hs as <-.
      assert (Hn : w_now s1 = w_now s) by (by apply close_ok in Ec as [_ ->]).
      eapply good_sleep; [|by apply received_snoc|by right|by apply donen_mono|].
      * eapply good_close; [done| |done]. apply accounted_mono. by exists t.
      * rewrite Hn, (b_now _ _ B0). by eapply called_at_le.
  - destruct (w_tasks s !! id) as [[nch hch h n|]|] eqn:Et; [|by injection Hs as <-; apply G'|by injection Hs as <-; apply G'].
    case_bool_decide as E1; [|by injection Hs as <-; apply G'].
    pose proof (g_wait _ _ G _ _ _ _ _ Et) as Hr. destruct (g_closed _ _ G _ E1) as [t Ht]. injection Hs as <-.
    eapply good_sleep; [|by apply received_snoc|by left|by apply donen_mono|rewrite (b_now _ _ B0); by eapply donen_le].
    by eapply good_keep.
  - destruct (w_tasks s !! id) as [[|until h num]|] eqn:Et; [by injection Hs as <-; apply G'| |by injection Hs as <-; apply G'].
    case_bool_decide as E1; [|by injection Hs as <-; apply G']. injection Hs as <-. apply good_delete. by eapply good_keep.
  - injection Hs as <-. by eapply good_keep.
  - unfold done in Hs. case_bool_decide as E; [by injection Hs as <-; apply G'|].
    eapply (good_close _ _ (set_nil s ({[ch]} ∪ w_nil s)) (CH ch)); [|exists (clock tr); apply called_at_last; by left|done].
    destruct G. by split.
  - injection Hs as <-. by case_bool_decide; eapply good_keep.
  - destruct (w_regs s !! k) as [ch|] eqn:Ek; [|by injection Hs as <-; apply G'].
    destruct (b_regs _ _ B0 _ _ Ek) as [t Ht].
    eapply (good_close _ _ (set_regs (set_nil s ({[ch]} ∪ w_nil s)) (delete k (w_regs s))) (CH ch)); [|exists t; by apply called_at_mono|done].
    destruct G. by split.
  - destruct (w_qs s !! q) eqn:Eq; [by injection Hs as <-; apply G'|]. injection Hs as <-.
    assert (Gk : good (tr ++ [ALookup q k d]) s) by (by eapply good_keep).
    apply good_query; [done| | |].
    + intros k' c d' E. destruct (find s k) as [c0|] eqn:Ef; [|done]. injection E as <- <- <-. destruct k as [h|n]; cbn [find] in Ef.
      * apply fmap_Some in Ef as (ch & Ech & ->). destruct (g_hash _ _ Gk _ _ Ech) as [n Hn]. by exists n, ch.
      * apply fmap_Some in Ef as (id & Eid & ->). by exists id.
    + intros k' c dl E. by destruct (find s k).
    + intros k' E. by destruct (find s k).
  - destruct (w_qs s !! q) as [[k c d|k c dl|k r]|] eqn:Eq; try (by injection Hs as <-; apply G'). injection Hs as <-.
    assert (Gk : good (tr ++ [ASelect q b]) s) by (by eapply good_keep).
    pose proof (g_looked _ _ Gk _ _ _ _ Eq) as Hc.
    apply good_query; [done| | |].
    + intros k' c' d' E. by repeat case_match.
    + intros k' c' dl E. destruct (bool_decide (d ≤ 0)%Z && b); [done|]. case_bool_decide as E1; [done|]. injection E as <- <- <-. done.
    + intros k' E. destruct (bool_decide (d ≤ 0)%Z && b); [done|]. case_bool_decide as E1; [|done]. injection E as <-.
      eapply chan_accounted; [done|]. by apply (g_closed _ _ Gk).
  - destruct (w_qs s !! q) as [[k c d|k c dl|k r]|] eqn:Eq; try (by injection Hs as <-; apply G').
    case_bool_decide; injection Hs as <-; [|by apply G'].
    apply good_query; [by eapply good_keep|done|done|done].
Qed.
Lemma run_good tr s : wrun tr w_init = Ok s → good tr s.
Proof.
  revert tr s. apply run_ind; [by split|]. intros tr a s s' Hr Hg Hs. eapply good_step; [by apply run_basic|done|done].
Qed.
