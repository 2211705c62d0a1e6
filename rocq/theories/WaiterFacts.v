From Verif Require Import Base Waiter SpecWaiter.

(** ** Runs *)
Definition endq (tr : list waction) (q : list (hash * Z * N)) : list (hash * Z * N) :=
  foldl (λ q a, match a with AAnnounce h n ch => q ++ [(h, n, ch)] | ARecv => tail q | _ => q end) q tr.
Lemma arrivals_snoc tr a q : arrivals (tr ++ [a]) q = arrivals tr q ++ match a, endq tr q with ARecv, x :: _ => [x] | _, _ => [] end.
Proof.
  revert q. induction tr as [|b tr IH]; intros q.
  - destruct a; cbn; try done; by destruct q.
  - destruct b; cbn [app arrivals endq foldl]; try apply IH. destruct q as [|x q]; cbn [tail]; [apply IH|]. by rewrite IH.
Qed.
Lemma endq_snoc tr a q : endq (tr ++ [a]) q = match a with AAnnounce h n ch => endq tr q ++ [(h, n, ch)] | ARecv => tail (endq tr q) | _ => endq tr q end.
Proof. unfold endq. rewrite foldl_app. done. Qed.
Lemma announced_received tr : announced tr = received tr ++ endq tr [].
Proof.
  induction tr as [|a tr IH] using rev_ind; [done|]. unfold announced, received in *. rewrite omap_app, IH, arrivals_snoc, endq_snoc.
  destruct a; cbn [omap list_omap]; rewrite ?app_nil_r; try done.
  - by rewrite app_assoc.
  - destruct (endq tr []) as [|x q]; cbn [tail]; [by rewrite !app_nil_r|]. by rewrite <- app_assoc.
Qed.
Lemma clock_app t1 t2 : clock (t1 ++ t2) = (clock t1 + clock t2)%N.
Proof. unfold clock. induction t1 as [|a t1 IH]; cbn [app foldr]; [done|]. rewrite IH. lia. Qed.

Definition called_at (tr : list waction) (ch : N) (t : N) : Prop :=
  ∃ pre a post, tr = pre ++ a :: post ∧ (a = ADone ch ∨ ∃ k, a = ADoneBegin k ch) ∧ clock pre = t.
Lemma called_at_mono tr a ch t : called_at tr ch t → called_at (tr ++ [a]) ch t.
Proof. intros (pre & b & post & -> & H & Ht). exists pre, b, (post ++ [a]). by rewrite <- app_assoc. Qed.
Lemma called_at_last tr a ch : (a = ADone ch ∨ ∃ k, a = ADoneBegin k ch) → called_at (tr ++ [a]) ch (clock tr).
Proof. intros H. by exists tr, a, []. Qed.
Lemma called_at_le tr ch t : called_at tr ch t → (t ≤ clock tr)%N.
Proof. intros (pre & b & post & -> & H & <-). rewrite clock_app. lia. Qed.
Lemma called_at_called tr ch t : called_at tr ch t → called tr ch.
Proof.
  intros (pre & b & post & -> & H & _). destruct H as [->|[k ->]]; [left|right; exists k]; apply elem_of_app; right; left.
Qed.

Definition donen (tr : list waction) (n : Z) (t : N) : Prop := ∃ h c, (h, n, c) ∈ received tr ∧ called_at tr c t.
Lemma received_snoc tr a x : x ∈ received tr → x ∈ received (tr ++ [a]).
Proof. intros H. unfold received. rewrite arrivals_snoc. apply elem_of_app. by left. Qed.
Lemma donen_mono tr a n t : donen tr n t → donen (tr ++ [a]) n t.
Proof. intros (h & c & H1 & H2). exists h, c. split; [by apply received_snoc|by apply called_at_mono]. Qed.

(** ** Clock, queue, calls *)
Record basic (tr : list waction) (s : wst) : Prop := {
  b_now : w_now s = clock tr;
  b_queue : w_queue s = endq tr [];
  b_nil : ∀ ch, CH ch ∈ w_closed s ↔ ch ∈ w_nil s;
  b_called : ∀ ch, ch ∈ w_nil s → ∃ t, called_at tr ch t;
  b_done : ∀ ch, ADone ch ∈ tr → ch ∈ w_nil s;
  b_regs : ∀ k ch, w_regs s !! k = Some ch → ∃ t, called_at tr ch t
}.
Lemma basic_init : basic [] w_init.
Proof. split; try done; try set_solver. Qed.

Lemma close_ok c s s' : close c s = Ok s' → c ∉ w_closed s ∧
  s' = WS (w_queue s) (w_hashes s) (w_numbers s) ({[c]} ∪ w_closed s) (w_nil s) (w_regs s) (w_next s) (w_tasks s) (w_now s) (wake_query c <$> w_qs s).
Proof. unfold close. case_bool_decide; [done|]. by intros [= <-]. Qed.

(** The parts of the state that matter for [basic] after a step. *)
Lemma basic_step tr a s s' : basic tr s → wstep s a = Ok s' → basic (tr ++ [a]) s'.
Proof.
  intros [Bn Bq Bc Bl Bd Br] Hs.
  assert (Hkeep : w_now s' = clock (tr ++ [a]) → w_queue s' = endq (tr ++ [a]) [] → (∀ ch, CH ch ∈ w_closed s' ↔ CH ch ∈ w_closed s) →
    w_nil s' = w_nil s → w_regs s' = w_regs s → (∀ ch, a ≠ ADone ch) → basic (tr ++ [a]) s').
  { intros H1 H2 H3 H4 H5 H6. split; [done|done| | | |].
    - intros ch. by rewrite H3, H4.
    - intros ch Hch. rewrite H4 in Hch. destruct (Bl _ Hch) as [t Ht]. exists t. by apply called_at_mono.
    - intros ch [Hch|Hch]%elem_of_app; [rewrite H4; by apply Bd|]. apply elem_of_list_singleton in Hch. by destruct (H6 ch).
    - intros k ch Hk. rewrite H5 in Hk. destruct (Br _ _ Hk) as [t Ht]. exists t. by apply called_at_mono. }
  destruct a as [h n ch| |id|id|id|d|ch|k ch|k|q k d|q b|q]; cbn [wstep] in Hs.
  - injection Hs as <-. apply Hkeep; try done; cbn [w_now w_queue]; [rewrite clock_app; cbn; lia|by rewrite endq_snoc, Bq].
  - unfold receive in Hs. rewrite Bq in Hs. destruct (endq tr []) as [|[[h n] ch] r] eqn:E.
    + injection Hs as <-. apply Hkeep; try done; [rewrite clock_app; cbn; lia|by rewrite endq_snoc, Bq, E].
    + destruct (w_numbers s !! n); injection Hs as <-; apply Hkeep; try done; cbn [w_now w_queue]; rewrite ?clock_app, ?endq_snoc, ?E; cbn; lia || done.
  - destruct (w_tasks s !! id) as [[nch hch h n|]|]; [| |].
    + case_bool_decide as E1.
      * case_bool_decide as E2; cbn [mbind outcome_bind] in Hs.
        -- injection Hs as <-. apply Hkeep; try done; cbn; rewrite ?clock_app, ?endq_snoc; cbn; lia || done.
        -- destruct (close (CN n nch) s) as [s1| |] eqn:Ec; try done. injection Hs as <-. apply close_ok in Ec as [_ ->].
           apply Hkeep; try done; cbn; rewrite ?clock_app, ?endq_snoc; cbn; try (lia || done). set_solver.
      * injection Hs as <-. apply Hkeep; try done; cbn; rewrite ?clock_app, ?endq_snoc; cbn; lia || done.
    + injection Hs as <-. apply Hkeep; try done; cbn; rewrite ?clock_app, ?endq_snoc; cbn; lia || done.
    + injection Hs as <-. apply Hkeep; try done; cbn; rewrite ?clock_app, ?endq_snoc; cbn; lia || done.
  - destruct (w_tasks s !! id) as [[nch hch h n|]|]; try case_bool_decide; injection Hs as <-; apply Hkeep; try done; cbn; rewrite ?clock_app, ?endq_snoc; cbn; lia || done.
  - destruct (w_tasks s !! id) as [[nch hch h n|]|]; try case_bool_decide; injection Hs as <-; apply Hkeep; try done; cbn; rewrite ?clock_app, ?endq_snoc; cbn; lia || done.
  - injection Hs as <-. apply Hkeep; try done; cbn; rewrite ?clock_app, ?endq_snoc; cbn; lia || done.
  - unfold done in Hs. case_bool_decide as E.
    + injection Hs as <-. split; [rewrite clock_app; cbn; lia|by rewrite endq_snoc|done| | |].
      * intros c Hc. destruct (Bl _ Hc) as [t Ht]. exists t. by apply called_at_mono.
      * intros c [Hc|Hc]%elem_of_app; [by apply Bd|]. apply elem_of_list_singleton in Hc. by injection Hc as ->.
      * intros k c Hk. destruct (Br _ _ Hk) as [t Ht]. exists t. by apply called_at_mono.
    + apply close_ok in Hs as [_ ->]. split; cbn; [rewrite clock_app; cbn; lia|by rewrite endq_snoc| | | |].
      * intros c. rewrite !elem_of_union, !elem_of_singleton, Bc. naive_solver.
      * intros c [->%elem_of_singleton|Hc]%elem_of_union; [exists (clock tr); apply called_at_last; by left|].
        destruct (Bl _ Hc) as [t Ht]. exists t. by apply called_at_mono.
      * intros c [Hc|Hc]%elem_of_app; [apply elem_of_union; right; by apply Bd|]. apply elem_of_list_singleton in Hc. injection Hc as ->. set_solver.
      * intros k c Hk. destruct (Br _ _ Hk) as [t Ht]. exists t. by apply called_at_mono.
  - injection Hs as <-. case_bool_decide as E.
    + apply Hkeep; try done; cbn; rewrite ?clock_app, ?endq_snoc; cbn; lia || done.
    + split; cbn; [rewrite clock_app; cbn; lia|by rewrite endq_snoc|done| | |].
      * intros c Hc. destruct (Bl _ Hc) as [t Ht]. exists t. by apply called_at_mono.
      * intros c [Hc|Hc]%elem_of_app; [by apply Bd|]. by apply elem_of_list_singleton in Hc.
      * intros k' c Hk. apply lookup_insert_Some in Hk as [[<- <-]|[_ Hk]]; [exists (clock tr); apply called_at_last; right; by exists k|].
        destruct (Br _ _ Hk) as [t Ht]. exists t. by apply called_at_mono.
  - destruct (w_regs s !! k) as [ch|] eqn:Ek.
    + apply close_ok in Hs as [_ ->]. split; cbn; [rewrite clock_app; cbn; lia|by rewrite endq_snoc| | | |].
      * intros c. rewrite !elem_of_union, !elem_of_singleton, Bc. naive_solver.
      * intros c [->%elem_of_singleton|Hc]%elem_of_union; [destruct (Br _ _ Ek) as [t Ht]; exists t; by apply called_at_mono|].
        destruct (Bl _ Hc) as [t Ht]. exists t. by apply called_at_mono.
      * intros c [Hc|Hc]%elem_of_app; [apply elem_of_union; right; by apply Bd|]. by apply elem_of_list_singleton in Hc.
      * intros k' c Hk. apply lookup_delete_Some in Hk as [_ Hk]. destruct (Br _ _ Hk) as [t Ht]. exists t. by apply called_at_mono.
    + injection Hs as <-. apply Hkeep; try done; cbn; rewrite ?clock_app, ?endq_snoc; cbn; lia || done.
  - destruct (w_qs s !! q); injection Hs as <-; apply Hkeep; try done; cbn; rewrite ?clock_app, ?endq_snoc; cbn; lia || done.
  - destruct (w_qs s !! q) as [[]|]; injection Hs as <-; apply Hkeep; try done; cbn; rewrite ?clock_app, ?endq_snoc; cbn; lia || done.
  - destruct (w_qs s !! q) as [[]|]; try case_bool_decide; injection Hs as <-; apply Hkeep; try done; cbn; rewrite ?clock_app, ?endq_snoc; cbn; lia || done.
Qed.
Lemma run_ind (P : list waction → wst → Prop) : P [] w_init →
  (∀ tr a s s', wrun tr w_init = Ok s → P tr s → wstep s a = Ok s' → P (tr ++ [a]) s') → ∀ tr s, wrun tr w_init = Ok s → P tr s.
Proof.
  intros H0 Hs tr. induction tr as [|a tr IH] using rev_ind; intros s Hr.
  - by injection Hr as <-.
  - unfold wrun in Hr. rewrite foldM_app in Hr. destruct (foldM wstep tr w_init) as [s1| |] eqn:E; try done. cbn [mbind outcome_bind foldM] in Hr.
    destruct (wstep s1 a) as [s2| |] eqn:E2; try done. injection Hr as <-. eapply Hs; eauto.
Qed.
Lemma run_basic tr s : wrun tr w_init = Ok s → basic tr s.
Proof. revert tr s. apply run_ind; [apply basic_init|]. intros tr a s s' _ Hb Hs. by eapply basic_step. Qed.
Lemma run_snoc tr a s : wrun (tr ++ [a]) w_init = Ok s → ∃ s0, wrun tr w_init = Ok s0 ∧ wstep s0 a = Ok s.
Proof.
  unfold wrun. rewrite foldM_app. destruct (foldM wstep tr w_init) as [s1| |]; try done. cbn [mbind outcome_bind foldM]. intros H. exists s1. split; [done|].
  by destruct (wstep s1 a).
Qed.
