(** C71: what the waiter remembers. *)
From Verif Require Import Base Waiter SpecWaiter SpecPipeline SpecForget WaiterFacts WaiterFacts2 WaiterFacts3.

(** ** What a step does to maps and goroutines *)
Inductive wcase (s s' : wst) : waction → Prop :=
| wc_other a : (a = ARecv → w_queue s = []) →
    w_tasks s' = w_tasks s → w_hashes s' = w_hashes s → w_numbers s' = w_numbers s → w_next s' = w_next s →
    (∀ n id, CN n id ∈ w_closed s' ↔ CN n id ∈ w_closed s) → (∀ c, c ∈ w_closed s → c ∈ w_closed s') → (w_now s ≤ w_now s')%N →
    wcase s s' a
| wc_recv h n ch r nch id : w_queue s = (h, n, ch) :: r →
    w_tasks s' = <[id := TWait nch ch h n]> (w_tasks s) → w_hashes s' = <[h := ch]> (w_hashes s) →
    (w_numbers s !! n = Some nch ∧ w_numbers s' = w_numbers s ∧ id = w_next s ∨
     w_numbers s !! n = None ∧ w_numbers s' = <[n := nch]> (w_numbers s) ∧ nch = w_next s ∧ id = (w_next s + 1)%N) →
    w_next s' = (id + 1)%N → w_closed s' = w_closed s → w_now s' = w_now s → wcase s s' ARecv
| wc_hash id nch hch h n : w_tasks s !! id = Some (TWait nch hch h n) → CH hch ∈ w_closed s →
    w_tasks s' = <[id := TSleep (w_now s + sixty) h (Some n)]> (w_tasks s) → w_hashes s' = w_hashes s → w_numbers s' = w_numbers s →
    w_next s' = w_next s → (∀ c, c ∈ w_closed s' ↔ c = CN n nch ∨ c ∈ w_closed s) → w_now s' = w_now s → wcase s s' (AWakeHash id)
| wc_num id nch hch h n : w_tasks s !! id = Some (TWait nch hch h n) → CN n nch ∈ w_closed s →
    w_tasks s' = <[id := TSleep (w_now s + sixty) h None]> (w_tasks s) → w_hashes s' = w_hashes s → w_numbers s' = w_numbers s →
    w_next s' = w_next s → w_closed s' = w_closed s → w_now s' = w_now s → wcase s s' (AWakeNum id)
| wc_expire id until h num : w_tasks s !! id = Some (TSleep until h num) → (until ≤ w_now s)%N →
    w_tasks s' = delete id (w_tasks s) → w_hashes s' = delete h (w_hashes s) →
    w_numbers s' = match num with Some n => delete n (w_numbers s) | None => w_numbers s end →
    w_next s' = w_next s → w_closed s' = w_closed s → w_now s' = w_now s → wcase s s' (AExpire id).

Lemma step_case s a s' : wstep s a = Ok s' → wcase s s' a.
Proof.
  intros Hs. assert (Hsame : s' = s → (a = ARecv → w_queue s = []) → wcase s s' a) by (intros -> H; by constructor).
  destruct a as [h n ch| |id|id|id|d|ch|k ch|k|q k d|q b|q]; cbn [wstep] in Hs.
  - injection Hs as <-. by constructor.
  - injection Hs as <-. unfold receive in *. destruct (w_queue s) as [|[[h n] ch] r] eqn:Eq; [by apply Hsame|].
    destruct (w_numbers s !! n) as [nch|] eqn:En.
    + eapply (wc_recv _ _ h n ch r nch (w_next s)); try done. by left.
    + eapply (wc_recv _ _ h n ch r (w_next s) (w_next s + 1)%N); try done. by right.
  - destruct (w_tasks s !! id) as [[nch hch h n|]|] eqn:Et; [|by injection Hs as <-; apply Hsame|by injection Hs as <-; apply Hsame].
    case_bool_decide as E1; [|by injection Hs as <-; apply Hsame].
    case_bool_decide as E2; cbn [mbind outcome_bind] in Hs.
    + injection Hs as <-. eapply wc_hash; try done. intros c. cbn. split; [by right|]. by intros [->|?].
    + destruct (close (CN n nch) s) as [s1| |] eqn:Ec; try done. injection Hs as <-. apply close_ok in Ec as [_ ->].
      eapply wc_hash; try done. intros c. cbn. set_solver.
  - destruct (w_tasks s !! id) as [[nch hch h n|]|] eqn:Et; [|by injection Hs as <-; apply Hsame|by injection Hs as <-; apply Hsame].
    case_bool_decide as E1; [|by injection Hs as <-; apply Hsame]. injection Hs as <-. by eapply wc_num.
  - destruct (w_tasks s !! id) as [[|until h num]|] eqn:Et; [by injection Hs as <-; apply Hsame| |by injection Hs as <-; apply Hsame].
    case_bool_decide as E1; [|by injection Hs as <-; apply Hsame]. injection Hs as <-. by eapply wc_expire.
  - injection Hs as <-. constructor; try done. cbn. lia.
  - unfold done in Hs. case_bool_decide; [by injection Hs as <-; apply Hsame|]. apply close_ok in Hs as [_ ->].
    constructor; try done; cbn; set_solver.
  - injection Hs as <-. case_bool_decide; by constructor.
  - destruct (w_regs s !! k) as [ch|]; [|by injection Hs as <-; apply Hsame]. apply close_ok in Hs as [_ ->].
    constructor; try done; cbn; set_solver.
  - destruct (w_qs s !! q); injection Hs as <-; by constructor.
  - destruct (w_qs s !! q) as [[]|]; injection Hs as <-; by constructor.
  - destruct (w_qs s !! q) as [[]|]; try case_bool_decide; injection Hs as <-; by constructor.
Qed.

(** ** A goroutine for every entry *)
Record kept (s : wst) : Prop := {
  k_id : ∀ id t, w_tasks s !! id = Some t → (id < w_next s)%N;
  k_gen : ∀ n c, w_numbers s !! n = Some c → (c < w_next s)%N;
  k_cn : ∀ n c, CN n c ∈ w_closed s → (c < w_next s)%N;
  k_wait : ∀ id nch hch h n, w_tasks s !! id = Some (TWait nch hch h n) → (nch < w_next s)%N;
  k_hash : ∀ h ch, w_hashes s !! h = Some ch → ∃ id t, w_tasks s !! id = Some t ∧ task_hash t = h;
  k_num : ∀ n c, w_numbers s !! n = Some c →
    (CN n c ∈ w_closed s ∧ ∃ id until h, w_tasks s !! id = Some (TSleep until h (Some n))) ∨
    (CN n c ∉ w_closed s ∧ ∃ id hch h, w_tasks s !! id = Some (TWait c hch h n));
  k_until : ∀ id until h num, w_tasks s !! id = Some (TSleep until h num) → (until ≤ w_now s + sixty)%N
}.
Lemma kept_init : kept w_init.
Proof. split; cbn; intros; try set_solver; by rewrite ?lookup_empty in *. Qed.

Lemma kept_step s a s' : kept s → wstep s a = Ok s' → kept s'.
Proof.
  intros K Hs. apply step_case in Hs. pose proof K as [Ki Kg Kc Kw Kh Kn Ku].
  destruct Hs as [a Hq Et Eh En Ex Ec Em Ew|h n ch r nch id Eq Et Eh En Ex Ec Ew|id nch hch h n E0 E1 Et Eh En Ex Ec Ew|
    id nch hch h n E0 E1 Et Eh En Ex Ec Ew|id until h num E0 E1 Et Eh En Ex Ec Ew].
  - split; rewrite ?Et, ?Eh, ?En, ?Ex; try done.
    + intros n c H. apply Ec in H. eauto.
    + intros n c H. rewrite Ec. eauto.
    + intros id until h num H. apply Ku in H. lia.
  - assert (Hnew : (w_next s ≤ id)%N) by (destruct En as [(_ & _ & ->)|(_ & _ & _ & ->)]; lia).
    assert (Hold : ∀ i t, w_tasks s !! i = Some t → <[id:=TWait nch ch h n]> (w_tasks s) !! i = Some t).
    { intros i t H. rewrite lookup_insert_ne; [done|]. apply Ki in H. lia. }
    assert (Hnch : (nch < w_next s')%N).
    { rewrite Ex. destruct En as [(En & _ & ->)|(_ & _ & -> & ->)]; [apply Kg in En; lia|lia]. }
    split; rewrite ?Et, ?Eh, ?Ec, ?Ew.
    + intros i t H. rewrite Ex. apply lookup_insert_Some in H as [[<- _]|[_ H]]; [lia|]. apply Ki in H. lia.
    + intros n' c H. destruct En as [(En & Ens & _)|(En & Ens & _)]; rewrite Ens in H; [apply Kg in H; rewrite Ex; lia|].
      apply lookup_insert_Some in H as [[_ <-]|[_ H]]; [done|]. apply Kg in H. rewrite Ex. lia.
    + intros n' c H. apply Kc in H. rewrite Ex. lia.
    + intros i c' hch h' n' H. apply lookup_insert_Some in H as [[_ [= <- <- <- <-]]|[_ H]]; [done|]. apply Kw in H. rewrite Ex. lia.
    + intros h' ch' H. apply lookup_insert_Some in H as [[<- _]|[_ H]].
      * exists id, (TWait nch ch h n). by rewrite lookup_insert.
      * apply Kh in H as (i & t & Hi & Hh). exists i, t. split; [by apply Hold|done].
    + intros n' c H.
      assert (HK : w_numbers s !! n' = Some c → (CN n' c ∈ w_closed s ∧ ∃ id0 until h0, <[id:=TWait nch ch h n]> (w_tasks s) !! id0 = Some (TSleep until h0 (Some n'))) ∨
        (CN n' c ∉ w_closed s ∧ ∃ id0 hch h0, <[id:=TWait nch ch h n]> (w_tasks s) !! id0 = Some (TWait c hch h0 n'))).
      { intros HH. apply Kn in HH as [(H1 & i & u & h0 & H2)|(H1 & i & u & h0 & H2)]; [left|right]; (split; [done|]); exists i, u, h0; by apply Hold. }
      destruct En as [(En & Ens & _)|(En & Ens & -> & _)]; rewrite Ens in H; [by apply HK|].
      apply lookup_insert_Some in H as [[<- <-]|[_ H]]; [|by apply HK].
      right. split; [|exists id, ch, h; by rewrite lookup_insert]. intros Hc. apply Kc in Hc. lia.
    + intros i until h' num H. apply lookup_insert_Some in H as [[_ ?]|[_ H]]; [done|]. by apply Ku in H.
  - split; rewrite ?Et, ?Eh, ?En, ?Ex, ?Ew.
    + intros i t H. apply lookup_insert_Some in H as [[<- _]|[_ H]]; eauto.
    + done.
    + intros n' c H. apply Ec in H as [[= -> ->]|H]; eauto.
    + intros i c' hch' h' n' H. apply lookup_insert_Some in H as [[_ ?]|[_ H]]; [done|eauto].
    + intros h' ch' H. apply Kh in H as (i & t & Hi & Hh). destruct (decide (i = id)) as [->|Hne].
      * rewrite E0 in Hi. injection Hi as <-. eexists id, _. rewrite lookup_insert. split; [done|]. exact Hh.
      * exists i, t. by rewrite lookup_insert_ne.
    + intros n' c H. destruct (decide (n' = n ∧ c = nch)) as [[-> ->]|Hne].
      * left. split; [apply Ec; by left|]. eexists id, _, _. by rewrite lookup_insert.
      * apply Kn in H as [(H1 & i & u & h0 & H2)|(H1 & i & u & h0 & H2)].
        -- left. split; [apply Ec; by right|]. exists i, u, h0. rewrite lookup_insert_ne; [done|]. intros ->. congruence.
        -- right. split; [rewrite Ec; intros [[= -> ->]|?]; [by apply Hne|done]|]. exists i, u, h0. rewrite lookup_insert_ne; [done|].
           intros ->. rewrite E0 in H2. injection H2 as -> -> -> ->. by apply Hne.
    + intros i until h' num H. apply lookup_insert_Some in H as [[_ [= <- _ _]]|[_ H]]; [lia|]. by apply Ku in H.
  - split; rewrite ?Et, ?Eh, ?En, ?Ex, ?Ew, ?Ec; try done.
    + intros i t H. apply lookup_insert_Some in H as [[<- _]|[_ H]]; eauto.
    + intros i c' hch' h' n' H. apply lookup_insert_Some in H as [[_ ?]|[_ H]]; [done|eauto].
    + intros h' ch' H. apply Kh in H as (i & t & Hi & Hh). destruct (decide (i = id)) as [->|Hne].
      * rewrite E0 in Hi. injection Hi as <-. eexists id, _. rewrite lookup_insert. split; [done|]. exact Hh.
      * exists i, t. by rewrite lookup_insert_ne.
    + intros n' c H. apply Kn in H as [(H1 & i & u & h0 & H2)|(H1 & i & u & h0 & H2)].
      * left. split; [done|]. exists i, u, h0. rewrite lookup_insert_ne; [done|]. intros ->. congruence.
      * right. split; [done|]. exists i, u, h0. rewrite lookup_insert_ne; [done|].
        intros ->. rewrite E0 in H2. injection H2 as -> -> -> ->. done.
    + intros i until h' num H. apply lookup_insert_Some in H as [[_ [= <- _ _]]|[_ H]]; [lia|]. by apply Ku in H.
  - split; rewrite ?Et, ?Eh, ?Ex, ?Ew, ?Ec; try done.
    + intros i t H. apply lookup_delete_Some in H as [_ H]. eauto.
    + intros n' c H. rewrite En in H. destruct num; [apply lookup_delete_Some in H as [_ H]|]; eauto.
    + intros i c' hch' h' n' H. apply lookup_delete_Some in H as [_ H]. eauto.
    + intros h' ch' H. apply lookup_delete_Some in H as [Hne H]. apply Kh in H as (i & t & Hi & Hh). exists i, t.
      rewrite lookup_delete_ne; [done|]. intros ->. rewrite E0 in Hi. injection Hi as <-. by apply Hne.
    + intros n' c H. assert (H' : w_numbers s !! n' = Some c ∧ num ≠ Some n').
      { rewrite En in H. destruct num as [m|]; [|done]. apply lookup_delete_Some in H as [Hne H]. split; [done|]. by intros [= ->]. }
      destruct H' as [H' Hne]. apply Kn in H' as [(H1 & i & u & h0 & H2)|(H1 & i & u & h0 & H2)].
      * left. split; [done|]. exists i, u, h0. rewrite lookup_delete_ne; [done|]. intros ->. rewrite E0 in H2. injection H2 as -> -> ->. by apply Hne.
      * right. split; [done|]. exists i, u, h0. rewrite lookup_delete_ne; [done|]. intros ->. congruence.
    + intros i u h' num' H. apply lookup_delete_Some in H as [_ H]. by apply Ku in H.
Qed.
Lemma run_kept tr s s' : kept s → wrun tr s = Ok s' → kept s'.
Proof.
  revert s. induction tr as [|a tr IH]; intros s K H; [by injection H as <-|]. unfold wrun in H. cbn [foldM] in H.
  destruct (wstep s a) as [s1| |] eqn:E; cbn [mbind outcome_bind] in H; [|done|done]. by eapply (IH s1), H; eapply kept_step.
Qed.

(** ** Rest *)
Lemma rest_wait s id nch hch h n : at_rest s → w_tasks s !! id = Some (TWait nch hch h n) → CH hch ∉ w_closed s ∧ CN n nch ∉ w_closed s.
Proof.
  intros R E. split; intros Hc.
  - pose proof (R (AWakeHash id) I) as H. cbn [wstep] in H. rewrite E in H. rewrite bool_decide_true in H by done.
    assert (Ht : ∀ s1 : wst, Ok (set_tasks s1 (<[id:=TSleep (w_now s1 + sixty) h (Some n)]> (w_tasks s1))) = Ok s → False).
    { intros s1 [= H1]. rewrite <- H1 in E. cbn in E. by rewrite lookup_insert in E. }
    destruct (bool_decide (CN n nch ∈ w_closed s)); cbn [mbind outcome_bind] in H; [by eapply Ht|].
    destruct (close (CN n nch) s); [by eapply Ht|done|done].
  - pose proof (R (AWakeNum id) I) as H. cbn [wstep] in H. rewrite E in H. rewrite bool_decide_true in H by done.
    injection H as H1. rewrite <- H1 in E. cbn in E. by rewrite lookup_insert in E.
Qed.
Lemma rest_sleep s id until h num : at_rest s → w_tasks s !! id = Some (TSleep until h num) → (w_now s < until)%N.
Proof.
  intros R E. apply N.nle_gt. intros Hc. pose proof (R (AExpire id) I) as H. cbn [wstep] in H. rewrite E in H.
  rewrite bool_decide_true in H by done. injection H as H1. rewrite <- H1 in E. cbn in E. by rewrite lookup_delete in E.
Qed.

(** ** What arrives *)
Lemma step_queue s a s' : wstep s a = Ok s' →
  w_queue s' = match a with AAnnounce h n ch => w_queue s ++ [(h, n, ch)] | ARecv => tail (w_queue s) | _ => w_queue s end.
Proof.
  intros Hs. destruct a as [h n ch| |id|id|id|d|ch|k ch|k|q k d|q b|q]; cbn [wstep] in Hs.
  - by injection Hs as <-.
  - injection Hs as <-. unfold receive. destruct (w_queue s) as [|[[h n] ch] r] eqn:Eq; [done|]. by destruct (w_numbers s !! n).
  - destruct (w_tasks s !! id) as [[nch hch h n|]|]; try (by injection Hs as <-).
    case_bool_decide; [|by injection Hs as <-]. case_bool_decide; cbn [mbind outcome_bind] in Hs; [by injection Hs as <-|].
    destruct (close (CN n nch) s) as [s1| |] eqn:Ec; try done. injection Hs as <-. by apply close_ok in Ec as [_ ->].
  - destruct (w_tasks s !! id) as [[nch hch h n|]|]; try case_bool_decide; by injection Hs as <-.
  - destruct (w_tasks s !! id) as [[nch hch h n|]|]; try case_bool_decide; by injection Hs as <-.
  - by injection Hs as <-.
  - unfold done in Hs. case_bool_decide; [by injection Hs as <-|]. by apply close_ok in Hs as [_ ->].
  - injection Hs as <-. by case_bool_decide.
  - destruct (w_regs s !! k); [|by injection Hs as <-]. by apply close_ok in Hs as [_ ->].
  - destruct (w_qs s !! q); by injection Hs as <-.
  - destruct (w_qs s !! q) as [[]|]; by injection Hs as <-.
  - destruct (w_qs s !! q) as [[]|]; try case_bool_decide; by injection Hs as <-.
Qed.
Lemma arrivals_step s a s' tr : wstep s a = Ok s' →
  arrivals (a :: tr) (w_queue s) = match a, w_queue s with ARecv, x :: _ => [x] | _, _ => [] end ++ arrivals tr (w_queue s').
Proof. intros ->%step_queue. destruct a; cbn [arrivals]; try done. by destruct (w_queue s). Qed.

(** A property of the run after [s] that only depends on what is received. *)
Lemma run_from (P : hash * Z * N → Prop) (I : wst → Prop) :
  (∀ s a s', I s → wstep s a = Ok s' → (∀ x r, a = ARecv → w_queue s = x :: r → ¬ P x) → I s') →
  ∀ tr s s', I s → wrun tr s = Ok s' → none_new s tr P → I s'.
Proof.
  intros Hstep tr. induction tr as [|a tr IH]; intros s s' Hi Hr Hn; [by injection Hr as <-|]. unfold wrun in Hr. cbn [foldM] in Hr.
  destruct (wstep s a) as [s1| |] eqn:E; cbn [mbind outcome_bind] in Hr; [|done|done]. unfold none_new in Hn.
  rewrite (arrivals_step _ _ _ _ E) in Hn. apply (IH s1); [|done|].
  - eapply Hstep; [done|done|]. intros x r -> Eq. apply Hn. rewrite Eq. left.
  - intros x Hx. apply Hn. apply elem_of_app. by right.
Qed.
Lemma run_app tr tr2 s s' : wrun tr w_init = Ok s → wrun tr2 s = Ok s' → wrun (tr ++ tr2) w_init = Ok s'.
Proof. unfold wrun. intros H1 H2. rewrite foldM_app, H1. exact H2. Qed.

(** ** Goroutines that only sleep *)
Section asleep.
  Context (Q : task → Prop).
  Context (HQ : ∀ u h num nch hch n, (num = None ∨ num = Some n) → Q (TSleep u h num) → Q (TWait nch hch h n)).
  Definition asleep (T : N) (s : wst) : Prop :=
    ∀ id t, w_tasks s !! id = Some t → Q t → ∃ u h num, t = TSleep u h num ∧ (u ≤ T)%N.
  Lemma asleep_run T tr s s' : asleep T s → wrun tr s = Ok s' → none_new s tr (λ x, ∃ nch, Q (TWait nch x.2 x.1.1 x.1.2)) → asleep T s'.
  Proof.
    intros Ha Hr Hn. revert tr s s' Ha Hr Hn. apply (run_from _ (asleep T)). intros s a s' Ha Hs Hn. apply step_case in Hs.
    destruct Hs as [a Hq Et Eh En Ex Ec Em Ew|h n ch r nch id Eq Et Eh En Ex Ec Ew|id nch hch h n E0 E1 Et Eh En Ex Ec Ew|
      id nch hch h n E0 E1 Et Eh En Ex Ec Ew|id until h num E0 E1 Et Eh En Ex Ec Ew]; intros i t H Ht; rewrite Et in H.
    - by eapply Ha.
    - apply lookup_insert_Some in H as [[_ <-]|[_ H]]; [|by eapply Ha]. destruct (Hn _ _ eq_refl Eq). by exists nch.
    - apply lookup_insert_Some in H as [[_ <-]|[_ H]]; [|by eapply Ha].
      apply (HQ _ _ _ nch hch n) in Ht; [|by right]. destruct (Ha _ _ E0 Ht) as (? & ? & ? & ? & _). done.
    - apply lookup_insert_Some in H as [[_ <-]|[_ H]]; [|by eapply Ha].
      apply (HQ _ _ _ nch hch n) in Ht; [|by left]. destruct (Ha _ _ E0 Ht) as (? & ? & ? & ? & _). done.
    - apply lookup_delete_Some in H as [_ H]. by eapply Ha.
  Qed.
  Lemma asleep_rest T s : asleep T s → at_rest s → (T ≤ w_now s)%N → ∀ id t, w_tasks s !! id = Some t → ¬ Q t.
  Proof. intros Ha R HT id t H Ht. destruct (Ha _ _ H Ht) as (u & h & num & -> & Hu). apply (rest_sleep _ _ _ _ _ R) in H. lia. Qed.
  Lemma asleep_start s : kept s → (∀ id nch hch h n, w_tasks s !! id = Some (TWait nch hch h n) → ¬ Q (TWait nch hch h n)) → asleep (w_now s + sixty) s.
  Proof.
    intros K H id t Hi Ht. destruct t as [nch hch h n|u h num]; [by destruct (H _ _ _ _ _ Hi)|]. exists u, h, num. split; [done|]. by eapply k_until.
  Qed.
  Lemma asleep_end tr s tr2 s' : wrun tr w_init = Ok s → wrun tr2 s = Ok s' →
    (∀ id nch hch h n, w_tasks s !! id = Some (TWait nch hch h n) → ¬ Q (TWait nch hch h n)) →
    none_new s tr2 (λ x, ∃ nch, Q (TWait nch x.2 x.1.1 x.1.2)) → (sixty ≤ clock tr2)%N → at_rest s' →
    kept s' ∧ ∀ id t, w_tasks s' !! id = Some t → ¬ Q t.
  Proof.
    intros H1 H2 Hw Hn Hc R. assert (K := run_kept _ _ _ kept_init H1). split; [by eapply run_kept|].
    eapply (asleep_rest (w_now s + sixty)); [|done|].
    - eapply asleep_run; [by apply asleep_start|done|done].
    - rewrite (b_now _ _ (run_basic _ _ H1)), (b_now _ _ (run_basic _ _ (run_app _ _ _ _ H1 H2))), clock_app. lia.
  Qed.
End asleep.

Lemma done_closed tr s ch : wrun tr w_init = Ok s → ADone ch ∈ tr → CH ch ∈ w_closed s.
Proof. intros H Hd. pose proof (run_basic _ _ H) as B. apply (b_nil _ _ B). by apply (b_done _ _ B). Qed.
Lemma not_waiting tr s (P : hash * Z * N → Prop) id nch hch h n : wrun tr w_init = Ok s → at_rest s → completed tr P →
  w_tasks s !! id = Some (TWait nch hch h n) → ¬ P (h, n, hch).
Proof.
  intros H R Hc Hi Hp. destruct (rest_wait _ _ _ _ _ _ R Hi) as [H1 _]. apply H1. eapply done_closed; [done|].
  apply (Hc (h, n, hch)); [|done]. by eapply g_wait; [apply run_good|].
Qed.

Definition for_hash (h : hash) (t : task) : Prop := task_hash t = h.
Definition for_num (n : Z) (t : task) : Prop := match t with TWait _ _ _ m => m = n | TSleep _ _ num => num = Some n end.
Lemma forget_hash tr s tr2 s' h : wrun tr w_init = Ok s → wrun tr2 s = Ok s' →
  (∀ id nch hch n, w_tasks s !! id ≠ Some (TWait nch hch h n)) →
  none_new s tr2 (λ x, x.1.1 = h) → (sixty ≤ clock tr2)%N → at_rest s' → forgotten s' h.
Proof.
  intros H1 H2 Hw Hn Hc R. destruct (asleep_end (for_hash h) (λ _ _ _ _ _ _ _ H, H) tr s tr2 s') as [K Ht]; try done.
  - intros id nch hch h' n Hi Hq. unfold for_hash in Hq. cbn in Hq. subst. by eapply Hw.
  - intros x Hx [nch Hq]. by apply (Hn x).
  - split; [|done]. destruct (w_hashes s' !! h) as [ch|] eqn:E; [|done]. apply (k_hash _ K) in E as (id & t & Hi & Hh). by destruct (Ht _ _ Hi).
Qed.
Lemma hash_forgotten tr s tr2 s' h :
  wrun tr w_init = Ok s → at_rest s → completed tr (λ x, x.1.1 = h) →
  wrun tr2 s = Ok s' → none_new s tr2 (λ x, x.1.1 = h) → (sixty ≤ clock tr2)%N → at_rest s' → forgotten s' h.
Proof.
  intros H1 R1 Hc H2 Hn Ht R2. apply (forget_hash tr s tr2); try done.
  intros id nch hch n Hi. by eapply (not_waiting tr s (λ x, x.1.1 = h) id nch hch h n).
Qed.
Lemma number_forgotten tr s tr2 s' n :
  wrun tr w_init = Ok s → at_rest s → completed tr (λ x, x.1.2 = n) →
  wrun tr2 s = Ok s' → none_new s tr2 (λ x, x.1.2 = n) → (sixty ≤ clock tr2)%N → at_rest s' → w_numbers s' !! n = None.
Proof.
  intros H1 R1 Hd H2 Hn Hc R2. destruct (asleep_end (for_num n)) with (tr := tr) (s := s) (tr2 := tr2) (s' := s') as [K Ht]; try done.
  - intros u h num nch hch m [->| ->]; cbn; [done|]. by intros [= ->].
  - intros id nch hch h m Hi Hq. cbn in Hq. subst. by eapply (not_waiting tr s (λ x, x.1.2 = n) id nch hch h n).
  - intros x Hx [nch Hq]. by apply (Hn x).
  - destruct (w_numbers s' !! n) as [c|] eqn:E; [|done]. apply (k_num _ K) in E as [(_ & id & u & h & Hi)|(_ & id & u & h & Hi)]; by destruct (Ht _ _ Hi).
Qed.
Lemma all_forgotten tr s tr2 s' :
  wrun tr w_init = Ok s → at_rest s → completed tr (λ _, True) →
  wrun tr2 s = Ok s' → none_new s tr2 (λ _, True) → (sixty ≤ clock tr2)%N → at_rest s' →
  w_hashes s' = ∅ ∧ w_numbers s' = ∅ ∧ w_tasks s' = ∅.
Proof.
  intros H1 R1 Hd H2 Hn Hc R2.
  assert (Hh : ∀ h, forgotten s' h).
  { intros h. apply (hash_forgotten tr s tr2); try done; [intros x Hx _; by apply Hd|]. intros x Hx _. by apply (Hn x). }
  split; [|split]; apply map_empty.
  - intros h. by destruct (Hh h).
  - intros n. apply (number_forgotten tr s tr2); try done; [intros x Hx _; by apply Hd|]. intros x Hx _. by apply (Hn x).
  - intros id. destruct (w_tasks s' !! id) as [t|] eqn:E; [|done]. destruct (Hh (task_hash t)) as [_ H]. by destruct (H _ _ E).
Qed.

(** ** Blocks of one number *)
(** No block with the number was completed: all goroutines for it wait for the channel in the map. *)
Definition uncompleted (tr : list waction) (n : Z) : Prop := ∀ t, ¬ donen tr n t.
Lemma fresh_number tr s n : wrun tr w_init = Ok s → uncompleted tr n →
  (∀ h ch, (h, n, ch) ∈ received tr → ∃ id c, w_numbers s !! n = Some c ∧ w_tasks s !! id = Some (TWait c ch h n)) ∧
  (∀ id nch hch h, w_tasks s !! id = Some (TWait nch hch h n) → w_numbers s !! n = Some nch).
Proof.
  revert tr s. apply (run_ind (λ tr s, uncompleted tr n →
    (∀ h ch, (h, n, ch) ∈ received tr → ∃ id c, w_numbers s !! n = Some c ∧ w_tasks s !! id = Some (TWait c ch h n)) ∧
    (∀ id nch hch h, w_tasks s !! id = Some (TWait nch hch h n) → w_numbers s !! n = Some nch))).
  - intros _. split; [intros h ch H; by apply elem_of_nil in H|]. intros id nch hch h H. cbn in H. by rewrite lookup_empty in H.
  - intros tr a s s' Hr IH Hs Hu. assert (Hu0 : uncompleted tr n) by (intros t Ht; by eapply Hu, donen_mono).
    specialize (IH Hu0) as [IH1 IH2]. pose proof (run_good _ _ Hr) as G. pose proof (run_basic _ _ Hr) as B.
    pose proof (run_kept _ _ _ kept_init Hr) as K.
    assert (Hrec : ∀ x, x ∈ received (tr ++ [a]) → x ∈ received tr ∨ a = ARecv ∧ ∃ r, w_queue s = x :: r).
    { intros x Hx. unfold received in Hx. rewrite arrivals_snoc in Hx. apply elem_of_app in Hx as [Hx|Hx]; [by left|].
      rewrite <- (b_queue _ _ B) in Hx. right. destruct a; try by apply elem_of_nil in Hx. destruct (w_queue s) as [|y r]; [by apply elem_of_nil in Hx|].
      apply elem_of_list_singleton in Hx as ->. split; [done|]. by exists r. }
    apply step_case in Hs.
    destruct Hs as [a Hq Et Eh En Ex Ec Em Ew|h n' ch r nch id Eq Et Eh En Ex Ec Ew|id nch hch h n' E0 E1 Et Eh En Ex Ec Ew|
      id nch hch h n' E0 E1 Et Eh En Ex Ec Ew|id until h num E0 E1 Et Eh En Ex Ec Ew].
    + rewrite Et, En. split; [|done]. intros h ch [H|[-> [r H]]]%Hrec; [by apply IH1|]. by rewrite Hq in H.
    + assert (Hold : ∀ i t, w_tasks s !! i = Some t → i ≠ id).
      { intros i t H. apply (k_id _ K) in H. destruct En as [(_ & _ & ->)|(_ & _ & _ & ->)]; lia. }
      assert (Hnum : n' = n → w_numbers s' !! n = Some nch).
      { intros ->. destruct En as [(En & -> & _)|(_ & -> & _)]; [done|apply lookup_insert]. }
      assert (Hnum' : ∀ c, w_numbers s !! n = Some c → w_numbers s' !! n = Some c).
      { intros c H. destruct En as [(En & -> & _)|(En & -> & _)]; [done|]. rewrite lookup_insert_ne; [done|]. intros ->. congruence. }
      rewrite Et. split.
      * intros h' ch' [H|[_ [r' H]]]%Hrec.
        -- destruct (IH1 _ _ H) as (i & c & Hc & Hi). exists i, c. split; [by apply Hnum'|]. rewrite lookup_insert_ne; [done|]. intros ->. by eapply Hold.
        -- rewrite Eq in H. injection H as -> -> -> ->. exists id, nch. split; [by apply Hnum|]. apply lookup_insert.
      * intros i c hch h' H. apply lookup_insert_Some in H as [[_ [= <- _ _ ->]]|[_ H]]; [by apply Hnum|]. apply Hnum'. by eapply IH2.
    + assert (Hne : n' ≠ n).
      { intros ->. destruct (g_closed _ _ G _ E1) as [t Ht]. apply (Hu0 t). exists h, hch. split; [by eapply g_wait|done]. }
      rewrite Et, En. split.
      * intros h' ch' [H|[? _]]%Hrec; [|done]. destruct (IH1 _ _ H) as (i & c & Hc & Hi). exists i, c. split; [done|].
        rewrite lookup_insert_ne; [done|]. intros ->. rewrite E0 in Hi. injection Hi as -> -> -> ->. done.
      * intros i c hch' h' H. apply lookup_insert_Some in H as [[_ ?]|[_ H]]; [done|]. by eapply IH2.
    + assert (Hne : n' ≠ n).
      { intros ->. destruct (g_closed _ _ G _ E1) as [t Ht]. by apply (Hu0 t). }
      rewrite Et, En. split.
      * intros h' ch' [H|[? _]]%Hrec; [|done]. destruct (IH1 _ _ H) as (i & c & Hc & Hi). exists i, c. split; [done|].
        rewrite lookup_insert_ne; [done|]. intros ->. rewrite E0 in Hi. injection Hi as -> -> -> ->. done.
      * intros i c hch' h' H. apply lookup_insert_Some in H as [[_ ?]|[_ H]]; [done|]. by eapply IH2.
    + assert (Hnum : w_numbers s' !! n = w_numbers s !! n).
      { rewrite En. destruct num as [m|]; [|done]. destruct (g_sleep _ _ G _ _ _ _ E0) as (n0 & c0 & t & _ & [?|[= ->]] & Hd & _); [done|].
        rewrite lookup_delete_ne; [done|]. intros ->. by apply (Hu0 t). }
      rewrite Et, Hnum. split.
      * intros h' ch' [H|[? _]]%Hrec; [|done]. destruct (IH1 _ _ H) as (i & c & Hc & Hi). exists i, c. split; [done|].
        rewrite lookup_delete_ne; [done|]. intros ->. congruence.
      * intros i c hch' h' H. apply lookup_delete_Some in H as [_ H]. by eapply IH2.
Qed.

(** A goroutine that still waits has waited all the time, unless its block arrived meanwhile. *)
Lemma waits_since s1 tr s h id nch hch n : wrun tr s1 = Ok s → none_new s1 tr (λ x, x.1.1 = h) →
  w_tasks s !! id = Some (TWait nch hch h n) → w_tasks s1 !! id = Some (TWait nch hch h n).
Proof.
  intros Hr Hn. revert id nch hch n.
  apply (run_from (λ x, x.1.1 = h) (λ s, ∀ id nch hch n, w_tasks s !! id = Some (TWait nch hch h n) → w_tasks s1 !! id = Some (TWait nch hch h n)))
    with (tr := tr) (s := s1); [|done|done|done].
  clear. intros s a s' IH Hs Hn id nch hch n H. apply step_case in Hs.
  destruct Hs as [a Hq Et Eh En Ex Ec Em Ew|h' n' ch r nch' id' Eq Et Eh En Ex Ec Ew|id' nch' hch' h' n' E0 E1 Et Eh En Ex Ec Ew|
    id' nch' hch' h' n' E0 E1 Et Eh En Ex Ec Ew|id' until h' num E0 E1 Et Eh En Ex Ec Ew]; rewrite Et in H.
  - by apply IH.
  - apply lookup_insert_Some in H as [[_ [= _ _ -> _]]|[_ H]]; [|by apply IH]. by destruct (Hn _ _ eq_refl Eq).
  - apply lookup_insert_Some in H as [[_ ?]|[_ H]]; [done|by apply IH].
  - apply lookup_insert_Some in H as [[_ ?]|[_ H]]; [done|by apply IH].
  - apply lookup_delete_Some in H as [_ H]. by apply IH.
Qed.
(** A goroutine that no longer waits has closed the number's channel or found it closed. *)
Lemma waits_or_closed s1 tr s id c ch h n : kept s1 → wrun tr s1 = Ok s → w_tasks s1 !! id = Some (TWait c ch h n) →
  w_tasks s !! id = Some (TWait c ch h n) ∨ CN n c ∈ w_closed s.
Proof.
  intros K Hr Hi.
  apply (run_from (λ _, False) (λ s, kept s ∧ (id < w_next s)%N ∧ (w_tasks s !! id = Some (TWait c ch h n) ∨ CN n c ∈ w_closed s)))
    with (tr := tr) (s := s1); [|split; [done|]; split; [by eapply k_id|by left]|done|by intros x _ ?].
  clear. intros s a s' (K & Hlt & IH) Hs _. split; [by eapply kept_step|]. apply step_case in Hs.
  destruct Hs as [a Hq Et Eh En Ex Ec Em Ew|h' n' ch' r nch' id' Eq Et Eh En Ex Ec Ew|id' nch' hch' h' n' E0 E1 Et Eh En Ex Ec Ew|
    id' nch' hch' h' n' E0 E1 Et Eh En Ex Ec Ew|id' until h' num E0 E1 Et Eh En Ex Ec Ew]; rewrite Et, Ex.
  - split; [done|]. destruct IH as [?|?]; [by left|right; by apply Em].
  - assert (w_next s ≤ id')%N by (destruct En as [(_ & _ & ->)|(_ & _ & _ & ->)]; lia). split; [lia|]. rewrite Ec.
    destruct IH as [?|?]; [left|by right]. rewrite lookup_insert_ne; [done|lia].
  - split; [done|]. rewrite Ec. destruct IH as [IH|?]; [|by right; right]. destruct (decide (id = id')) as [->|Hne].
    + rewrite E0 in IH. injection IH as -> -> -> ->. right. by left.
    + left. by rewrite lookup_insert_ne.
  - split; [done|]. rewrite Ec. destruct IH as [IH|?]; [|by right]. destruct (decide (id = id')) as [->|Hne].
    + rewrite E0 in IH. injection IH as -> -> -> ->. by right.
    + left. by rewrite lookup_insert_ne.
  - split; [done|]. rewrite Ec. destruct IH as [IH|?]; [|by right]. left. rewrite lookup_delete_ne; [done|]. intros ->. congruence.
Qed.

Lemma fork_forgotten tr1 s1 tr2 s tr3 s' h n h' ch' :
  wrun tr1 w_init = Ok s1 → (∀ x, x ∈ received tr1 → x.1.2 = n → ¬ called tr1 x.2) →
  (∀ x, x ∈ received tr1 → x.1.1 = h → x.1.2 = n) → (h', n, ch') ∈ received tr1 →
  wrun tr2 s1 = Ok s → none_new s1 tr2 (λ x, x.1.1 = h) → ADone ch' ∈ tr2 → at_rest s →
  wrun tr3 s = Ok s' → none_new s tr3 (λ x, x.1.1 = h) → (sixty ≤ clock tr3)%N → at_rest s' → forgotten s' h.
Proof.
  intros H1 Hu Hh Hy H2 Hn2 Hd R2 H3 Hn3 Hc R3.
  assert (Hun : uncompleted tr1 n).
  { intros t (h0 & c0 & Hr & Hcall). apply (Hu (h0, n, c0)); [done|done|]. by eapply called_at_called. }
  destruct (fresh_number _ _ _ H1 Hun) as [F1 F2]. assert (K1 := run_kept _ _ _ kept_init H1).
  assert (H12 := run_app _ _ _ _ H1 H2).
  destruct (F1 _ _ Hy) as (idy & c & Hc0 & Hidy).
  assert (Hcl : CN n c ∈ w_closed s).
  { destruct (waits_or_closed _ _ _ _ _ _ _ _ K1 H2 Hidy) as [Hw|?]; [|done]. destruct (rest_wait _ _ _ _ _ _ R2 Hw) as [Hx _].
    destruct Hx. eapply done_closed; [done|]. apply elem_of_app. by right. }
  apply (forget_hash (tr1 ++ tr2) s tr3); try done. intros id nch hch n0 Hi.
  pose proof (waits_since _ _ _ _ _ _ _ _ H2 Hn2 Hi) as Hi1.
  assert (n0 = n) as -> by (by eapply (Hh (h, n0, hch)); [eapply g_wait; [by apply run_good|done]|]).
  rewrite (F2 _ _ _ _ Hi1) in Hc0. injection Hc0 as ->. by destruct (rest_wait _ _ _ _ _ _ R2 Hi).
Qed.

(** ** The goroutines come to rest *)
Definition waiting (t : task) : Prop := match t with TWait _ _ _ _ => True | _ => False end.
#[global] Instance waiting_dec t : Decision (waiting t).
Proof. destruct t; apply _. Defined.
Definition work (s : wst) : nat := size (w_tasks s) + size (filter (λ x : N * task, waiting x.2) (w_tasks s)).
Lemma goes_on_work s s' : goes_on s s' → work s' < work s.
Proof.
  intros (a & Ha & Hs & Hne). pose proof Hs as Hs0. apply step_case in Hs. unfold work.
  destruct Hs as [a Hq Et Eh En Ex Ec Em Ew|h' n' ch' r nch' id' Eq Et Eh En Ex Ec Ew|id nch hch h n E0 E1 Et Eh En Ex Ec Ew|
    id nch hch h n E0 E1 Et Eh En Ex Ec Ew|id until h num E0 E1 Et Eh En Ex Ec Ew]; rewrite Et; [|done| | |].
  - destruct Hne. destruct a as [| |id|id|id| | | | | | |]; try done; cbn [wstep] in Hs0;
      destruct (w_tasks s !! id) as [[nch hch h n|until h num]|] eqn:Ei; try (by injection Hs0 as <-).
    + case_bool_decide; [|by injection Hs0 as <-]. exfalso.
      assert (Ht : ∀ s1 : wst, Ok (set_tasks s1 (<[id:=TSleep (w_now s1 + sixty) h (Some n)]> (w_tasks s1))) = Ok s' → False).
      { intros s1 [= H1]. rewrite <- Et, <- H1 in Ei. cbn in Ei. by rewrite lookup_insert in Ei. }
      destruct (bool_decide (CN n nch ∈ w_closed s)); cbn [mbind outcome_bind] in Hs0; [by eapply Ht|].
      destruct (close (CN n nch) s); [by eapply Ht|done|done].
    + case_bool_decide; [|by injection Hs0 as <-]. injection Hs0 as H1. rewrite <- Et, <- H1 in Ei. cbn in Ei. by rewrite lookup_insert in Ei.
    + case_bool_decide; [|by injection Hs0 as <-]. injection Hs0 as H1. rewrite <- Et, <- H1 in Ei. cbn in Ei. by rewrite lookup_delete in Ei.
  - rewrite map_size_insert_Some by (by eexists). rewrite map_filter_insert_False, map_filter_delete by (cbn; tauto).
    assert (Hf : filter (λ x : N * task, waiting x.2) (w_tasks s) !! id = Some (TWait nch hch h n)) by (by apply map_filter_lookup_Some).
    rewrite map_size_delete_Some by (by eexists). enough (size (filter (λ x : N * task, waiting x.2) (w_tasks s)) ≠ 0) by lia.
    intros Hz%map_size_empty_iff. rewrite Hz in Hf. by rewrite lookup_empty in Hf.
  - rewrite map_size_insert_Some by (by eexists). rewrite map_filter_insert_False, map_filter_delete by (cbn; tauto).
    assert (Hf : filter (λ x : N * task, waiting x.2) (w_tasks s) !! id = Some (TWait nch hch h n)) by (by apply map_filter_lookup_Some).
    rewrite map_size_delete_Some by (by eexists). enough (size (filter (λ x : N * task, waiting x.2) (w_tasks s)) ≠ 0) by lia.
    intros Hz%map_size_empty_iff. rewrite Hz in Hf. by rewrite lookup_empty in Hf.
  - rewrite map_size_delete_Some by (by eexists). rewrite map_filter_delete_not by (intros y Hy; rewrite E0 in Hy; injection Hy as <-; cbn; tauto).
    enough (size (w_tasks s) ≠ 0) by lia. intros Hz%map_size_empty_iff. rewrite Hz in E0. by rewrite lookup_empty in E0.
Qed.

Definition ready_to_go (s : wst) (t : task) : Prop :=
  match t with TWait nch hch _ n => CH hch ∈ w_closed s ∨ CN n nch ∈ w_closed s | TSleep u _ _ => (u ≤ w_now s)%N end.
#[global] Instance ready_to_go_dec s t : Decision (ready_to_go s t).
Proof. destruct t; unfold ready_to_go; apply _. Defined.
Lemma rest_or_go s : at_rest s ∨ ∃ s', goes_on s s'.
Proof.
  destruct (decide (map_Forall (λ _ t, ¬ ready_to_go s t) (w_tasks s))) as [H|H].
  - left. intros [| |id|id|id| | | | | | |] Ha; try done; cbn [wstep]; destruct (w_tasks s !! id) as [[nch hch h n|u h num]|] eqn:E; try done;
      specialize (H _ _ E); cbn in H; case_bool_decide; try done; exfalso; apply H; naive_solver.
  - right. apply map_not_Forall in H as (id & t & E & H); [|intros; apply _]. apply dec_stable in H. destruct t as [nch hch h n|u h num]; cbn in H.
    + destruct (decide (CN n nch ∈ w_closed s)) as [Hc|Hc].
      * eexists. exists (AWakeNum id). split; [done|]. cbn [wstep]. rewrite E, bool_decide_true by done. split; [done|].
        intros Es. rewrite <- Es in E. cbn in E. by rewrite lookup_insert in E.
      * destruct H as [H|?]; [|done]. eexists. exists (AWakeHash id). split; [done|]. cbn [wstep].
        rewrite E, bool_decide_true, bool_decide_false by done. unfold close. rewrite bool_decide_false by done. cbn [mbind outcome_bind]. split; [done|].
        intros Es. rewrite <- Es in E. cbn in E. by rewrite lookup_insert in E.
    + eexists. exists (AExpire id). split; [done|]. cbn [wstep]. rewrite E, bool_decide_true by done. split; [done|].
      intros Es. rewrite <- Es in E. cbn in E. by rewrite lookup_delete in E.
Qed.
Lemma comes_to_rest s : inevitably goes_on at_rest s.
Proof.
  remember (work s) as k eqn:Ek. revert s Ek. induction (lt_wf k) as [k _ IH]. intros s ->.
  destruct (rest_or_go s) as [R|H]; [by apply inev_now|]. apply inev_later; [done|]. intros s' Hs.
  apply (IH (work s')); [by apply goes_on_work|done].
Qed.
