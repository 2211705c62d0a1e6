(** The message loop of a consumer. *)
From Coq Require Import Strings.String.
From Verif Require Import Base Lru LruFacts Types Avro AvroFacts Wire SpecWire Producer SpecBlock SpecProducer Consumer SpecCollect Kafka SpecKafka KafkaFacts.

Lemma kc_message_false c topic st now m e : kc_message c false topic st now m e =
  match head (m_key m) with
  | None => Ok (st, KNone)
  | Some t =>
    if bool_decide (t = ReorgType) then Ok (st, KReorgTopic (topic ++ str "-re-"%string ++ hex_text (drop 1 (m_key m))))
    else if bool_decide (t = PingType) then
      Ok (KC (kc_mp st) (kc_wg st) (tracker_update (kc_pt st) (bytes_hash (drop 1 (m_key m))) now), KNone)
    else if bool_decide (t = ReorgCompleteType) then
      if bool_decide (kc_wg st <= 0)%Z then Panic else Ok (KC (kc_mp st) (kc_wg st - 1) (kc_pt st), KNone)
    else s ← process c e (kc_mp st) m; Ok (KC (fst s) (kc_wg st) (kc_pt st), KNone)
  end.
Proof. unfold kc_message. destruct (m_key m); done. Qed.

Lemma data_inputs_cons x ms : data_inputs (x :: ms) = (if decide (data_message x.1.2) then [IMsg x.1.2 x.2] else []) ++ data_inputs ms.
Proof. unfold data_inputs. rewrite !filter_cons. by destruct (decide _). Qed.
Lemma loop_data c topic ms st st' : kc_wg st = 0%Z → kc_run c false topic ms st = Ok st' →
  mp_run c (data_inputs ms) (kc_mp st) = Ok (kc_mp st') ∧ kc_wg st' = 0%Z ∧ ∀ x, x ∈ ms → head (m_key x.1.2) ≠ Some ReorgCompleteType.
Proof.
  revert st. induction ms as [|[[now m] e] ms IH]; intros st Hw H.
  { injection H as <-. split; [done|]. split; [done|]. intros x Hx. by apply elem_of_nil in Hx. }
  unfold kc_run in H. cbn [foldM fst snd] in H. rewrite kc_message_false in H.
  rewrite data_inputs_cons. unfold mp_run. rewrite foldM_app. cbn [fst snd].
  assert (Hcons : ∀ P : Prop, P → (∀ x, x ∈ ms → head (m_key x.1.2) ≠ Some ReorgCompleteType) → head (m_key m) ≠ Some ReorgCompleteType →
    ∀ x, x ∈ (now, m, e) :: ms → head (m_key x.1.2) ≠ Some ReorgCompleteType).
  { intros _ _ Hr Hm x [->|Hx]%elem_of_cons; [done|by apply Hr]. }
  destruct (head (m_key m)) as [t|] eqn:Eh.
  2:{ cbn [mbind outcome_bind] in H. rewrite decide_False by (unfold data_message; naive_solver). cbn [filter list_filter map foldM mbind outcome_bind].
      destruct (IH st Hw H) as (I1 & I2 & I3). split; [exact I1|]. split; [done|]. eapply Hcons; done. }
  destruct (bool_decide (t = ReorgType)) eqn:B1.
  { apply bool_decide_eq_true_1 in B1 as ->. cbn [mbind outcome_bind] in H. rewrite decide_False by (unfold data_message; naive_solver). cbn [filter list_filter map foldM mbind outcome_bind].
    destruct (IH st Hw H) as (I1 & I2 & I3). split; [exact I1|]. split; [done|]. eapply Hcons; [exact I|done|done]. }
  destruct (bool_decide (t = PingType)) eqn:B2.
  { apply bool_decide_eq_true_1 in B2 as ->. cbn [mbind outcome_bind fst] in H. rewrite decide_False by (unfold data_message; naive_solver). cbn [filter list_filter map foldM mbind outcome_bind].
    destruct (IH (KC (kc_mp st) (kc_wg st) (tracker_update (kc_pt st) (bytes_hash (drop 1 (m_key m))) now)) Hw H) as (I1 & I2 & I3).
    split; [exact I1|]. split; [done|]. eapply Hcons; [exact I|done|done]. }
  destruct (bool_decide (t = ReorgCompleteType)) eqn:B3.
  { rewrite Hw in H. cbn in H. discriminate H. }
  apply bool_decide_eq_false_1 in B1, B2, B3. rewrite decide_True by (exists t; done).
  cbn [filter list_filter map foldM mp_step fst snd]. destruct (process c e (kc_mp st) m) as [s| |]; cbn [mbind outcome_bind fst] in H; try discriminate H.
  destruct (IH (KC (fst s) (kc_wg st) (kc_pt st)) Hw H) as (I1 & I2 & I3). cbn [mbind outcome_bind]. split; [exact I1|]. split; [done|].
  eapply Hcons; [exact I|done|]. congruence.
Qed.
Lemma loop_ok c topic ms st st' : kc_wg st = 0%Z → mp_run c (data_inputs ms) (kc_mp st) = Ok st' →
  (∀ x, x ∈ ms → head (m_key x.1.2) ≠ Some ReorgCompleteType) → ∃ s, kc_run c false topic ms st = Ok s ∧ kc_mp s = st'.
Proof.
  revert st. induction ms as [|[[now m] e] ms IH]; intros st Hw H Hc.
  { injection H as <-. by exists st. }
  assert (Hc1 : head (m_key m) ≠ Some ReorgCompleteType) by (apply (Hc (now, m, e)); left).
  assert (Hc2 : ∀ x, x ∈ ms → head (m_key x.1.2) ≠ Some ReorgCompleteType) by (intros x Hx; apply Hc; by right).
  unfold kc_run. cbn [foldM fst snd]. rewrite kc_message_false.
  rewrite data_inputs_cons in H. unfold mp_run in H. rewrite foldM_app in H. cbn [fst snd] in H.
  destruct (head (m_key m)) as [t|] eqn:Eh.
  2:{ rewrite decide_False in H by (unfold data_message; naive_solver). by apply IH. }
  destruct (bool_decide (t = ReorgType)) eqn:B1.
  { apply bool_decide_eq_true_1 in B1 as ->. rewrite decide_False in H by (unfold data_message; naive_solver). by apply IH. }
  destruct (bool_decide (t = PingType)) eqn:B2.
  { apply bool_decide_eq_true_1 in B2 as ->. rewrite decide_False in H by (unfold data_message; naive_solver). cbn [mbind outcome_bind fst]. by apply IH. }
  destruct (bool_decide (t = ReorgCompleteType)) eqn:B3.
  { apply bool_decide_eq_true_1 in B3 as ->. done. }
  apply bool_decide_eq_false_1 in B1, B2, B3. rewrite decide_True in H by (exists t; done).
  cbn [filter list_filter map foldM mp_step fst snd] in H. destruct (process c e (kc_mp st) m) as [s| |]; cbn [mbind outcome_bind fst] in H |- *; try discriminate H.
  by apply IH.
Qed.
Lemma data_no_reorg ms m : m ∈ messages (data_inputs ms) → ¬ reorg_type m.
Proof.
  unfold data_inputs, messages. intros Hm. apply elem_of_list_omap in Hm as (i & Hi & Hm).
  apply elem_of_list_fmap in Hi as ([[now m'] e] & -> & Hf). apply elem_of_list_filter in Hf as [(t & Ht & Hn & _) _]. cbn in *. injection Hm as ->.
  unfold reorg_type. destruct (m_key m); [done|]. cbn in *. naive_solver.
Qed.
