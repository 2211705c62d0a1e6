(** Facts about a consumer with its waiter. *)
From Verif Require Import Base Lru LruFacts Types Consumer ConsumerBase ConsumerFacts Ordering SpecChain SpecToken OrderingBase OrderingFrom
  Waiter SpecWaiter WaiterFacts WaiterFacts2 WaiterFacts3 WaiterFacts4 WaitSystem.

Lemma announcements_app a b : announcements (a ++ b) = announcements a ++ announcements b.
Proof. apply omap_app. Qed.
Lemma elem_announcements o h n ch : AAnnounce h n ch ∈ announcements o ↔ ∃ p, EWaiter h p n ch ∈ o.
Proof.
  unfold announcements. rewrite elem_of_list_omap. split.
  - intros (ev & Hin & E). destruct ev; try discriminate. injection E as -> -> ->. by eexists.
  - intros [p H]. by exists (EWaiter h p n ch).
Qed.
Lemma announcements_only o a : a ∈ announcements o → ∃ h n ch, a = AAnnounce h n ch.
Proof. unfold announcements. rewrite elem_of_list_omap. intros (ev & _ & E). destruct ev; try discriminate. injection E as <-. eauto. Qed.

(** Two announcements with the same channel are the same. *)
Lemma same_channel o h p n ch h' p' n' : NoDup (omap channel o) → EWaiter h p n ch ∈ o → EWaiter h' p' n' ch ∈ o →
  h' = h ∧ p' = p ∧ n' = n.
Proof.
  intros Hn H1 H2. apply elem_of_list_split in H1 as (a & b & ->).
  rewrite omap_app in Hn. cbn in Hn. apply NoDup_app in Hn as (_ & Hd & Hn). apply NoDup_cons in Hn as [Hn _].
  apply elem_of_app in H2 as [H2|[H2|H2]%elem_of_cons].
  - exfalso. apply (Hd ch); [|left]. apply elem_of_list_omap. by exists (EWaiter h' p' n' ch).
  - by injection H2 as -> -> ->.
  - exfalso. apply Hn. apply elem_of_list_omap. by exists (EWaiter h' p' n' ch).
Qed.

Definition calm (a : waction) : Prop := match a with ADoneBegin _ _ | ADoneEnd _ => False | _ => True end.
Lemma calm_serial tr : Forall calm tr → serial ∅ tr.
Proof. induction 1 as [|a tr Ha _ IH]; [done|]. destruct a; cbn; try done. Qed.
Lemma announcements_calm o : Forall calm (announcements o).
Proof. apply Forall_forall. by intros a (h & n & ch & ->)%announcements_only. Qed.
Lemma done_calm pb : Forall calm (done_action pb).
Proof. unfold done_action. destruct (pb_wait pb); [by apply Forall_singleton|constructor]. Qed.

Section joint.
  Context {Y : Type} (step : Y → Y → Prop) (out : Y → list mp_event) (upd : Y → list omp_event) (reach : Y → Prop).
  Context (Hreach : ∀ y y', reach y → step y y' → reach y')
    (Hout : ∀ y y', reach y → step y y' → out y `prefix_of` out y')
    (Hupd : ∀ y y', reach y → step y y' → upd y `prefix_of` upd y')
    (Hfrom : ∀ y pb, reach y → pb ∈ all_added (upd y) ∨ pb ∈ all_removed (upd y) → EBatch pb ∈ out y)
    (Hann : ∀ y, reach y →
       (∀ pb, EBatch pb ∈ out y → ∃ ch, pb_wait pb = Some ch ∧
          before (out y) (EWaiter (pb_hash pb) (pb_parent pb) (pb_num pb) ch) (EBatch pb)) ∧
       NoDup (omap channel (out y))).

  Definition delivered_in (y : Y) (pb : pending_batch) : Prop := pb ∈ all_added (upd y) ∨ pb ∈ all_removed (upd y).

  Record joint_inv (j : joint Y) : Prop := JI {
    ji_reach : reach (j_y j);
    ji_ann : ∀ h n ch, AAnnounce h n ch ∈ j_tr j → ∃ p, EWaiter h p n ch ∈ out (j_y j);
    ji_done : ∀ pb, pb ∈ j_done j → delivered_in (j_y j) pb;
    ji_called : ∀ ch, ADone ch ∈ j_tr j ↔ ∃ pb, pb ∈ j_done j ∧ pb_wait pb = Some ch;
    ji_calm : Forall calm (j_tr j)
  }.
  Lemma delivered_grows y y' pb : reach y → step y y' → delivered_in y pb → delivered_in y' pb.
  Proof.
    intros Hr Hs. destruct (Hupd y y' Hr Hs) as [x E]. unfold delivered_in. rewrite E, all_added_app, all_removed_app, !elem_of_app. tauto.
  Qed.
  Lemma joint_inv_step j j' : joint_inv j → joint_step step out upd j j' → joint_inv j'.
  Proof.
    intros [H1 H2 H3 H4 H5] Hs. destruct Hs as [y y' tr d Hs|y tr d a Ha|y tr d pb Hpb]; cbn in *.
    - pose proof (Hout _ _ H1 Hs) as [x Ex]. rewrite Ex, drop_app. split; cbn.
      + by eapply Hreach.
      + intros h n ch [H|H]%elem_of_app.
        * destruct (H2 _ _ _ H) as [p Hp]. exists p. rewrite Ex. apply elem_of_app. by left.
        * apply elem_announcements in H as [p Hp]. exists p. rewrite Ex. apply elem_of_app. by right.
      + intros pb Hpb. eapply delivered_grows; [exact H1|exact Hs|by apply H3].
      + intros ch. rewrite elem_of_app, H4. split; [|by left]. intros [H|H]; [done|].
        apply announcements_only in H as (? & ? & ? & H). discriminate H.
      + apply Forall_app. split; [done|apply announcements_calm].
    - split; cbn; [done| |done| |].
      + intros h n ch [H|H%elem_of_list_singleton]%elem_of_app; [by apply H2|by subst a].
      + intros ch. rewrite elem_of_app, H4. split; [|by left]. intros [H|H%elem_of_list_singleton]; [done|by subst a].
      + apply Forall_app. split; [done|]. apply Forall_singleton. by destruct a.
    - split; cbn; [done| | | |].
      + intros h n ch [H|H]%elem_of_app; [by apply H2|]. unfold done_action in H.
        destruct (pb_wait pb); [apply elem_of_list_singleton in H; discriminate H|by apply elem_of_nil in H].
      + intros pb' [H|H%elem_of_list_singleton]%elem_of_app; [by apply H3|by subst pb'].
      + intros ch. rewrite elem_of_app, H4. split.
        * intros [(pb' & H & E)|H]; [exists pb'; split; [apply elem_of_app; by left|done]|]. unfold done_action in H.
          destruct (pb_wait pb) as [ch'|] eqn:E; [|by apply elem_of_nil in H]. apply elem_of_list_singleton in H. injection H as ->.
          exists pb. split; [apply elem_of_app; right; by apply elem_of_list_singleton|done].
        * intros (pb' & [H|H%elem_of_list_singleton]%elem_of_app & E); [left; by exists pb'|]. subst pb'. right. unfold done_action. rewrite E. left.
      + apply Forall_app. split; [done|apply done_calm].
  Qed.
  Lemma joint_run_inv j : joint_run step out upd reach j → joint_inv j.
  Proof.
    intros (y0 & H0 & Hr). assert (Hi : joint_inv (Joint y0 [] [])).
    { split; cbn; [done| | | |constructor].
      - by intros h n ch ?%elem_of_nil.
      - by intros pb ?%elem_of_nil.
      - intros ch. split; [by intros ?%elem_of_nil|]. by intros (pb & ?%elem_of_nil & _). }
    revert Hi. induction Hr as [|x y z Hxy _ IH]; [done|]. intros Hx. apply IH. by eapply joint_inv_step.
  Qed.

  Lemma joint_total j : joint_run step out upd reach j → ∃ w, wrun (j_tr j) w_init = Ok w.
  Proof. intros Hr%joint_run_inv. apply run_serial, calm_serial, Hr. Qed.

  (** Done was called on a batch with this channel: then the batch has the announced hash and number. *)
  Lemma joint_called j h n ch : joint_inv j → AAnnounce h n ch ∈ j_tr j → called (j_tr j) ch →
    ∃ pb, pb ∈ j_done j ∧ delivered_in (j_y j) pb ∧ pb_hash pb = h ∧ pb_num pb = n ∧ pb_wait pb = Some ch.
  Proof.
    intros Hi Ha Hc. destruct Hc as [Hc|[k Hc]].
    2: { exfalso. pose proof (ji_calm _ Hi) as Hcalm. rewrite Forall_forall in Hcalm. exact (Hcalm _ Hc). }
    apply (ji_called _ Hi) in Hc as (pb & Hpb & E). exists pb. split; [done|].
    pose proof (ji_done _ Hi _ Hpb) as Hd. split; [done|].
    destruct (Hann _ (ji_reach _ Hi)) as [A1 A2]. pose proof (Hfrom _ _ (ji_reach _ Hi) Hd) as Hb.
    destruct (A1 pb Hb) as (ch' & E' & Hbef). assert (ch' = ch) as -> by congruence.
    apply elem_of_list_split in Hb as (o1 & o2 & Eo). specialize (Hbef _ _ Eo).
    destruct (ji_ann _ Hi _ _ _ Ha) as [p Hp].
    assert (Hin : EWaiter (pb_hash pb) (pb_parent pb) (pb_num pb) ch ∈ out (j_y j)) by (rewrite Eo; apply elem_of_app; by left).
    by destruct (same_channel _ _ _ _ _ _ _ _ A2 Hp Hin) as (G1 & G2 & G3).
  Qed.

  Lemma joint_success j w q k : joint_run step out upd reach j →
    wrun (j_tr j) w_init = Ok w → w_qs w !! q = Some (QDone k Success) →
    ∃ pb, pb ∈ j_done j ∧ delivered_in (j_y j) pb ∧ match k with KHash h => pb_hash pb = h | KNum n => pb_num pb = n end.
  Proof.
    intros Hi%joint_run_inv Hw Hq. destruct (success_truthful _ _ _ _ Hw Hq) as (h & n & ch & Ha & _ & Hm & Hc).
    destruct (joint_called _ _ _ _ Hi Ha Hc) as (pb & H1 & H2 & H3 & H4 & _). exists pb. split; [done|]. split; [done|].
    destruct k; cbn in Hm; congruence.
  Qed.

  (** The block was announced under one channel only. *)
  Definition once (y : Y) (h : hash) : Prop :=
    ∀ p n ch p' n' ch', EWaiter h p n ch ∈ out y → EWaiter h p' n' ch' ∈ out y → ch' = ch.

  Lemma received_announced tr x : x ∈ received tr → AAnnounce x.1.1 x.1.2 x.2 ∈ tr.
  Proof.
    intros H. assert (Ha : x ∈ announced tr) by (rewrite announced_received; apply elem_of_app; by left).
    unfold announced in Ha. apply elem_of_list_omap in Ha as (a & Ha & E). destruct a; try done. by injection E as <-.
  Qed.

  Lemma joint_done_channel j pb : joint_inv j → pb ∈ j_done j → once (j_y j) (pb_hash pb) →
    ∃ ch, pb_wait pb = Some ch ∧ ADone ch ∈ j_tr j ∧
      ∀ x, x ∈ received (j_tr j) → x.1.1 = pb_hash pb → x = (pb_hash pb, pb_num pb, ch).
  Proof.
    intros Hi Hpb Ho. destruct (Hann _ (ji_reach _ Hi)) as [A1 A2].
    pose proof (ji_done _ Hi _ Hpb) as Hd. pose proof (Hfrom _ _ (ji_reach _ Hi) Hd) as Hb.
    destruct (A1 pb Hb) as (ch & E & Hbef). exists ch. split; [done|]. split; [apply (ji_called _ Hi); by exists pb|].
    apply elem_of_list_split in Hb as (o1 & o2 & Eo). specialize (Hbef _ _ Eo).
    assert (Hin : EWaiter (pb_hash pb) (pb_parent pb) (pb_num pb) ch ∈ out (j_y j)) by (rewrite Eo; apply elem_of_app; by left).
    intros [[h n] ch'] Hx Hh. cbn in Hh. subst h.
    destruct (ji_ann _ Hi _ _ _ (received_announced _ _ Hx)) as [p Hp]. cbn in Hp.
    assert (ch' = ch) as -> by exact (Ho _ _ _ _ _ _ Hin Hp).
    destruct (same_channel _ _ _ _ _ _ _ _ A2 Hin Hp) as (_ & _ & ->). done.
  Qed.

  (** After Done nobody waits for the block any more, and a new wait is answered at once. *)
  Lemma joint_answered j w pb : joint_run step out upd reach j → pb ∈ j_done j → once (j_y j) (pb_hash pb) →
    wrun (j_tr j) w_init = Ok w →
    (∀ q c dl, w_qs w !! q ≠ Some (QParked (KHash (pb_hash pb)) c dl)) ∧
    ∀ q d b w', (∀ x, ALookup q x.1 x.2 ∉ j_tr j) → (0 < d)%Z →
      wrun (j_tr j ++ [ALookup q (KHash (pb_hash pb)) d; ASelect q b]) w_init = Ok w' →
      w_qs w' !! q = Some (QDone (KHash (pb_hash pb)) Success) ∨
      w_qs w' !! q = Some (QDone (KHash (pb_hash pb)) NotFound) ∧
      ((∀ n ch, (pb_hash pb, n, ch) ∉ received (j_tr j)) ∨
       ∃ pb' ch pre post, pb' ∈ j_done j ∧ pb_num pb' = pb_num pb ∧ pb_wait pb' = Some ch ∧
         j_tr j = pre ++ ADone ch :: post ∧ (clock pre + sixty ≤ clock (j_tr j))%N).
  Proof.
    intros Hi%joint_run_inv Hpb Ho Hw. destruct (joint_done_channel _ _ Hi Hpb Ho) as (ch & E & Hd & Hrec). split.
    - intros q c dl Hq. destruct (g_parked _ _ (run_good _ _ Hw) _ _ _ _ Hq) as [(n & ch' & -> & Hr) Hn].
      pose proof (Hrec _ Hr eq_refl) as Ex. injection Ex as -> ->. apply Hn.
      apply (b_nil _ _ (run_basic _ _ Hw)). by apply (b_done _ _ (run_basic _ _ Hw)).
    - intros q d b w' Hf Hpos Hw'.
      assert (Hall : ∀ n ch', (pb_hash pb, n, ch') ∈ received (j_tr j) → ADone ch' ∈ j_tr j).
      { intros n ch' Hr. pose proof (Hrec _ Hr eq_refl) as Ex. injection Ex as -> ->. done. }
      destruct (done_before _ _ _ _ _ _ _ Hw Hf Hpos Hall Hw') as [Hs|Hs]; [by left|]. right. split; [done|].
      change [ALookup q (KHash (pb_hash pb)) d; ASelect q b] with ([ALookup q (KHash (pb_hash pb)) d] ++ [ASelect q b]) in Hw'.
      rewrite app_assoc in Hw'. apply run_snoc in Hw' as (w1 & Hw1 & Hst).
      assert (Hnf : w_qs w1 !! q = Some (QDone (KHash (pb_hash pb)) NotFound)).
      { destruct (lookup_result _ _ _ _ _ Hw1 Hf) as (w0 & _ & El & _). rewrite El in *. cbn [wstep] in Hst. rewrite El in Hst.
        destruct (find w0 (KHash (pb_hash pb))); [|done]. injection Hst as <-. cbn [set_qs w_qs] in Hs. rewrite lookup_insert in Hs.
        destruct (_ && _); [discriminate Hs|]. destruct (bool_decide _); discriminate Hs. }
      destruct (decide ((pb_hash pb, pb_num pb, ch) ∈ received (j_tr j))) as [Hin|Hin].
      + right. destruct (found_for_a_minute _ _ _ _ _ _ _ Hw1 Hf Hin Hrec Hnf) as (h' & ch' & pre & a & post & Hr' & Et & Ha & Hc).
        assert (Hcalm := ji_calm _ Hi). rewrite Et, Forall_app, Forall_cons in Hcalm. destruct Hcalm as (_ & Hcalm & _).
        assert (a = ADone ch') as -> by (destruct Ha as [->|[k ->]]; [done|destruct Hcalm]).
        destruct (joint_called j h' (pb_num pb) ch' Hi) as (pb' & G1 & _ & _ & G2 & G3).
        { apply (received_announced _ _ Hr'). }
        { left. rewrite Et. apply elem_of_app. right. left. }
        exists pb', ch', pre, post. done.
      + left. intros n ch' Hr. pose proof (Hrec _ Hr eq_refl) as Ex. injection Ex as -> ->. done.
  Qed.
End joint.
