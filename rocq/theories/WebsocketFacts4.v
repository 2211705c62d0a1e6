(** What the websocket producer sends. *)
From Verif Require Import Base Types Producer Websocket SpecWebsocket WebsocketFacts WebsocketFacts2 WebsocketFacts3.

Definition tb_of (od : list bytes → list bytes) (a : block_args) : tbatch :=
  TB (ba_num a) (ba_weight a) (ba_hash a) (ba_parent a) (ba_updates a) (od (elements (ba_deletes a))) (ba_batches a).
Definition call_batch (c : wcall) : option tbatch :=
  match c with WAdd od a => Some (tb_of od a) | _ => None end.

Lemma run_snoc cs c : wsp_run (cs ++ [c]) = wsp_call (wsp_run cs) c.
Proof. unfold wsp_run. by rewrite foldl_app. Qed.

Lemma sent_batches cs : batches_in (p_sent (wsp_run cs)) = omap call_batch cs.
Proof.
  induction cs as [|c cs IH] using rev_ind; [done|]. rewrite run_snoc, omap_app.
  destruct c as [od a|id dels ups|n h]; cbn [wsp_call].
  - unfold wsp_add. cbn [p_sent]. rewrite batches_in_app, IH. done.
  - unfold wsp_send. destruct (p_expect _ !! id) as [h|]; cbn [from_option Datatypes.id p_sent].
    + rewrite batches_in_app, IH. cbn. by rewrite app_nil_r.
    + cbn. rewrite app_nil_r. exact IH.
  - unfold wsp_reorg. cbn [p_sent]. rewrite batches_in_app, IH. done.
Qed.

Lemma sent_hashes (cs : list wcall) : tb_hash <$> omap call_batch cs = ba_hash <$> omap call_args cs.
Proof. induction cs as [|[od a|id d u|n h] cs IH]; cbn; [done| |exact IH|exact IH]. f_equal. exact IH. Qed.
Lemma sent_ids (cs : list wcall) :
  (b ← omap call_batch cs; ids_of b) = (a ← omap call_args cs; snd <$> map_to_list (ba_batches a)).
Proof. induction cs as [|[od a|id d u|n h] cs IH]; cbn; [done| |exact IH|exact IH]. f_equal. exact IH. Qed.

Lemma elem_of_call_batch (cs : list wcall) b : b ∈ omap call_batch cs ↔ ∃ od a, WAdd od a ∈ cs ∧ b = tb_of od a.
Proof.
  rewrite elem_of_list_omap. split.
  - intros ([od a|id d u|n h] & H & E); try discriminate E. injection E as <-. by exists od, a.
  - intros (od & a & H & ->). by exists (WAdd od a).
Qed.
Lemma sent_batch cs b : IBatch b ∈ p_sent (wsp_run cs) ↔ ∃ od a, WAdd od a ∈ cs ∧ b = tb_of od a.
Proof. rewrite <- elem_of_batches_in, sent_batches. apply elem_of_call_batch. Qed.

(** ** Calls *)
Lemma calls_wf_prefix l1 l2 : calls_wf (l1 ++ l2) → calls_wf l1.
Proof.
  intros [H1 H2 H3]. rewrite omap_app in H1. rewrite omap_app in H2.
  rewrite fmap_app in H1. rewrite bind_app in H2.
  apply NoDup_app in H1 as (H1 & _ & _). apply NoDup_app in H2 as (H2 & _ & _).
  constructor; [exact H1|exact H2|]. intros od a H. apply (H3 od a). apply elem_of_app. by left.
Qed.

Lemma call_args_in (cs : list wcall) od a : WAdd od a ∈ cs → a ∈ omap call_args cs.
Proof. intros H. apply elem_of_list_omap. by exists (WAdd od a). Qed.

Lemma added_once (cs l0 l0' l1 l1' : list wcall) od od' a a' :
  calls_wf cs → cs = l0 ++ WAdd od a :: l1 → cs = l0' ++ WAdd od' a' :: l1' → ba_hash a = ba_hash a' →
  l0 = l0' ∧ l1 = l1' ∧ od = od' ∧ a = a'.
Proof.
  intros [H _ _]. revert cs H l0'. induction l0 as [|c l0 IH]; intros cs H l0' E E' Eh.
  - destruct l0' as [|c' l0'].
    + rewrite E in E'. cbn in E'. injection E' as -> -> ->. done.
    + exfalso. rewrite E in E'. cbn in E'. injection E' as <- ->.
      rewrite E in H. cbn in H. apply NoDup_cons in H as [H _]. apply H. rewrite Eh.
      apply elem_of_list_fmap_1. apply (call_args_in _ od'). apply elem_of_app. right. apply elem_of_list_here.
  - destruct l0' as [|c' l0'].
    + exfalso. rewrite E in E'. cbn in E'. injection E' as -> <-.
      rewrite E in H. cbn in H. apply NoDup_cons in H as [H _]. apply H. rewrite <- Eh.
      apply elem_of_list_fmap_1. apply (call_args_in _ od). apply elem_of_app. right. apply elem_of_list_here.
    + rewrite E in E'. cbn in E'. injection E' as -> E'.
      destruct (IH (l0 ++ WAdd od a :: l1)) with (l0' := l0') as (-> & X); [|done|exact E'|exact Eh|by split].
      rewrite E in H. destruct c' as [od'' a''|id d u|n h]; cbn in H; [|exact H|exact H].
      by apply NoDup_cons in H as [_ H].
Qed.

Lemma has_id_once (cs : list wcall) od od' a a' id :
  calls_wf cs → WAdd od a ∈ cs → WAdd od' a' ∈ cs → has_id a id → has_id a' id → a = a'.
Proof.
  intros [_ H _] Ha Ha' Hi Hi'.
  eapply (bind_NoDup_inj (λ a, snd <$> map_to_list (ba_batches a)) _ _ _ id H); [by eapply call_args_in|by eapply call_args_in| |].
  - destruct Hi as (p & Hp). apply elem_of_list_fmap. exists (p, id). split; [done|by apply elem_of_map_to_list].
  - destruct Hi' as (p & Hp). apply elem_of_list_fmap. exists (p, id). split; [done|by apply elem_of_map_to_list].
Qed.

Definition is_send (id : hash) (c : wcall) : Prop := match c with WSend id' _ _ => id' = id | _ => False end.
#[global] Instance is_send_dec id c : Decision (is_send id c).
Proof. destruct c as [od a|id' d u|n h]; cbn; apply _. Defined.

Lemma first_send id (l : list wcall) :
  (∀ dels ups, WSend id dels ups ∉ l) ∨
  ∃ l1 dels ups l2, l = l1 ++ WSend id dels ups :: l2 ∧ ∀ dels' ups', WSend id dels' ups' ∉ l1.
Proof.
  induction l as [|c l IH]; [left; by intros d u ?%elem_of_nil|].
  destruct (decide (is_send id c)) as [Hc|Hc].
  - right. destruct c as [od a|id' d u|n h]; cbn in Hc; [done| |done]. subst id'.
    exists [], d, u, l. split; [done|]. by intros d' u' ?%elem_of_nil.
  - destruct IH as [IH|(l1 & d & u & l2 & -> & Hn)].
    + left. intros d u H. apply elem_of_cons in H as [H|H]; [|by apply (IH d u)]. subst c. by apply Hc.
    + right. exists (c :: l1), d, u, l2. split; [done|]. intros d' u' H.
      apply elem_of_cons in H as [H|H]; [|by apply (Hn d' u')]. subst c. by apply Hc.
Qed.

Lemma answered_added cs a id d u : answered cs a id d u → added cs a.
Proof. intros (_ & l0 & od & l1 & l2 & -> & _). exists od. apply elem_of_app. right. apply elem_of_list_here. Qed.

Lemma answered_unique cs a id d u d' u' :
  calls_wf cs → answered cs a id d u → answered cs a id d' u' → d = d' ∧ u = u'.
Proof.
  intros W (_ & l0 & od & l1 & l2 & E & Hn) (_ & l0' & od' & l1' & l2' & E' & Hn').
  destruct (added_once cs l0 l0' _ _ od od' a a W E E' eq_refl) as (-> & X & -> & _).
  clear E E'. revert l1' X Hn'. induction l1 as [|c l1 IH]; intros [|c' l1'] X Hn'.
  - cbn in X. by injection X.
  - exfalso. cbn in X. injection X as <- _. apply (Hn' d u). apply elem_of_list_here.
  - exfalso. cbn in X. injection X as -> _. apply (Hn d' u'). apply elem_of_list_here.
  - cbn in X. injection X as _ X. apply (IH (λ d u H, Hn d u (elem_of_list_further _ _ _ H)) l1' X).
    intros d1 u1 H. apply (Hn' d1 u1). by apply elem_of_list_further.
Qed.

Lemma answered_snoc cs c a id d u :
  calls_wf (cs ++ [c]) →
  answered (cs ++ [c]) a id d u ↔
  answered cs a id d u ∨
  (c = WSend id d u ∧ has_id a id ∧ added cs a ∧ ∀ d' u', ¬ answered cs a id d' u').
Proof.
  intros W. pose proof (calls_wf_prefix _ _ W) as W'. split.
  - intros (Hi & l0 & od & l1 & l2 & E & Hn).
    destruct l2 as [|c2 l2 _] using rev_ind.
    + right. rewrite app_comm_cons, app_assoc in E. apply app_inj_tail in E as [E ->].
      split; [done|]. split; [exact Hi|]. split.
      * exists od. rewrite E. apply elem_of_app. right. apply elem_of_list_here.
      * intros d' u' (_ & l0' & od' & l1' & l2' & E' & _).
        destruct (added_once cs l0 l0' l1 _ od od' a a W' E E' eq_refl) as (_ & -> & _).
        apply (Hn d' u'). apply elem_of_app. right. apply elem_of_list_here.
    + left. split; [exact Hi|]. exists l0, od, l1, l2. split; [|exact Hn].
      rewrite (app_comm_cons l2), (app_assoc l1), app_comm_cons, app_assoc in E.
      by apply app_inj_tail in E as [E _].
  - intros [(Hi & l0 & od & l1 & l2 & -> & Hn)|(-> & Hi & (od & Ha) & Hno)].
    + split; [exact Hi|]. exists l0, od, l1, (l2 ++ [c]). split; [|exact Hn].
      rewrite <- app_assoc. cbn. by rewrite <- app_assoc.
    + split; [exact Hi|]. apply elem_of_list_split in Ha as (l0 & l1 & ->).
      exists l0, od, l1, []. split; [by rewrite <- app_assoc|].
      destruct (first_send id l1) as [Hs|(l1a & d' & u' & l1b & -> & Hs)]; [exact Hs|].
      exfalso. apply (Hno d' u'). split; [exact Hi|]. by exists l0, od, l1a, l1b.
Qed.

Lemma expect_fold h l : ∀ (m : gmap hash hash) id,
  foldl (λ m (kv : bytes * hash), <[snd kv := h]> m) m l !! id =
  if decide (id ∈ snd <$> l) then Some h else m !! id.
Proof.
  induction l as [|[k i] l IH]; intros m id; cbn [foldl].
  - destruct (decide _) as [H|]; [by apply elem_of_nil in H|done].
  - rewrite IH. cbn. destruct (decide (id ∈ snd <$> l)) as [H|H].
    + rewrite decide_True; [done|]. by apply elem_of_list_further.
    + destruct (decide (id = i)) as [-> |Hne].
      * rewrite lookup_insert, decide_True; [done|]. apply elem_of_list_here.
      * rewrite lookup_insert_ne by congruence. rewrite decide_False; [done|].
        intros X. by apply elem_of_cons in X as [X|X].
Qed.

Lemma elem_ids a id : id ∈ snd <$> map_to_list (ba_batches a) ↔ has_id a id.
Proof.
  unfold has_id. rewrite elem_of_list_fmap. split.
  - intros ([p i] & -> & H). exists p. by apply elem_of_map_to_list.
  - intros (p & H). exists (p, id). split; [done|]. by apply elem_of_map_to_list.
Qed.

Lemma added_snoc cs c a : added (cs ++ [c]) a ↔ added cs a ∨ ∃ od, c = WAdd od a.
Proof.
  unfold added. split.
  - intros (od & H). apply elem_of_snoc in H as [H|H]; [left; by exists od|right; by exists od].
  - intros [(od & H)|(od & ->)]; exists od; apply elem_of_snoc; [by left|by right].
Qed.

(** The producer's table and the sub-batches it has sent. *)
Lemma producer_inv cs : calls_wf cs →
  (∀ id h, p_expect (wsp_run cs) !! id = Some h ↔
     ∃ a, added cs a ∧ has_id a id ∧ ba_hash a = h ∧ ∀ d u, ¬ answered cs a id d u) ∧
  (∀ s, ISub s ∈ p_sent (wsp_run cs) ↔
     ∃ a, answered cs a (ts_id s) (ts_deletes s) (ts_values s) ∧ ts_hash s = ba_hash a) ∧
  NoDup (ts_id <$> subs_in (p_sent (wsp_run cs))).
Proof.
  induction cs as [|c cs IH] using rev_ind; intros W.
  - split; [|split].
    + intros id h. cbn. rewrite lookup_empty. split; [discriminate|]. intros (a & (od & H) & _). by apply elem_of_nil in H.
    + intros s. cbn. split; [by intros ?%elem_of_nil|].
      intros (a & H & _). apply answered_added in H as (od & H). by apply elem_of_nil in H.
    + constructor.
  - pose proof (calls_wf_prefix _ _ W) as W'. destruct (IH W') as (I1 & I2 & I3). clear IH.
    assert (Hold : ∀ a, added cs a → added (cs ++ [c]) a) by (intros a H; apply added_snoc; by left).
    rewrite run_snoc.
    destruct c as [od a|id dels ups|n h]; cbn [wsp_call].
    + (* AddBlock *)
      assert (Hans : ∀ a' id d u, answered (cs ++ [WAdd od a]) a' id d u ↔ answered cs a' id d u).
      { intros a' id d u. rewrite (answered_snoc _ _ _ _ _ _ W). split; [|by left].
        intros [H|(E & _)]; [exact H|discriminate E]. }
      assert (Hself : added (cs ++ [WAdd od a]) a) by (apply added_snoc; right; by exists od).
      assert (Hin : WAdd od a ∈ cs ++ [WAdd od a]) by (apply elem_of_snoc; by right).
      assert (Hnot : ¬ added cs a).
      { intros (od' & H). destruct W as [W _ _]. rewrite omap_app, fmap_app in W.
        apply NoDup_app in W as (_ & W & _). apply (W (ba_hash a)).
        - apply elem_of_list_fmap_1. by apply (call_args_in _ od').
        - apply elem_of_list_here. }
      unfold wsp_add. cbn [p_expect p_sent]. split; [|split].
      * intros id h. rewrite expect_fold. setoid_rewrite Hans.
        destruct (decide _) as [Hi|Hi]; [apply elem_ids in Hi|].
        -- split.
           ++ intros [= <-]. exists a. split; [exact Hself|]. split; [exact Hi|]. split; [done|].
              intros d u H. apply Hnot. by eapply answered_added.
           ++ intros (a' & (od' & Ha') & Hi' & <- & _). f_equal. f_equal.
              eapply (has_id_once _ _ _ _ _ id W); [exact Hin|exact Ha'|exact Hi|exact Hi'].
        -- rewrite (I1 id h). split.
           ++ intros (a' & Ha' & H). exists a'. split; [by apply Hold|exact H].
           ++ intros (a' & Ha' & H). apply added_snoc in Ha' as [Ha'|(od' & E)].
              ** by exists a'.
              ** exfalso. injection E as _ <-. apply Hi. apply elem_ids. by destruct H.
      * intros s. rewrite elem_of_snoc. setoid_rewrite Hans. rewrite <- (I2 s). split; [|by left].
        intros [H|H]; [exact H|discriminate H].
      * rewrite subs_in_app. cbn. by rewrite app_nil_r.
    + (* SendBatch *)
      assert (Hadd : ∀ a, added (cs ++ [WSend id dels ups]) a ↔ added cs a).
      { intros a. rewrite added_snoc. split; [|by left]. intros [H|(od & E)]; [exact H|discriminate E]. }
      unfold wsp_send. destruct (p_expect (wsp_run cs) !! id) as [h|] eqn:Ee; cbn [from_option Datatypes.id].
      * cbn [p_expect p_sent].
        pose proof (proj1 (I1 id h) Ee) as (a & Ha & Hi & Eh & Hno).
        assert (Hans : ∀ a' id' d u, answered (cs ++ [WSend id dels ups]) a' id' d u ↔
           answered cs a' id' d u ∨ (a' = a ∧ id' = id ∧ d = dels ∧ u = ups)).
        { intros a' id' d u. rewrite (answered_snoc _ _ _ _ _ _ W). split.
          - intros [H|(E & Hi' & (od' & Ha') & _)]; [by left|]. injection E as <- <- <-. right.
            destruct Ha as (od & Ha). split; [|done].
            by eapply (has_id_once _ _ _ _ _ id W').
          - intros [H|(-> & -> & -> & ->)]; [by left|]. right. done. }
        assert (Hfr : ∀ s, ISub s ∈ p_sent (wsp_run cs) → ts_id s ≠ id).
        { intros s Hs E. apply I2 in Hs as (a' & Hs & _). rewrite E in Hs.
          pose proof (answered_added _ _ _ _ _ Hs) as (od' & Ha'). destruct Ha as (od & Ha).
          assert (a' = a) as -> by (eapply (has_id_once _ _ _ _ _ id W'); [exact Ha'|exact Ha|apply Hs|exact Hi]).
          by apply Hno in Hs. }
        split; [|split].
        -- intros id' h'. setoid_rewrite Hadd. rewrite lookup_delete_Some, (I1 id' h'). split.
           ++ intros (Hne & a' & X1 & X2 & X3 & X4). exists a'. split; [exact X1|]. split; [exact X2|].
              split; [exact X3|]. intros d u Hd. apply Hans in Hd as [Hd|(_ & E & _)]; [by apply X4 in Hd|congruence].
           ++ intros (a' & X1 & X2 & X3 & X4). split.
              ** intros <-. destruct Ha as (od & Ha). destruct X1 as (od' & X1).
                 assert (a' = a) as -> by (by eapply (has_id_once _ _ _ _ _ id W')).
                 apply (X4 dels ups). apply Hans. by right.
              ** exists a'. split; [exact X1|]. split; [exact X2|]. split; [exact X3|].
                 intros d u Hd. apply (X4 d u). apply Hans. by left.
        -- intros s. rewrite elem_of_snoc. setoid_rewrite Hans. split.
           ++ intros [Hs|Hs].
              ** apply I2 in Hs as (a' & Hs & E). exists a'. split; [by left|exact E].
              ** injection Hs as ->. exists a. cbn. split; [by right|by symmetry].
           ++ intros (a' & [Hs|(-> & E1 & E2 & E3)] & E).
              ** left. apply I2. by exists a'.
              ** right. destruct s as [sh si sv sd]. cbn in *. congruence.
        -- rewrite subs_in_app, fmap_app. apply NoDup_app. split; [exact I3|]. split; [|cbn; apply NoDup_singleton].
           intros x Hx Hx'. apply elem_of_list_singleton in Hx'. cbn in Hx'. subst x.
           apply elem_of_list_fmap in Hx as (s & E & Hs). apply elem_of_subs_in in Hs.
           by apply (Hfr s Hs).
      * assert (Hans : ∀ a' id' d u, answered (cs ++ [WSend id dels ups]) a' id' d u ↔ answered cs a' id' d u).
        { intros a' id' d u. rewrite (answered_snoc _ _ _ _ _ _ W). split; [|by left].
          intros [H|(E & Hi' & Ha' & Hno)]; [exact H|]. injection E as <- <- <-. exfalso.
          assert (X : p_expect (wsp_run cs) !! id = Some (ba_hash a')) by (apply I1; by exists a'). congruence. }
        split; [|split].
        -- intros id' h'. setoid_rewrite Hadd. setoid_rewrite Hans. apply I1.
        -- intros s. setoid_rewrite Hans. apply I2.
        -- exact I3.
    + (* Reorg *)
      assert (Hadd : ∀ a, added (cs ++ [WReorgCall n h]) a ↔ added cs a).
      { intros a. rewrite added_snoc. split; [|by left]. intros [H|(od & E)]; [exact H|discriminate E]. }
      assert (Hans : ∀ a' id' d u, answered (cs ++ [WReorgCall n h]) a' id' d u ↔ answered cs a' id' d u).
      { intros a' id' d u. rewrite (answered_snoc _ _ _ _ _ _ W). split; [|by left].
        intros [H|(E & _)]; [exact H|discriminate E]. }
      unfold wsp_reorg. cbn [p_expect p_sent]. split; [|split].
      * intros id' h'. setoid_rewrite Hadd. setoid_rewrite Hans. apply I1.
      * intros s. rewrite elem_of_snoc. setoid_rewrite Hans. rewrite <- (I2 s). split; [|by left].
        intros [H|H]; [exact H|discriminate H].
      * rewrite subs_in_app. cbn. by rewrite app_nil_r.
Qed.

Lemma announces_tb od a id : announces (tb_of od a) id ↔ has_id a id.
Proof. done. Qed.

Lemma producer_clean cs : calls_wf cs → clean (p_sent (wsp_run cs)).
Proof.
  intros W. destruct (producer_inv cs W) as (_ & I2 & I3). constructor.
  - rewrite sent_batches, sent_hashes. apply W.
  - exact I3.
  - rewrite sent_batches, sent_ids. apply W.
  - intros b s Hb Hs Ha. apply sent_batch in Hb as (od & a & Hb & ->).
    apply I2 in Hs as (a' & Hs & E). pose proof (answered_added _ _ _ _ _ Hs) as (od' & Ha').
    rewrite E. cbn. f_equal. eapply (has_id_once _ _ _ _ _ (ts_id s) W); [exact Ha'|exact Hb|apply Hs|exact Ha].
  - intros b s Hb Hs E. left. apply sent_batch in Hb as (od & a & Hb & ->).
    apply I2 in Hs as (a' & Hs & E'). pose proof (answered_added _ _ _ _ _ Hs) as (od' & Ha').
    cbn in E. assert (a' = a) as ->; [|apply announces_tb, Hs].
    eapply (fmap_NoDup_inj ba_hash (omap call_args cs)); [apply W|by eapply call_args_in|by eapply call_args_in|congruence].
Qed.

Lemma tells_tb cs od a : calls_wf cs → WAdd od a ∈ cs → tells a (tb_of od a).
Proof.
  intros W H. constructor; try done. intros k. cbn. rewrite (cw_orders _ W od a H (elements (ba_deletes a))).
  apply elem_of_elements.
Qed.

(** All messages of the producer, permuted. *)
Lemma part_answered cs l od a s :
  calls_wf cs → l ≡ₚ p_sent (wsp_run cs) → WAdd od a ∈ cs →
  part_of l (tb_of od a) s ↔
  ∃ id d u, answered cs a id d u ∧ s = TS (ba_hash a) id u d.
Proof.
  intros W El Ha. destruct (producer_inv cs W) as (_ & I2 & _). unfold part_of. rewrite El, (I2 s). split.
  - intros ((a' & Hs & E) & Hi). pose proof (answered_added _ _ _ _ _ Hs) as (od' & Ha').
    assert (a' = a) as -> by (eapply (has_id_once _ _ _ _ _ (ts_id s) W); [exact Ha'|exact Ha|apply Hs|exact Hi]).
    exists (ts_id s), (ts_deletes s), (ts_values s). split; [exact Hs|].
    destruct s as [h id v d]. cbn in *. by rewrite E.
  - intros (id & d & u & Hs & ->). cbn. split; [by exists a|]. by destruct Hs.
Qed.

Lemma assembled_submitted cs l od a pb :
  calls_wf cs → l ≡ₚ p_sent (wsp_run cs) → WAdd od a ∈ cs →
  assembled l (tb_of od a) pb → submitted cs a pb.
Proof.
  intros W El Ha [H1 H2 H3 H4 H5 H6 H7]. constructor; try assumption.
  - intros k. rewrite (H5 k), (te_deletes _ _ (tells_tb cs od a W Ha)). split.
    + intros [X|(s & Hs & X)]; [by left|]. right.
      apply (part_answered cs l od a s W El Ha) in Hs as (id & d & u & Hs & ->). by exists id, d, u.
    + intros [X|(id & d & u & Hs & X)]; [by left|]. right. exists (TS (ba_hash a) id u d).
      split; [|exact X]. apply (part_answered cs l od a _ W El Ha). by exists id, d, u.
  - intros k v Hk. destruct (H6 k v Hk) as [(s & Hs & X)|[X Hn]].
    + left. apply (part_answered cs l od a s W El Ha) in Hs as (id & d & u & Hs & ->). by exists id, d, u.
    + right. split; [exact X|]. intros id d u Hs. apply (Hn (TS (ba_hash a) id u d)).
      apply (part_answered cs l od a _ W El Ha). by exists id, d, u.
  - intros k. rewrite (H7 k). split.
    + intros [X|(s & Hs & X)]; [by left|]. right.
      apply (part_answered cs l od a s W El Ha) in Hs as (id & d & u & Hs & ->). by exists id, d, u.
    + intros [X|(id & d & u & Hs & X)]; [by left|]. right. exists (TS (ba_hash a) id u d).
      split; [|exact X]. apply (part_answered cs l od a _ W El Ha). by exists id, d, u.
Qed.

Lemma all_arrived_answered cs l od a :
  calls_wf cs → l ≡ₚ p_sent (wsp_run cs) → WAdd od a ∈ cs →
  all_arrived l (tb_of od a) ↔ all_answered cs a.
Proof.
  intros W El Ha. split.
  - intros [_ X]. split; [by exists od|]. intros id Hi. destruct (X id Hi) as (s & Hs & E).
    assert (Hp : part_of l (tb_of od a) s) by (split; [exact Hs|by rewrite E]).
    apply (part_answered cs l od a s W El Ha) in Hp as (id' & d & u & Hd & ->). cbn in E. subst id'. by exists d, u.
  - intros [_ X]. split; [rewrite El; apply sent_batch; by exists od, a|]. intros id Hi.
    destruct (X id Hi) as (d & u & Hd). exists (TS (ba_hash a) id u d).
    split; [|done]. assert (Hp : part_of l (tb_of od a) (TS (ba_hash a) id u d)).
    { apply (part_answered cs l od a _ W El Ha). by exists id, d, u. }
    by destruct Hp.
Qed.

Lemma utf8_sent cs : calls_wf cs → Forall utf8_call cs → Forall utf8_item (p_sent (wsp_run cs)).
Proof.
  intros W U. destruct (producer_inv cs W) as (_ & I2 & _). apply Forall_forall. intros i Hi.
  destruct i as [|n h|b|s|]; try done.
  - apply sent_batch in Hi as (od & a & Ha & ->).
    destruct (proj1 (Forall_forall _ _) U _ Ha) as (U1 & U2 & U3). cbn. split; [exact U1|]. split; [exact U2|].
    apply Forall_forall. intros k Hk. apply U3. rewrite (cw_orders _ W od a Ha (elements (ba_deletes a))) in Hk.
    by apply elem_of_elements.
  - apply I2 in Hi as (a & (_ & l0 & od & l1 & l2 & -> & _) & _). cbn.
    assert (X : utf8_call (WSend (ts_id s) (ts_deletes s) (ts_values s))); [|exact X].
    apply (proj1 (Forall_forall _ _) U). apply elem_of_app. right. apply elem_of_list_further.
    apply elem_of_app. right. apply elem_of_list_here.
Qed.

(** Producer, wire and consumer. *)
Lemma end_to_end cs ds st0 :
  calls_wf cs → Forall utf8_call cs → orders_ok ds →
  items ds ≡ₚ json_item <$> p_sent (wsp_run cs) →
  ∃ new, blocks_out (wsc_run (wsc_connect st0) ds) = blocks_out st0 ++ new ∧
    (∀ a, all_answered cs a →
       ∃ pb, filter (λ pb, pb_hash pb = ba_hash a) new = [pb] ∧ submitted cs a pb) ∧
    (∀ pb, pb ∈ new → ∃ a, all_answered cs a ∧ pb_hash pb = ba_hash a).
Proof.
  intros W U Ho El. rewrite (json_items_id _ (utf8_sent cs W U)) in El.
  assert (C : clean (items ds)).
  { eapply clean_perm; [symmetry; exact El|by apply producer_clean]. }
  destruct (assembly st0 ds C Ho) as (new & E & A & O). exists new. split; [exact E|]. split.
  - intros a Ha. pose proof Ha as [(od & Hin) _].
    apply (all_arrived_answered cs _ od a W El Hin) in Ha. destruct (A _ Ha) as (pb & F & X).
    exists pb. split; [exact F|]. by eapply assembled_submitted.
  - intros pb Hpb. destruct (O pb Hpb) as (b & Hb & Eh).
    pose proof (proj1 Hb) as X. rewrite El in X. apply sent_batch in X as (od & a & Hin & ->).
    exists a. split; [|exact Eh]. by apply (all_arrived_answered cs _ od a W El Hin).
Qed.
