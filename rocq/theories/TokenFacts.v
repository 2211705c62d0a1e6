(** C51 and C52: what the resumption token of a block says, and what was announced before. *)
From Verif Require Import Base Lru LruFacts Types Avro AvroFacts Wire SpecWire WireFacts GoPath Producer SpecBlock Consumer ConsumerBase ConsumerFacts
  SpecCollect CollectFacts SpecToken.

(** * Offsets of one block *)
Definition good (Q : msg → Prop) (pb : pending_batch) : Prop :=
  (∀ s o, pb_res pb !! s = Some o → ∃ m, Q m ∧ m_src m = s ∧ m_off m = o) ∧
  (∀ k m, pb_pmsgs pb !! k = Some m → Q m).
Lemma good_mono (Q Q' : msg → Prop) pb : (∀ m, Q m → Q' m) → good Q pb → good Q' pb.
Proof. intros H [H1 H2]. split; [|eauto]. intros s o E. destruct (H1 s o E) as (m & ? & ?). eauto. Qed.
Lemma good_ext (Q : msg → Prop) pb pb' : pb_res pb' = pb_res pb → pb_pmsgs pb' = pb_pmsgs pb → good Q pb → good Q pb'.
Proof. unfold good. by intros -> ->. Qed.
Lemma good_upd (Q : msg → Prop) pb m : Q m → good Q pb → good Q (pb_update_res pb m).
Proof.
  intros Hm [H1 H2]. unfold pb_update_res.
  assert (H : good Q (pb_set_res pb (<[m_src m := m_off m]> (pb_res pb)))).
  { split; [|exact H2]. cbn. intros s o. destruct (decide (m_src m = s)) as [<-|].
    - rewrite lookup_insert. intros [= <-]. by exists m.
    - rewrite lookup_insert_ne by done. apply H1. }
  destruct (pb_res pb !! m_src m); [case_bool_decide|]; done.
Qed.
Lemma good_keep (Q : msg → Prop) pb m : Q m → good Q pb → good Q (keep_msg pb m).
Proof.
  intros Hm [H1 H2]. split; [exact H1|]. cbn. intros k m'. destruct (decide (m_key m = k)) as [->|].
  - rewrite lookup_insert. by intros [= <-].
  - rewrite lookup_insert_ne by done. apply H2.
Qed.
Lemma good_apply (Q : msg → Prop) pb m pb' d : Q m → good Q pb → apply_msg pb m = Ok (pb', d) → good Q pb'.
Proof.
  intros Hm Hg. unfold apply_msg. assert (Hp := good_upd Q pb m Hm Hg). set (p := pb_update_res pb m) in *. clearbody p.
  assert (Hk := good_keep Q p m Hm Hp).
  assert (Hd : ∀ v d' x y, good Q (pb_set_data p v d' x y)) by (intros; by eapply good_ext; [..|exact Hp]).
  destruct (m_key m) as [|t kr]; [discriminate|]. intros H.
  repeat (case_bool_decide || case_match || (ob; cbn [mbind outcome_bind] in H)); simplify_eq/=; try done.
  all: try (destruct (dec_prefix _ _ _) as [[?|]| |]; cbn in H; simplify_eq/=; done).
Qed.
Lemma good_pending (Q : msg → Prop) pb ks pb' : good Q pb → apply_pending pb ks = Ok pb' → good Q pb'.
Proof.
  intros Hg H. unfold apply_pending in H. eapply (foldM_inv (good Q)) in H; [exact H| |exact Hg].
  intros p k p' _ Hp Hx. cbn beta in Hx. destruct (pb_pmsgs pb !! k) as [m|] eqn:E; [|by simplify_eq].
  destruct (apply_msg p m) as [[q d]| |] eqn:Ea; cbn in Hx; simplify_eq.
  apply (good_apply Q) in Ea; [|by eapply Hg|done]. destruct d; [|done]. destruct Ea as [E1 E2]. split; [exact E1|].
  cbn. intros k' m' [_ Hl]%lookup_delete_Some. by eapply E2.
Qed.

(** * The whole state *)
Definition about_seen (ms : list msg) (h : hash) (m : msg) : Prop := m ∈ ms ∧ msg_hash m = h ∧ 33 ≤ length (m_key m).
Definition opened (ms : list msg) (h : hash) (r : gmap bytes Z) : Prop :=
  ∃ ms1 m ms2, ms = ms1 ++ m :: ms2 ∧ msg_hash m = h ∧ 33 ≤ length (m_key m) ∧ head (m_key m) = Some BatchType ∧
    ∀ s o, r !! s = Some o ↔ largest (ms1 ++ [m]) s o.
Definition good_batch (ms : list msg) (pb : pending_batch) : Prop :=
  good (about_seen ms (pb_hash pb)) pb ∧ opened ms (pb_hash pb) (pb_resdef pb).
Definition told (o : list mp_event) (pb : pending_batch) : Prop :=
  ∃ ch, pb_wait pb = Some ch ∧ EWaiter (pb_hash pb) (pb_parent pb) (pb_num pb) ch ∈ o.

Record kinv (ms : list msg) (st : mp) : Prop := KI {
  ki_pend : ∀ h pb, mp_pend st !! h = Some pb → pb_hash pb = h ∧ good_batch ms pb ∧ told (mp_out st) pb;
  ki_queue : ∀ h q k m, mp_queue st !! h = Some q → q !! k = Some m → m ∈ ms ∧ later h m;
  ki_out : ∀ pb o1 o2, mp_out st = o1 ++ EBatch pb :: o2 → good_batch ms pb ∧ told o1 pb;
  ki_chan : NoDup (omap channel (mp_out st)) ∧ ∀ ch, ch ∈ omap channel (mp_out st) → (ch < mp_chan st)%N
}.
Definition rinv (ms : list msg) (st : mp) : Prop := ∀ s o, mp_res st !! s = Some o ↔ largest ms s o.

Lemma opened_mono ms ms' h r : opened ms h r → opened (ms ++ ms') h r.
Proof.
  intros (ms1 & m & ms2 & -> & H). exists ms1, m, (ms2 ++ ms'). split; [by rewrite <- app_assoc|done].
Qed.
Lemma good_batch_mono ms ms' pb : good_batch ms pb → good_batch (ms ++ ms') pb.
Proof.
  intros [H1 H2]. split; [|by apply opened_mono]. eapply good_mono; [|exact H1]. intros m (? & ?). split; [|done].
  apply elem_of_app. by left.
Qed.
Lemma kinv_mono ms ms' st : kinv ms st → kinv (ms ++ ms') st.
Proof.
  intros [H1 H2 H3 H4]. split; [| | |done].
  - intros h pb E. destruct (H1 h pb E) as (? & ? & ?). split; [done|]. split; [by apply good_batch_mono|done].
  - intros h q k m E1 E2. destruct (H2 h q k m E1 E2). split; [|done]. apply elem_of_app. by left.
  - intros pb o1 o2 E. destruct (H3 pb o1 o2 E). split; [by apply good_batch_mono|done].
Qed.
(** Steps that change neither the queue nor the events and at most forget blocks. *)
Lemma kinv_less ms st st' : (∀ h pb, mp_pend st' !! h = Some pb → mp_pend st !! h = Some pb) → mp_queue st' = mp_queue st →
  mp_out st' = mp_out st → mp_chan st' = mp_chan st → kinv ms st → kinv ms st'.
Proof.
  intros E1 E2 E3 E4 [H1 H2 H3 H4]. split.
  - rewrite E3. intros h pb Hp. by apply H1, E1.
  - by rewrite E2.
  - by rewrite E3.
  - by rewrite E3, E4.
Qed.
Lemma kinv_drain ms st : kinv ms st → kinv ms (drain st).
Proof.
  destruct (drain_spec st) as (E1 & E2 & E3 & E4 & E5 & E6 & E7 & E8 & E9). apply kinv_less; try done. intros h pb Hp. by apply E8.
Qed.
Lemma kinv_upd_res ms st m : kinv ms st → kinv ms (mp_update_res st m).
Proof.
  destruct (upd_res_spec st m) as (E1 & E2 & E3 & E4 & E5 & E6 & E7 & E8). apply kinv_less; try done. by rewrite E1.
Qed.
Lemma kinv_push ms ns st : kinv ms st → kinv ms (foldl evict_older_than st ns).
Proof.
  revert st; induction ns as [|n ns IH]; intros st H; [done|]. apply IH.
  destruct (evict_older_spec st n) as (E1 & E2 & E3 & E4 & E5 & E6 & E7 & E8). eapply kinv_less; [..|exact H]; try done. by rewrite E1.
Qed.
Lemma rinv_ext ms st st' : mp_res st' = mp_res st → rinv ms st → rinv ms st'.
Proof. unfold rinv. by intros ->. Qed.
Lemma rinv_push ms ns st : rinv ms st → rinv ms (foldl evict_older_than st ns).
Proof.
  revert st; induction ns as [|n ns IH]; intros st H; [done|]. apply IH.
  destruct (evict_older_spec st n) as (E1 & E2 & E3 & E4 & E5 & E6 & E7 & E8). by eapply rinv_ext.
Qed.
Lemma rinv_drain ms st : rinv ms st → rinv ms (drain st).
Proof. destruct (drain_spec st) as (_ & _ & _ & _ & E & _). by apply rinv_ext. Qed.

Lemma largest_fun ms s o o' : largest ms s o → largest ms s o' → o = o'.
Proof.
  intros [(m & A1 & A2 & A3) A4] [(m' & B1 & B2 & B3) B4]. specialize (A4 m' B1 B2). specialize (B4 m A1 A2). lia.
Qed.
Lemma largest_snoc ms m s o : largest (ms ++ [m]) s o ↔
  (m_src m ≠ s ∧ largest ms s o) ∨
  (m_src m = s ∧ ((largest ms s o ∧ (m_off m ≤ o)%Z) ∨ (o = m_off m ∧ ∀ m', m' ∈ ms → m_src m' = s → (m_off m' ≤ o)%Z))).
Proof.
  unfold largest. split.
  - intros [(m0 & Hm0 & Hs & Ho) Hall]. destruct (decide (m_src m = s)) as [E|E].
    + right. split; [done|]. apply elem_of_app in Hm0 as [Hm0|Hm0].
      * left. split; [split; [eauto|]|].
        -- intros m' Hm'. apply Hall, elem_of_app. by left.
        -- apply Hall; [|done]. apply elem_of_app. right. by apply elem_of_list_singleton.
      * right. apply elem_of_list_singleton in Hm0 as ->. split; [done|]. intros m' Hm'. apply Hall, elem_of_app. by left.
    + left. split; [done|]. apply elem_of_app in Hm0 as [Hm0|Hm0]; [|apply elem_of_list_singleton in Hm0 as ->; done].
      split; [eauto|]. intros m' Hm'. apply Hall, elem_of_app. by left.
  - intros [(E & (m0 & Hm0 & Hs & Ho) & Hall)|(E & [((( m0 & Hm0 & Hs & Ho) & Hall) & Hle)|(-> & Hall)])].
    + split; [exists m0; split; [apply elem_of_app; by left|done]|]. intros m' [Hm'|Hm'%elem_of_list_singleton]%elem_of_app; [by apply Hall|]. by subst.
    + split; [exists m0; split; [apply elem_of_app; by left|done]|]. intros m' [Hm'|Hm'%elem_of_list_singleton]%elem_of_app; [by apply Hall|]. by subst.
    + split; [exists m; split; [apply elem_of_app; right; by apply elem_of_list_singleton|done]|].
      intros m' [Hm'|Hm'%elem_of_list_singleton]%elem_of_app; [by apply Hall|]. by subst.
Qed.
Lemma largest_exists ms s : (∃ m, m ∈ ms ∧ m_src m = s) → ∃ o, largest ms s o.
Proof.
  induction ms as [|m0 ms IH] using rev_ind; intros (m & Hm & Hs); [by apply elem_of_nil in Hm|].
  destruct (decide (m_src m0 = s)) as [E|E].
  - destruct (decide (Exists (λ m, m_src m = s) ms)) as [(m1 & Hm1 & Hs1)%Exists_exists|Hno].
    + destruct IH as [o Ho]; [eauto|]. destruct (decide (m_off m0 ≤ o)%Z) as [Hle|Hgt].
      * exists o. apply largest_snoc. right. split; [done|]. by left.
      * exists (m_off m0). apply largest_snoc. right. split; [done|]. right. split; [done|]. intros m' Hm' Hs'.
        destruct Ho as [_ Ho]. specialize (Ho m' Hm' Hs'). lia.
    + exists (m_off m0). apply largest_snoc. right. split; [done|]. right. split; [done|]. intros m' Hm' Hs'. exfalso.
      apply Hno, Exists_exists. eauto.
  - apply elem_of_app in Hm as [Hm|Hm%elem_of_list_singleton]; [|by subst].
    destruct IH as [o Ho]; [eauto|]. exists o. apply largest_snoc. by left.
Qed.
Lemma rinv_new ms st m : rinv ms st → rinv (ms ++ [m]) (mp_update_res st m).
Proof.
  intros H s o. rewrite largest_snoc. unfold mp_update_res. destruct (mp_res st !! m_src m) as [x|] eqn:E.
  - assert (Hx := proj1 (H _ _) E). case_bool_decide as Hlt.
    + cbn. destruct (decide (m_src m = s)) as [<-|Hne].
      * rewrite lookup_insert. split.
        -- intros [= <-]. right. split; [done|]. right. split; [done|]. intros m' Hm' Hs. destruct Hx as [_ Hx]. specialize (Hx m' Hm' Hs). lia.
        -- intros [[? _]|[_ [[Hl Hle]|[-> _]]]]; [done| |done]. assert (o = x) by (by eapply largest_fun). lia.
      * rewrite lookup_insert_ne by done. rewrite (H s o). split; [auto|]. by intros [[_ ?]|[? _]].
    + destruct (decide (m_src m = s)) as [<-|Hne].
      * rewrite E. split.
        -- intros [= <-]. right. split; [done|]. left. split; [done|]. lia.
        -- intros [[? _]|[_ [[Hl Hle]|[-> Hall]]]]; [done|f_equal; by eapply largest_fun|].
           destruct Hx as [(m0 & A1 & A2 & A3) _]. specialize (Hall m0 A1 A2). f_equal. lia.
      * rewrite (H s o). split; [auto|]. by intros [[_ ?]|[? _]].
  - cbn. destruct (decide (m_src m = s)) as [<-|Hne].
    + rewrite lookup_insert. split.
      * intros [= <-]. right. split; [done|]. right. split; [done|]. intros m' Hm' Hs. exfalso.
        destruct (largest_exists ms (m_src m)) as [o' Ho']; [eauto|]. apply H in Ho'. congruence.
      * intros [[? _]|[_ [[Hl Hle]|[-> _]]]]; [done| |done]. apply H in Hl. congruence.
    + rewrite lookup_insert_ne by done. rewrite (H s o). split; [auto|]. by intros [[_ ?]|[? _]].
Qed.
Lemma rinv_old ms st m : m ∈ ms → rinv ms st → mp_update_res st m = st.
Proof.
  intros Hm H. destruct (largest_exists ms (m_src m)) as [o Ho]; [eauto|]. assert (E := proj2 (H _ _) Ho).
  unfold mp_update_res. rewrite E. rewrite bool_decide_eq_false_2; [done|]. destruct Ho as [_ Ho]. specialize (Ho m Hm eq_refl). lia.
Qed.

(** * Emission *)
Lemma told_app o o' pb : told o pb → told (o ++ o') pb.
Proof. intros (ch & E & Hin). exists ch. split; [done|]. apply elem_of_app. by left. Qed.
Lemma snoc_split {A} (l o1 o2 : list A) x y : l ++ [x] = o1 ++ y :: o2 → (o2 = [] ∧ l = o1 ∧ x = y) ∨ ∃ o3, l = o1 ++ y :: o3.
Proof.
  destruct o2 as [|z o2 _] using rev_ind; intros E.
  - apply app_inj_tail in E as [-> ->]. by left.
  - right. rewrite app_comm_cons, app_assoc in E. apply app_inj_tail in E as [-> _]. eauto.
Qed.
Lemma kinv_emit ms st h pb : mp_pend st !! h = Some pb → kinv ms st → kinv ms (emit st h pb).
Proof.
  intros Hp [H1 H2 H3 [H4 H5]]. split.
  - cbn. intros h' pb' [_ E]%lookup_delete_Some. destruct (H1 _ _ E) as (? & ? & ?). split; [done|]. split; [done|]. by apply told_app.
  - exact H2.
  - cbn. intros pb' o1 o2 E. apply snoc_split in E as [(-> & <- & [= <-])|[o3 E]]; [|by eapply H3].
    by destruct (H1 _ _ Hp) as (_ & ? & ?).
  - cbn. rewrite omap_app. cbn. by rewrite app_nil_r.
Qed.
Lemma kinv_finish ms st h : kinv ms st → kinv ms (finish st h).
Proof.
  intros H. unfold finish. destruct (mp_pend st !! h) as [pb|] eqn:E; [|done]. destruct (ready pb); [|done]. by apply kinv_emit.
Qed.
Lemma finish_res st h : mp_res (finish st h) = mp_res st.
Proof. unfold finish. destruct (mp_pend st !! h) as [pb|]; [|done]. by destruct (ready pb). Qed.
Lemma kinv_set ms st h pb pb' : mp_pend st !! h = Some pb → same_id pb pb' → good (about_seen ms h) pb' → kinv ms st →
  kinv ms (set_pend st (<[h := pb']> (mp_pend st))).
Proof.
  intros Hp (S1 & S2 & S3 & S4 & S5 & S6 & S7) Hg [H1 H2 H3 H4]. split; [|done|done|done].
  cbn. intros h' p. destruct (decide (h = h')) as [<-|Hne]; [|rewrite lookup_insert_ne by done; apply H1].
  rewrite lookup_insert. intros [= <-]. destruct (H1 _ _ Hp) as (E & [_ Ho] & (ch & E1 & E2)).
  split; [congruence|]. split.
  - split; [by rewrite S2, E|]. by rewrite S2, S5.
  - exists ch. rewrite S6, S2, S4, S1. done.
Qed.
Lemma kinv_queue ms st h m : m ∈ ms → later h m → kinv ms st → kinv ms (queue_msg st h m).
Proof.
  intros Hm Hl [H1 H2 H3 H4]. split; [done| |done|done].
  intros h' q k m'. rewrite queue_msg_spec. case_bool_decide as Eh; [subst h'|by apply H2].
  intros [= <-]. destruct (decide (m_key m = k)) as [<-|Hne].
  - rewrite lookup_insert. by intros [= <-].
  - rewrite lookup_insert_ne by done. destruct (mp_queue st !! h) as [q|] eqn:E; cbn; [by apply H2|]. by rewrite lookup_empty.
Qed.

(** * One message *)
Section message.
  Context (ms : list msg) (c : mp_config) (e : menv).
  Let ok (st : mp) : Prop := kinv ms st ∧ rinv ms st.

  (** The cases common to new and queued messages, after lines 272-286. *)
  Lemma ok_sub st m st' err h pb id : m ∈ ms → later h m → ok st → mp_pend st !! h = Some pb →
    (if bool_decide (id ∉ pb_pbatches pb) then Ok (st, false)
     else
       let pb1 := pb_set_batches pb (pb_batches pb) (pb_pbatches pb ∖ {[id]}) in
       match decode_int (m_val m) with
       | None => Ok (set_pend st (<[h := pb1]> (mp_pend st)), true)
       | Some n =>
         if bool_decide (n < 0)%Z then Panic else
         let pb2 := pb_update_res
           (pb_set_batches pb1 (<[id := replicate (Z.to_nat n) false]> (pb_batches pb1)) (pb_pbatches pb1)) m in
         pb3 ← apply_pending pb2 (me_sub e (m_key m) (keys (pb_pmsgs pb2)));
         Ok (finish (set_pend st (<[h := pb3]> (mp_pend st))) h, false)
       end) = Ok (st', err) → ok st'.
  Proof.
    intros Hm Hl [Hk Hr] Hp. case_bool_decide; [by intros [= <- <-]|]. cbn zeta.
    destruct (ki_pend _ _ Hk _ _ Hp) as (Eh & [Hg _] & _).
    assert (Hs : about_seen ms h m) by (destruct Hl as (? & ? & _); by split).
    rewrite Eh in Hg.
    destruct (decode_int (m_val m)) as [n|].
    - case_bool_decide; [discriminate|].
      match goal with |- context [apply_pending ?p ?k] => destruct (apply_pending p k) as [pb3| |] eqn:Ea end; cbn [mbind outcome_bind]; try discriminate.
      intros [= <- <-]. split; [|by eapply rinv_ext; [apply finish_res|]]. apply kinv_finish. eapply kinv_set; [exact Hp| | |done].
      + apply apply_pending_same_id in Ea. eapply same_id_trans; [|exact Ea]. eapply same_id_trans; [|apply same_id_upd_res]. done.
      + eapply good_pending; [|exact Ea]. apply good_upd; [done|]. by eapply good_ext; [..|exact Hg].
    - intros [= <- <-]. split; [|done]. by eapply kinv_set; [exact Hp|done|by eapply good_ext; [..|exact Hg]|].
  Qed.
  Lemma ok_apply st m st' err h pb : m ∈ ms → later h m → ok st → mp_pend st !! h = Some pb →
    (r ← apply_msg pb m; Ok (finish (set_pend st (<[h := fst r]> (mp_pend st))) h, false)) = Ok (st', err) → ok st'.
  Proof.
    intros Hm Hl [Hk Hr] Hp. destruct (ki_pend _ _ Hk _ _ Hp) as (Eh & [Hg _] & _). rewrite Eh in Hg.
    assert (Hs : about_seen ms h m) by (destruct Hl as (? & ? & _); by split).
    destruct (apply_msg pb m) as [[pb' d]| |] eqn:Ea; cbn [mbind outcome_bind]; try discriminate. intros [= <- <-].
    split; [|by eapply rinv_ext; [apply finish_res|]]. apply kinv_finish. eapply kinv_set; [exact Hp|by eapply apply_same_id|by eapply good_apply|done].
  Qed.

  (** A message replayed from the queue. *)
  Lemma ok_later rec st m st' err h : later h m → m ∈ ms → ok st → process_with rec c e st m = Ok (st', err) → ok st'.
  Proof.
    intros Hl Hm [Hk Hr]. unfold process_with.
    assert (Hr1 := rinv_drain ms st Hr). rewrite (rinv_old ms (drain st) m Hm Hr1).
    assert (Hk1 := kinv_drain ms st Hk). set (st1 := drain st) in *. clearbody st1.
    assert (Hl' := Hl). destruct Hl' as (Hh & Hlen & Ht0 & Ht5). rewrite Hh. unfold type_of in *.
    rewrite bool_decide_eq_false_2 by lia. destruct (m_key m) as [|t kr] eqn:Ek; [discriminate|].
    rewrite bool_decide_eq_false_2 by (cbn in *; congruence).
    destruct (lru_contains (mp_done st1) h); [by intros [= <- <-]|].
    case_bool_decide; [by intros [= <- <-]|].
    rewrite bool_decide_eq_false_2 by (cbn in *; congruence). rewrite <- Ek.
    case_bool_decide.
    - destruct (mp_pend st1 !! h) as [pb|] eqn:Ep; [by eapply ok_sub|].
      intros [= <- <-]. split; [by apply kinv_queue|done].
    - destruct (mp_pend st1 !! h) as [pb|] eqn:Ep; [by eapply ok_apply|].
      intros [= <- <-]. split; [by apply kinv_queue|done].
  Qed.

  Lemma ok_open st m b : m ∈ ms → (∃ ms1 ms2, ms = ms1 ++ m :: ms2 ∧ ms2 = []) → 33 ≤ length (m_key m) → head (m_key m) = Some BatchType →
    ok st → mp_pend st !! msg_hash m = None →
    ok (open_batch st (msg_hash m) (header_batch c st (msg_hash m) b m) (b_parent b) (b_num b)).
  Proof.
    intros Hm (ms1 & ms2 & Ems & E2) Hlen Ht [[H1 H2 H3 [H4 H5]] Hr] Hp. set (h := msg_hash m) in *.
    assert (Hid : same_id (PB (b_num b) (bytes_bigint (b_weight b)) (b_parent b) h
       (omap (λ r, match br_value r with [] => None | _ => Some (br_value r) end) (filter (λ x, mc_tracked c x.1 = true) (b_updates b)))
       (dom (filter (λ x, br_delete x.2 = true) (filter (λ x, mc_tracked c x.1 = true) (b_updates b))))
       ∅ (mp_res st)
       (omap (λ r, if bool_decide (br_count r = 0%Z) then None else Some (br_count r)) (filter (λ x, mc_tracked c x.1 = true) (b_updates b)))
       ∅
       (list_to_set (omap (λ x, if bool_decide (br_sub x.2 = zero_hash) then None else Some (br_sub x.2)) (map_to_list (filter (λ x, mc_tracked c x.1 = true) (b_updates b)))))
       ∅ (Some (mp_chan st)) (mc_frp c)) (header_batch c st h b m)) by apply same_id_upd_res.
    assert (Hg : good (about_seen ms h) (header_batch c st h b m)).
    { apply good_upd; [by split|]. split; cbn; intros ? ?; by rewrite lookup_empty. }
    set (pb := header_batch c st h b m) in *. clearbody pb.
    destruct Hid as (S1 & S2 & S3 & S4 & S5 & S6 & S7). cbn in S1, S2, S3, S4, S5, S6, S7.
    split; [|exact Hr]. split.
    - cbn. intros h' p. destruct (decide (h = h')) as [<-|Hne].
      + rewrite lookup_insert. intros [= <-]. split; [done|]. split.
        * split; [by rewrite S2|]. rewrite S2, S5. exists ms1, m, ms2. split; [done|]. split; [done|]. split; [done|]. split; [done|].
          intros s o. rewrite (Hr s o), Ems, E2. done.
        * exists (mp_chan st). split; [done|]. apply elem_of_app. right. apply elem_of_list_singleton. by rewrite S1, S2, S4.
      + rewrite lookup_insert_ne by done. intros E. destruct (H1 _ _ E) as (? & ? & ?). split; [done|]. split; [done|]. by apply told_app.
    - exact H2.
    - cbn. intros pb' o1 o2 E. apply snoc_split in E as [(-> & <- & E)|[o3 E]]; [done|by eapply H3].
    - cbn. rewrite omap_app. cbn. split.
      + apply NoDup_app. split; [done|]. split; [|apply NoDup_singleton]. intros x Hx ->%elem_of_list_singleton. specialize (H5 _ Hx). lia.
      + intros ch [Hc|Hc%elem_of_list_singleton]%elem_of_app; [specialize (H5 _ Hc)|]; lia.
  Qed.
End message.

Lemma ok_process ms c e st m st' err : kinv ms st → rinv ms st → process c e st m = Ok (st', err) →
  kinv (ms ++ [m]) st' ∧ rinv (ms ++ [m]) st'.
Proof.
  intros Hk Hr. unfold process. remember (process_with (λ _ _, Hang) c e) as rec eqn:Erec. unfold process_with.
  assert (Hr1 := rinv_new ms (drain st) m (rinv_drain ms st Hr)).
  assert (Hk1 := kinv_upd_res _ _ m (kinv_drain _ _ (kinv_mono ms [m] st Hk))).
  set (st1 := mp_update_res (drain st) m) in *. clearbody st1. set (ms' := ms ++ [m]) in *.
  assert (Hm : m ∈ ms') by (apply elem_of_app; right; by apply elem_of_list_singleton).
  case_bool_decide as Hlen; [discriminate|]. set (h := msg_hash m).
  destruct (m_key m) as [|t kr] eqn:Ek; [discriminate|].
  case_bool_decide as Ht5.
  { assert (Hre : kinv ms' (reset c st1)) by (by eapply kinv_less; [..|exact Hk1]).
    destruct (decode_int (m_val m)) as [n|]; intros [= <- <-]; [|done]. split; [|done].
    destruct Hre as [H1 H2 H3 [H4 H5]]. split; cbn.
    - intros h' pb E. destruct (H1 _ _ E) as (? & ? & ?). split; [done|]. split; [done|]. by apply told_app.
    - exact H2.
    - intros pb' o1 o2 E. apply snoc_split in E as [(-> & <- & E)|[o3 E]]; [done|by eapply H3].
    - rewrite omap_app. cbn. by rewrite app_nil_r. }
  destruct (lru_contains (mp_done st1) h); [by intros [= <- <-]|].
  case_bool_decide; [by intros [= <- <-]|].
  case_bool_decide as Ht0.
  { destruct (decode_batch (m_val m)) as [b|]; [|by intros [= <- <-]].
    destruct (mp_pend st1 !! h) as [pb|] eqn:Ep; [by intros [= <- <-]|].
    change (MP (mp_last st1) _ _ _ _ _ _ _ _) with (open_batch st1 h (header_batch c st1 h b m) (b_parent b) (b_num b)).
    destruct (ok_open ms' c st1 m b) as [Hk2 Hr2]; try done.
    { exists ms, []. done. } { rewrite Ek. lia. } { rewrite Ek. by subst t. }
    fold h in Hk2, Hr2. set (st2 := open_batch _ _ _ _ _) in *. clearbody st2.
    destruct (mp_queue st2 !! h) as [q|] eqn:Eq.
    - destruct (replay rec e q (me_queue e (keys q)) st2) as [[st3 er]| |] eqn:Er; cbn; try discriminate.
      assert (H3 : kinv ms' st3 ∧ rinv ms' st3).
      { unfold replay in Er.
        eapply (foldM_inv (λ s : mp * bool, kinv ms' s.1 ∧ rinv ms' s.1)) in Er; [exact Er| |done].
        intros [s er'] k [s' er''] _ [Hs1 Hs2] Hkk. cbn [fst] in *. cbn beta iota in Hkk. destruct er'; [by simplify_eq|].
        destruct (q !! k) as [m'|] eqn:Ek'; [|by simplify_eq].
        destruct (ki_queue _ _ Hk2 _ _ _ _ Eq Ek') as [Hm' Hl']. rewrite Erec in Hkk.
        eapply ok_later; [exact Hl'|exact Hm'| |exact Hkk]. split; [by apply kinv_push|by apply rinv_push]. }
      destruct H3 as [Hk3 Hr3]. destruct er; intros [= <- <-]; [done|].
      split; [|eapply rinv_ext; [rewrite finish_res; done|done]]. apply kinv_finish.
      destruct Hk3 as [K1 K2 K3 K4]. split; [done| |done|done]. cbn. intros h' q' k m' [_ E]%lookup_delete_Some. by eapply K2.
    - intros [= <- <-]. split; [by apply kinv_finish|]. eapply rinv_ext; [rewrite finish_res; done|done]. }
  assert (Hlater : later h m).
  { split; [done|]. unfold type_of. rewrite Ek. split; [lia|]. cbn. split; congruence. }
  rewrite <- Ek. case_bool_decide.
  - destruct (mp_pend st1 !! h) as [pb|] eqn:Ep; [by eapply ok_sub|].
    intros [= <- <-]. split; [by apply kinv_queue|done].
  - destruct (mp_pend st1 !! h) as [pb|] eqn:Ep; [by eapply ok_apply|].
    intros [= <- <-]. split; [by apply kinv_queue|done].
Qed.

(** * Runs *)
Lemma messages_app l l' : messages (l ++ l') = messages l ++ messages l'.
Proof. apply omap_app. Qed.
Lemma run_ok c ins st : consumer_run c ins st → kinv (messages ins) st ∧ rinv (messages ins) st.
Proof.
  intros (last & st0 & Hn & Hr). revert st Hr. induction ins as [|i ins IH] using rev_ind; intros st Hr.
  - injection Hr as <-. unfold mp_new in Hn. case_bool_decide; [|discriminate]. injection Hn as <-. split.
    + split.
      * cbn. intros h pb. by rewrite lookup_empty.
      * cbn. intros h q k m. by rewrite lookup_empty.
      * cbn. intros pb o1 o2 E. by destruct o1.
      * cbn. split; [constructor|]. by intros ch ?%elem_of_nil.
    + intros s o. cbn. rewrite lookup_empty. split; [done|]. intros [(m & Hm & _) _]. by apply elem_of_nil in Hm.
  - unfold mp_run in Hr. rewrite foldM_app in Hr. destruct (foldM (mp_step c) ins st0) as [st1| |] eqn:E1; try discriminate.
    destruct (IH st1 E1) as [Hk Hq]. cbn [mbind outcome_bind foldM] in Hr. rewrite messages_app.
    destruct i as [m e|n]; cbn [mp_step] in Hr.
    + destruct (process c e st1 m) as [[st2 er]| |] eqn:E2; try discriminate. cbn in Hr. injection Hr as <-. by eapply ok_process.
    + injection Hr as <-. cbn. rewrite app_nil_r. split; [by apply (kinv_push _ [n])|by apply (rinv_push _ [n])].
Qed.

Lemma token_exact c ins st pb : consumer_run c ins st → EBatch pb ∈ mp_out st →
  (∀ s o, pb_res pb !! s = Some o → ∃ m, m ∈ messages ins ∧ about (pb_hash pb) m ∧ m_src m = s ∧ m_off m = o) ∧
  ∃ ms1 m ms2, messages ins = ms1 ++ m :: ms2 ∧ header_of (pb_hash pb) m ∧
    ∀ s o, pb_resdef pb !! s = Some o ↔ largest (ms1 ++ [m]) s o.
Proof.
  intros Hr (o1 & o2 & E)%elem_of_list_split. destruct (run_ok _ _ _ Hr) as [Hk _]. destruct (ki_out _ _ Hk _ _ _ E) as [[[Hg _] Ho] _]. split.
  - intros s o Hs. destruct (Hg s o Hs) as (m & (? & ? & ?) & ? & ?). exists m. split; [done|]. split; [by apply hash_about|done].
  - destruct Ho as (ms1 & m & ms2 & ? & ? & ? & ? & ?). exists ms1, m, ms2. split; [done|]. split; [|done]. split; [by apply hash_about|done].
Qed.
Lemma announced_first c ins st : consumer_run c ins st →
  (∀ pb, EBatch pb ∈ mp_out st → ∃ ch, pb_wait pb = Some ch ∧
     before (mp_out st) (EWaiter (pb_hash pb) (pb_parent pb) (pb_num pb) ch) (EBatch pb)) ∧
  NoDup (omap channel (mp_out st)).
Proof.
  intros Hr. destruct (run_ok _ _ _ Hr) as [Hk _]. split; [|apply Hk]. intros pb (o1 & o2 & E)%elem_of_list_split.
  destruct (ki_out _ _ Hk _ _ _ E) as [_ (ch & Hw & _)]. exists ch. split; [done|]. intros o1' o2' E'.
  destruct (ki_out _ _ Hk _ _ _ E') as [_ (ch' & Hw' & Hin)]. congruence.
Qed.
