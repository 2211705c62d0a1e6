(** Proofs about producers (C11-C16). *)
From Verif Require Import Base Types Avro AvroFacts Wire SpecWire WireFacts GoPath Producer SpecBlock SpecProducer.

Lemma on_topic_add tm t m t' : on_topic (add_msg tm t m) t' = on_topic tm t' ++ (if decide (t' = t) then [m] else []).
Proof.
  unfold on_topic, add_msg, topics in *. unfold topic in *. case_decide as E.
  - subst. by rewrite lookup_insert.
  - rewrite lookup_insert_ne by done. by rewrite app_nil_r.
Qed.

Section sch.
  Context (sch : list (finder * topic)) (h : hash).
  Notation mt k := (fst <$> route sch k).

  Definition upd_msg (t : topic) (x : bytes * bytes) : option pmsg :=
    match route sch x.1 with
    | Some (_, t') => if decide (t = t') then Some (PMsg (key_of (KUpdate h x.1)) x.2) else None
    | None => None
    end.
  Definition del_msg (t : topic) (k : bytes) : option pmsg :=
    match route sch k with
    | Some (_, t') => if decide (t = t') then Some (PMsg (key_of (KDelete h k)) []) else None
    | None => None
    end.
  Lemma updates_tm l s t : on_topic (as_tm (foldl (add_update sch h) s l)) t = on_topic (as_tm s) t ++ omap (upd_msg t) l.
  Proof.
    revert s; induction l as [|x l IH]; intros s; cbn [foldl omap list_omap]; [by rewrite app_nil_r|].
    rewrite IH. unfold add_update, upd_msg. destruct (route sch x.1) as [[p t']|]; cbn [as_tm]; [|done].
    rewrite on_topic_add. case_decide; subst; cbn; [by rewrite <- app_assoc|by rewrite app_nil_r].
  Qed.
  Lemma deletes_tm l s t : on_topic (as_tm (foldl (add_delete sch h) s l)) t = on_topic (as_tm s) t ++ omap (del_msg t) l.
  Proof.
    revert s; induction l as [|x l IH]; intros s; cbn [foldl omap list_omap]; [by rewrite app_nil_r|].
    rewrite IH. unfold add_delete, del_msg. destruct (route sch x) as [[p t']|]; cbn [as_tm]; [|done].
    rewrite on_topic_add. case_decide; subst; cbn; [by rewrite <- app_assoc|by rewrite app_nil_r].
  Qed.

  Definition counts_pos (c : gmap bytes Z) : Prop := ∀ p n, c !! p = Some n → (0 < n)%Z.
  Lemma count_up_lookup c p q : default 0%Z (count_up c p !! q) = (default 0 (c !! q) + (if decide (q = p) then 1 else 0))%Z.
  Proof. unfold count_up. case_decide; [subst; by rewrite lookup_insert|]. rewrite lookup_insert_ne by done. lia. Qed.
  Lemma count_up_pos c p : counts_pos c → counts_pos (count_up c p).
  Proof.
    intros H q n. unfold count_up. intros [[<- <-]|[_ ?]]%lookup_insert_Some; [|by eapply H].
    destruct (c !! p) as [m|] eqn:E; cbn; [apply H in E; lia|lia].
  Qed.
  Lemma updates_count l s p : 
    default 0%Z (as_counts (foldl (add_update sch h) s l) !! p) =
    (default 0 (as_counts s !! p) + Z.of_nat (length (filter (λ x, mt x.1 = Some p) l)))%Z.
  Proof.
    revert s; induction l as [|x l IH]; intros s; cbn [foldl]; [cbn; lia|].
    rewrite IH, filter_cons. unfold add_update. destruct (route sch x.1) as [[q t]|] eqn:E; cbn [as_counts].
    - rewrite count_up_lookup. cbn. case_decide as Hd; case_decide as Hd'; cbn [length]; try lia; exfalso; simplify_eq/=.
    - rewrite decide_False; [done|]. done.
  Qed.
  Lemma deletes_count l s p : 
    default 0%Z (as_counts (foldl (add_delete sch h) s l) !! p) =
    (default 0 (as_counts s !! p) + Z.of_nat (length (filter (λ x, mt x = Some p) l)))%Z.
  Proof.
    revert s; induction l as [|x l IH]; intros s; cbn [foldl]; [cbn; lia|].
    rewrite IH, filter_cons. unfold add_delete. destruct (route sch x) as [[q t]|] eqn:E; cbn [as_counts].
    - rewrite count_up_lookup. cbn. case_decide as Hd; case_decide as Hd'; cbn [length]; try lia; exfalso; simplify_eq/=.
    - rewrite decide_False; [done|]. done.
  Qed.
  Lemma updates_pos l s : counts_pos (as_counts s) → counts_pos (as_counts (foldl (add_update sch h) s l)).
  Proof.
    revert s; induction l as [|x l IH]; intros s Hs; cbn [foldl]; [done|]. apply IH. unfold add_update.
    destruct (route sch x.1) as [[q t]|]; cbn; [by apply count_up_pos|done].
  Qed.
  Lemma deletes_pos l s : counts_pos (as_counts s) → counts_pos (as_counts (foldl (add_delete sch h) s l)).
  Proof.
    revert s; induction l as [|x l IH]; intros s Hs; cbn [foldl]; [done|]. apply IH. unfold add_delete.
    destruct (route sch x) as [[q t]|]; cbn; [by apply count_up_pos|done].
  Qed.

  Lemma updates_ups l s k r : NoDup l.*1 →
    as_ups (foldl (add_update sch h) s l) !! k = Some r ↔
    (∃ v, (k, v) ∈ l ∧ route sch k = None ∧ r = BR v 0 zero_hash false) ∨
    ((k ∉ l.*1 ∨ route sch k ≠ None) ∧ as_ups s !! k = Some r).
  Proof.
    revert s; induction l as [|[k0 v0] l IH]; intros s Hn; cbn [foldl].
    { split; [intros H; right; split; [left; apply not_elem_of_nil|done]|]. intros [(v & ?%elem_of_nil & _)|[_ ?]]; done. }
    cbn in Hn. apply NoDup_cons in Hn as [Hn0 Hn]. rewrite IH by done. clear IH.
    assert (Hups : as_ups (add_update sch h s (k0, v0)) !! k =
      if decide (k = k0 ∧ route sch k0 = None) then Some (BR v0 0 zero_hash false) else as_ups s !! k).
    { unfold add_update. cbn [fst snd]. destruct (route sch k0) as [[q t]|] eqn:E; cbn [as_ups].
      - by rewrite decide_False by (intros [_ ?]; done).
      - case_decide as Hd; [destruct Hd as [-> _]; by rewrite lookup_insert|]. rewrite lookup_insert_ne; [done|]. intros ->. by apply Hd. }
    rewrite Hups. clear Hups. cbn [fmap list_fmap fst]. split.
    - intros [(v & Hv & Hr & ->)|[Hk Hs]].
      + left. exists v. split; [by apply elem_of_list_further|done].
      + case_decide as Hd.
        * destruct Hd as [-> Hd]. left. exists v0. split; [apply elem_of_list_here|]. split; [done|congruence].
        * right. split; [|done]. destruct (decide (route sch k = None)) as [Hr|]; [|by right]. left.
          rewrite not_elem_of_cons. split; [intros ->; by apply Hd|]. by destruct Hk.
    - intros [(v & [E|Hv]%elem_of_cons & Hr & ->)|[Hk Hs]].
      + simplify_eq. right. split; [by left|]. by rewrite decide_True.
      + left. by exists v.
      + right. rewrite decide_False.
        * split; [|done]. destruct Hk as [Hk|]; [left|by right]. by apply not_elem_of_cons in Hk as [_ ?].
        * intros [-> Hr]. destruct Hk as [Hk|?]; [|done]. apply Hk, elem_of_list_here.
  Qed.
  Lemma deletes_ups l s k r :
    as_ups (foldl (add_delete sch h) s l) !! k = Some r ↔
    (k ∈ l ∧ route sch k = None ∧ r = BR [] 0 zero_hash true) ∨
    ((k ∉ l ∨ route sch k ≠ None) ∧ as_ups s !! k = Some r).
  Proof.
    revert s; induction l as [|k0 l IH]; intros s; cbn [foldl].
    { split; [intros H; right; split; [left; apply not_elem_of_nil|done]|]. intros [(?%elem_of_nil & _)|[_ ?]]; done. }
    rewrite IH. clear IH.
    assert (Hups : as_ups (add_delete sch h s k0) !! k =
      if decide (k = k0 ∧ route sch k0 = None) then Some (BR [] 0 zero_hash true) else as_ups s !! k).
    { unfold add_delete. destruct (route sch k0) as [[q t]|] eqn:E; cbn [as_ups].
      - by rewrite decide_False by (intros [_ ?]; done).
      - case_decide as Hd; [destruct Hd as [-> _]; by rewrite lookup_insert|]. rewrite lookup_insert_ne; [done|]. intros ->. by apply Hd. }
    rewrite Hups. clear Hups. split.
    - intros [(Hv & Hr & ->)|[Hk Hs]].
      + left. split; [by apply elem_of_list_further|done].
      + case_decide as Hd.
        * destruct Hd as [-> Hd]. left. split; [apply elem_of_list_here|]. split; [done|congruence].
        * right. split; [|done]. destruct (decide (route sch k = None)) as [Hr|]; [|by right]. left.
          rewrite not_elem_of_cons. split; [intros ->; by apply Hd|]. by destruct Hk.
    - intros [([->|Hv]%elem_of_cons & Hr & ->)|[Hk Hs]].
      + destruct (decide (k0 ∈ l)); [by left|]. right. split; [by left|]. by rewrite decide_True.
      + by left.
      + right. rewrite decide_False.
        * split; [|done]. destruct Hk as [Hk|]; [left|by right]. by apply not_elem_of_cons in Hk as [_ ?].
        * intros [-> Hr]. destruct Hk as [Hk|?]; [|done]. apply Hk, elem_of_list_here.
  Qed.
End sch.

(** * The loop over the sub-batches *)
Definition sub_topic (p : producer) (k : bytes) : topic :=
  match route (p_schema p) k with Some (_, t) => t | None => p_default p end.
Lemma add_batches_fixed p h bs ups p' r : add_batches p h bs ups = (p', r) →
  p_schema p' = p_schema p ∧ p_default p' = p_default p ∧
  (∀ id, id ∉ bs.*2 → p_pending p' !! id = p_pending p !! id).
Proof.
  revert p ups; induction bs as [|[k id] bs IH]; intros p ups; cbn [add_batches].
  { intros [= <- <-]. done. }
  case_bool_decide; [intros [= <- <-]; done|]. destruct (ups !! k); [intros [= <- <-]; done|].
  intros H'. apply IH in H' as (A & B & C). cbn in *. split; [done|]. split; [done|].
  intros id' Hid. apply not_elem_of_cons in Hid as [? ?]. rewrite C by done. by rewrite lookup_insert_ne.
Qed.
Lemma add_batches_ok p h bs ups p' ups' : NoDup bs.*1 → add_batches p h bs ups = (p', inr ups') →
  (∀ k id, (k, id) ∈ bs → id ≠ zero_hash ∧ ups !! k = None) ∧
  (∀ k r, ups' !! k = Some r ↔ (∃ id, (k, id) ∈ bs ∧ r = BR [] 0 id false) ∨ ups !! k = Some r) ∧
  (∀ id, id ∈ bs.*2 → ∃ k, (k, id) ∈ bs ∧ p_pending p' !! id = Some (sub_topic p k, h)).
Proof.
  revert p ups; induction bs as [|[k id] bs IH]; intros p ups Hn; cbn [add_batches].
  { intros [= <- <-]. split; [by intros ? ? ?%elem_of_nil|]. split; [|by intros ? ?%elem_of_nil].
    intros k r. split; [by right|]. intros [(id & ?%elem_of_nil & _)|?]; done. }
  cbn in Hn. apply NoDup_cons in Hn as [Hn0 Hn].
  case_bool_decide as Hz; [done|]. destruct (ups !! k) eqn:Eu; [done|].
  intros H'. pose proof (add_batches_fixed _ _ _ _ _ _ H') as (_ & _ & HF). apply IH in H' as (A & B & C); [|done]. split; [|split].
  - intros k1 id1 [E|Hin]%elem_of_cons; [by simplify_eq|]. destruct (A _ _ Hin) as [? E]. split; [done|].
    apply lookup_insert_None in E as [? _]. done.
  - intros k1 r. rewrite B. split.
    + intros [(id1 & Hin & ->)|[[<- <-]|[_ ?]]%lookup_insert_Some].
      * left. exists id1. split; [by apply elem_of_list_further|done].
      * left. exists id. split; [apply elem_of_list_here|done].
      * by right.
    + intros [(id1 & [E|Hin]%elem_of_cons & ->)|Hu].
      * simplify_eq. right. by rewrite lookup_insert.
      * left. by exists id1.
      * right. rewrite lookup_insert_ne; [done|]. intros ->. congruence.
  - intros id1 Hid. destruct (decide (id1 ∈ bs.*2)) as [Hin|Hnin].
    + destruct (C id1 Hin) as (k1 & Hk1 & E). exists k1. split; [by apply elem_of_list_further|exact E].
    + cbn in Hid. apply elem_of_cons in Hid as [->|?]; [|done]. exists k. split; [apply elem_of_list_here|].
      rewrite HF by done. cbn. by rewrite lookup_insert.
Qed.
Lemma add_batches_err p h bs ups p' e : NoDup bs.*1 → add_batches p h bs ups = (p', inl e) →
  match e with
  | AInvalidBatch => ∃ k, (k, zero_hash) ∈ bs
  | APrefixConflict => ∃ k id, (k, id) ∈ bs ∧ is_Some (ups !! k)
  end.
Proof.
  revert p ups; induction bs as [|[k id] bs IH]; intros p ups Hn; cbn [add_batches]; [done|].
  cbn in Hn. apply NoDup_cons in Hn as [Hn0 Hn].
  case_bool_decide as Hz. { intros [= <- <-]. exists k. rewrite Hz. apply elem_of_list_here. }
  destruct (ups !! k) eqn:Eu. { intros [= <- <-]. exists k, id. split; [apply elem_of_list_here|by eexists]. }
  intros H'%IH; [|done]. destruct e.
  - destruct H' as [k' ?]. exists k'. by apply elem_of_list_further.
  - destruct H' as (k' & id' & Hin & [r Hr]). exists k', id'. split; [by apply elem_of_list_further|].
    apply lookup_insert_Some in Hr as [[<- _]|[_ ?]]; [|by eexists]. exfalso. apply Hn0. apply elem_of_list_fmap. by exists (k, id').
Qed.

(** * The loop over the counts *)
Lemma add_counts_ok cs ups ups' : NoDup cs.*1 → add_counts cs ups = inr ups' →
  (∀ k c, (k, c) ∈ cs → ups !! k = None) ∧
  (∀ k r, ups' !! k = Some r ↔ (∃ c, (k, c) ∈ cs ∧ r = BR [] c zero_hash false) ∨ ups !! k = Some r).
Proof.
  revert ups; induction cs as [|[k c] cs IH]; intros ups Hn; cbn [add_counts].
  { intros [= <-]. split; [by intros ? ? ?%elem_of_nil|]. intros k r. split; [by right|]. intros [(id & ?%elem_of_nil & _)|?]; done. }
  cbn in Hn. apply NoDup_cons in Hn as [Hn0 Hn]. destruct (ups !! k) eqn:Eu; [done|]. intros [A B]%IH; [|done]. split.
  - intros k1 c1 [E|Hin]%elem_of_cons; [by simplify_eq|]. pose proof (A _ _ Hin) as E.
    apply lookup_insert_None in E as [? _]. done.
  - intros k1 r. rewrite B. split.
    + intros [(c1 & Hin & ->)|[[<- <-]|[_ ?]]%lookup_insert_Some].
      * left. exists c1. split; [by apply elem_of_list_further|done].
      * left. exists c. split; [apply elem_of_list_here|done].
      * by right.
    + intros [(c1 & [E|Hin]%elem_of_cons & ->)|Hu].
      * simplify_eq. right. by rewrite lookup_insert.
      * left. by exists c1.
      * right. rewrite lookup_insert_ne; [done|]. intros ->. congruence.
Qed.
Lemma add_counts_err cs ups e : NoDup cs.*1 → add_counts cs ups = inl e →
  e = APrefixConflict ∧ ∃ k c, (k, c) ∈ cs ∧ is_Some (ups !! k).
Proof.
  revert ups; induction cs as [|[k c] cs IH]; intros ups Hn; cbn [add_counts]; [done|].
  cbn in Hn. apply NoDup_cons in Hn as [Hn0 Hn]. destruct (ups !! k) eqn:Eu.
  { intros [= <-]. split; [done|]. exists k, c. split; [apply elem_of_list_here|by eexists]. }
  intros H'%IH; [|done]. destruct H' as (-> & k' & c' & Hin & [r Hr]). split; [done|]. exists k', c'. split; [by apply elem_of_list_further|].
  apply lookup_insert_Some in Hr as [[<- _]|[_ ?]]; [|by eexists]. exfalso. apply Hn0. apply elem_of_list_fmap. by exists (k, c').
Qed.
