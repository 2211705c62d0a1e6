(** Lemmas on the websocket consumer: the invariant of the assembly. *)
From Verif Require Import Base Types Producer Websocket SpecWebsocket.

(** ** Assembled blocks, with the set of parts as a parameter *)
Record asm (P : tsub → Prop) (b : tbatch) (pb : pending_batch) : Prop := Asm {
  asm_num : pb_num pb = tb_num b;
  asm_weight : pb_weight pb = tb_weight b;
  asm_hash : pb_hash pb = tb_hash b;
  asm_parent : pb_parent pb = tb_parent b;
  asm_deletes : ∀ k, k ∈ pb_deletes pb ↔ k ∈ tb_deletes b ∨ ∃ s, P s ∧ k ∈ ts_deletes s;
  asm_values : ∀ k v, pb_values pb !! k = Some v →
    (∃ s, P s ∧ ts_values s !! k = Some v) ∨
    (tb_values b !! k = Some v ∧ ∀ s, P s → ts_values s !! k = None);
  asm_keys : ∀ k, is_Some (pb_values pb !! k) ↔
    is_Some (tb_values b !! k) ∨ ∃ s, P s ∧ is_Some (ts_values s !! k)
}.

Lemma asm_assembled l b pb : asm (part_of l b) b pb ↔ assembled l b pb.
Proof. split; intros []; constructor; assumption. Qed.

Lemma asm_ext (P Q : tsub → Prop) b pb : (∀ s, P s ↔ Q s) → asm P b pb → asm Q b pb.
Proof.
  intros E [H1 H2 H3 H4 H5 H6 H7]. constructor; try assumption.
  - intros k. rewrite (H5 k). by setoid_rewrite E.
  - intros k v Hv. destruct (H6 k v Hv) as [(s & Hs & Hk)|[Hk Hn]].
    + left. exists s. split; [by apply E|exact Hk].
    + right. split; [exact Hk|]. intros s Hs. apply Hn. by apply E.
  - intros k. rewrite (H7 k). by setoid_rewrite E.
Qed.

Lemma asm_start (P : tsub → Prop) b : (∀ s, ¬ P s) → asm P b (to_pending b).
Proof.
  intros H. constructor; try reflexivity.
  - intros k. cbn. rewrite elem_of_list_to_set. split; [by left|].
    intros [Hk|(s & Hs & _)]; [exact Hk|]. by apply H in Hs.
  - intros k v Hv. right. split; [exact Hv|]. intros s Hs. by apply H in Hs.
  - intros k. cbn. split; [by left|]. intros [Hk|(s & Hs & _)]; [exact Hk|]. by apply H in Hs.
Qed.

Lemma asm_merge (P : tsub → Prop) b pb s :
  asm P b pb → asm (λ s', P s' ∨ s' = s) b (merge_sub pb s).
Proof.
  intros [H1 H2 H3 H4 H5 H6 H7]. constructor; try assumption.
  - intros k. cbn. rewrite elem_of_union, elem_of_list_to_set, (H5 k). split.
    + intros [Hk|[Hk|(s' & Hs & Hk)]].
      * right. exists s. split; [by right|exact Hk].
      * by left.
      * right. exists s'. split; [by left|exact Hk].
    + intros [Hk|(s' & [Hs| ->] & Hk)].
      * right. by left.
      * right. right. by exists s'.
      * by left.
  - intros k v. cbn. rewrite lookup_union_Some_raw. intros [Hv|[Hn Hv]].
    + left. exists s. split; [by right|exact Hv].
    + destruct (H6 k v Hv) as [(s' & Hs & Hk)|[Hk Hs]].
      * left. exists s'. split; [by left|exact Hk].
      * right. split; [exact Hk|]. intros s' [Hp| ->]; [by apply Hs|exact Hn].
  - intros k. cbn. rewrite lookup_union_is_Some, (H7 k). split.
    + intros [Hk|[Hk|(s' & Hs & Hk)]].
      * right. exists s. split; [by right|exact Hk].
      * by left.
      * right. exists s'. split; [by left|exact Hk].
    + intros [Hk|(s' & [Hs| ->] & Hk)].
      * right. by left.
      * right. right. by exists s'.
      * by left.
Qed.

(** ** The loop over the announced identifiers *)
Lemma announce_fold b ids : ∀ (P : tsub → Prop) pb subs wait pb' subs' wait',
  NoDup ids → asm P b pb →
  foldl announce (pb, subs, wait) ids = (pb', subs', wait') →
  asm (λ s, P s ∨ ∃ id, id ∈ ids ∧ subs !! id = Some s) b pb' ∧
  (∀ id, id ∈ ids → subs' !! id = None) ∧
  (∀ id, id ∉ ids → subs' !! id = subs !! id) ∧
  (∀ id, id ∈ wait' ↔ id ∈ wait ∨ (id ∈ ids ∧ subs !! id = None)).
Proof.
  induction ids as [|id ids IH]; intros P pb subs wait pb' subs' wait' Hn Ha E.
  - cbn in E. injection E as <- <- <-. split; [|split; [|split]].
    + eapply asm_ext; [|exact Ha]. intros s. split; [by left|].
      intros [H|(id & Hid & _)]; [exact H|]. by apply elem_of_nil in Hid.
    + intros id Hid. by apply elem_of_nil in Hid.
    + done.
    + intros id. split; [by left|]. intros [H|[Hid _]]; [exact H|]. by apply elem_of_nil in Hid.
  - apply NoDup_cons in Hn as [Hni Hn]. cbn [foldl] in E. unfold announce at 2 in E.
    destruct (subs !! id) as [s|] eqn:Es.
    + specialize (IH _ _ _ _ _ _ _ Hn (asm_merge _ _ _ s Ha) E) as (I1 & I2 & I3 & I4).
      split; [|split; [|split]].
      * eapply asm_ext; [|exact I1]. intros s'. split.
        -- intros [[HP| ->]|(i & Hi & Hs)].
           ++ by left.
           ++ right. exists id. split; [apply elem_of_list_here|exact Es].
           ++ right. exists i. split; [by apply elem_of_list_further|].
              apply lookup_delete_Some in Hs as [_ Hs]. exact Hs.
        -- intros [HP|(i & Hi & Hs)]; [by left; left|].
           apply elem_of_cons in Hi as [-> |Hi].
           ++ left. right. congruence.
           ++ right. exists i. split; [exact Hi|]. apply lookup_delete_Some.
              split; [|exact Hs]. intros ->. done.
      * intros i Hi. apply elem_of_cons in Hi as [-> |Hi].
        -- rewrite (I3 id Hni). apply lookup_delete.
        -- by apply I2.
      * intros i Hi. apply not_elem_of_cons in Hi as [Hne Hi].
        rewrite (I3 i Hi). by apply lookup_delete_ne.
      * intros i. rewrite (I4 i). split.
        -- intros [H|[Hi Hs]]; [by left|]. right. split; [by apply elem_of_list_further|].
           rewrite lookup_delete_ne in Hs; [exact Hs|]. intros ->. done.
        -- intros [H|[Hi Hs]]; [by left|]. apply elem_of_cons in Hi as [-> |Hi].
           ++ congruence.
           ++ right. split; [exact Hi|]. apply lookup_delete_None. by right.
    + specialize (IH _ _ _ _ _ _ _ Hn Ha E) as (I1 & I2 & I3 & I4).
      split; [|split; [|split]].
      * eapply asm_ext; [|exact I1]. intros s'. split.
        -- intros [HP|(i & Hi & Hs)]; [by left|]. right. exists i.
           split; [by apply elem_of_list_further|exact Hs].
        -- intros [HP|(i & Hi & Hs)]; [by left|]. apply elem_of_cons in Hi as [-> |Hi].
           ++ congruence.
           ++ right. by exists i.
      * intros i Hi. apply elem_of_cons in Hi as [-> |Hi].
        -- by rewrite (I3 id Hni).
        -- by apply I2.
      * intros i Hi. apply not_elem_of_cons in Hi as [Hne Hi]. by apply I3.
      * intros i. rewrite (I4 i), elem_of_union, elem_of_singleton. split.
        -- intros [[-> |H]|[Hi Hs]].
           ++ right. split; [apply elem_of_list_here|exact Es].
           ++ by left.
           ++ right. split; [by apply elem_of_list_further|exact Hs].
        -- intros [H|[Hi Hs]]; [by left; right|]. apply elem_of_cons in Hi as [-> |Hi].
           ++ by left; left.
           ++ right. by split.
Qed.

(** ** Lists of items *)
Lemma elem_of_batches_in l b : b ∈ batches_in l ↔ IBatch b ∈ l.
Proof.
  unfold batches_in. rewrite elem_of_list_omap. split.
  - intros (i & Hi & E). destruct i; try discriminate E. by injection E as ->.
  - intros H. by exists (IBatch b).
Qed.
Lemma elem_of_subs_in l s : s ∈ subs_in l ↔ ISub s ∈ l.
Proof.
  unfold subs_in. rewrite elem_of_list_omap. split.
  - intros (i & Hi & E). destruct i; try discriminate E. by injection E as ->.
  - intros H. by exists (ISub s).
Qed.
Lemma elem_of_ids b id : id ∈ ids_of b ↔ announces b id.
Proof.
  unfold ids_of, announces. rewrite elem_of_list_fmap. split.
  - intros ([p i] & -> & H). exists p. by apply elem_of_map_to_list.
  - intros (p & H). exists (p, id). split; [done|]. by apply elem_of_map_to_list.
Qed.

Lemma fmap_NoDup_inj {A B} (f : A → B) l x y : NoDup (f <$> l) → x ∈ l → y ∈ l → f x = f y → x = y.
Proof.
  induction l as [|z l IH]; [by intros _ Hx%elem_of_nil|].
  cbn. rewrite NoDup_cons. intros [Hz Hn] Hx Hy E.
  apply elem_of_cons in Hx as [-> |Hx]; apply elem_of_cons in Hy as [-> |Hy]; [done| | |].
  - destruct Hz. rewrite E. by apply elem_of_list_fmap_1.
  - destruct Hz. rewrite <- E. by apply elem_of_list_fmap_1.
  - by apply IH.
Qed.

Lemma bind_NoDup_inj {A B} (f : A → list B) l x y z :
  NoDup (a ← l; f a) → x ∈ l → y ∈ l → z ∈ f x → z ∈ f y → x = y.
Proof.
  induction l as [|a l IH]; [by intros _ Hx%elem_of_nil|].
  cbn. rewrite NoDup_app. intros (_ & Hd & Hn) Hx Hy Zx Zy.
  apply elem_of_cons in Hx as [-> |Hx]; apply elem_of_cons in Hy as [-> |Hy]; [done| | |].
  - destruct (Hd z Zx). apply elem_of_list_bind. by exists y.
  - destruct (Hd z Zy). apply elem_of_list_bind. by exists x.
  - by apply IH.
Qed.

Lemma bind_NoDup_each {A B} (f : A → list B) l x : NoDup (a ← l; f a) → x ∈ l → NoDup (f x).
Proof.
  induction l as [|a l IH]; [by intros _ Hx%elem_of_nil|].
  cbn. rewrite NoDup_app. intros (Ha & _ & Hn) Hx.
  apply elem_of_cons in Hx as [-> |Hx]; [exact Ha|by apply IH].
Qed.

Lemma clean_batch_eq l b b' : clean l → IBatch b ∈ l → IBatch b' ∈ l → tb_hash b = tb_hash b' → b = b'.
Proof.
  intros C H H' E. eapply (fmap_NoDup_inj tb_hash (batches_in l)); [apply C| | |exact E];
  by apply elem_of_batches_in.
Qed.
Lemma clean_sub_eq l s s' : clean l → ISub s ∈ l → ISub s' ∈ l → ts_id s = ts_id s' → s = s'.
Proof.
  intros C H H' E. eapply (fmap_NoDup_inj ts_id (subs_in l)); [apply C| | |exact E];
  by apply elem_of_subs_in.
Qed.
Lemma clean_id_eq l b b' id :
  clean l → IBatch b ∈ l → IBatch b' ∈ l → announces b id → announces b' id → b = b'.
Proof.
  intros C H H' A A'. eapply (bind_NoDup_inj ids_of (batches_in l)); [apply C| | | |].
  - by apply elem_of_batches_in.
  - by apply elem_of_batches_in.
  - by apply elem_of_ids.
  - by apply elem_of_ids.
Qed.
Lemma clean_ids_NoDup l b : clean l → IBatch b ∈ l → NoDup (ids_of b).
Proof.
  intros C H. eapply (bind_NoDup_each ids_of (batches_in l)); [apply C|]. by apply elem_of_batches_in.
Qed.

Lemma batches_in_app l1 l2 : batches_in (l1 ++ l2) = batches_in l1 ++ batches_in l2.
Proof. apply omap_app. Qed.
Lemma subs_in_app l1 l2 : subs_in (l1 ++ l2) = subs_in l1 ++ subs_in l2.
Proof. apply omap_app. Qed.

Lemma clean_prefix l1 l2 : clean (l1 ++ l2) → clean l1.
Proof.
  intros [H1 H2 H3 H4 H5]. rewrite batches_in_app in H1, H3. rewrite subs_in_app in H2.
  rewrite fmap_app in H1. rewrite fmap_app in H2. rewrite bind_app in H3.
  apply NoDup_app in H1 as (H1 & _ & _). apply NoDup_app in H2 as (H2 & _ & _).
  apply NoDup_app in H3 as (H3 & _ & _).
  constructor; [exact H1|exact H2|exact H3| |].
  - intros b s Hb Hs. apply H4; apply elem_of_app; by left.
  - intros b s Hb Hs. apply H5; apply elem_of_app; by left.
Qed.

Lemma clean_perm l l' : l ≡ₚ l' → clean l → clean l'.
Proof.
  intros E [H1 H2 H3 H4 H5].
  assert (Eb : batches_in l ≡ₚ batches_in l') by (unfold batches_in; by rewrite E).
  assert (Es : subs_in l ≡ₚ subs_in l') by (unfold subs_in; by rewrite E).
  constructor.
  - by rewrite <- Eb.
  - by rewrite <- Es.
  - eapply NoDup_Permutation_proper; [|exact H3]. by rewrite Eb.
  - intros b s Hb Hs. apply H4; by rewrite E.
  - intros b s Hb Hs. apply H5; by rewrite E.
Qed.

Lemma clean_snoc_batch l b b' : clean (l ++ [IBatch b]) → IBatch b' ∈ l → tb_hash b' ≠ tb_hash b.
Proof.
  intros [H1 _ _ _ _] H E. rewrite batches_in_app, fmap_app in H1.
  apply NoDup_app in H1 as (_ & H1 & _). apply (H1 (tb_hash b)).
  - rewrite <- E. apply elem_of_list_fmap_1. by apply elem_of_batches_in.
  - apply elem_of_list_here.
Qed.
Lemma clean_snoc_sub l s s' : clean (l ++ [ISub s]) → ISub s' ∈ l → ts_id s' ≠ ts_id s.
Proof.
  intros [_ H1 _ _ _] H E. rewrite subs_in_app, fmap_app in H1.
  apply NoDup_app in H1 as (_ & H1 & _). apply (H1 (ts_id s)).
  - rewrite <- E. apply elem_of_list_fmap_1. by apply elem_of_subs_in.
  - apply elem_of_list_here.
Qed.
Lemma clean_snoc_ids l b b' id :
  clean (l ++ [IBatch b]) → IBatch b' ∈ l → announces b' id → ¬ announces b id.
Proof.
  intros [_ _ H1 _ _] H A A'. rewrite batches_in_app, bind_app in H1.
  apply NoDup_app in H1 as (_ & H1 & _). apply (H1 id).
  - apply elem_of_list_bind. exists b'. split; [by apply elem_of_ids|by apply elem_of_batches_in].
  - apply elem_of_list_bind. exists b. split; [by apply elem_of_ids|apply elem_of_list_here].
Qed.

Lemma elem_of_snoc {A} (l : list A) x y : y ∈ l ++ [x] ↔ y ∈ l ∨ y = x.
Proof. rewrite elem_of_app, elem_of_list_singleton. done. Qed.

Lemma classic_batch (l : list item) h : (∃ b, IBatch b ∈ l ∧ tb_hash b = h) ∨ (∀ b, IBatch b ∈ l → tb_hash b ≠ h).
Proof.
  induction l as [|i l IH]; [right; by intros b ?%elem_of_nil|].
  destruct IH as [(b & Hb & E)|IH].
  - left. exists b. split; [by apply elem_of_list_further|exact E].
  - destruct i as [|n h'|b|s|].
    3: { destruct (decide (tb_hash b = h)) as [E|E].
         - left. exists b. split; [apply elem_of_list_here|exact E].
         - right. intros b' Hb'. apply elem_of_cons in Hb' as [Hb'|Hb']; [congruence|by apply IH]. }
    all: right; intros b' Hb'; apply elem_of_cons in Hb' as [Hb'|Hb']; [discriminate Hb'|by apply IH].
Qed.

Lemma arrived_dec (l : list item) id : (∃ s, ISub s ∈ l ∧ ts_id s = id) ∨ ¬ (∃ s, ISub s ∈ l ∧ ts_id s = id).
Proof.
  induction l as [|i l IH]; [right; by intros (s & ?%elem_of_nil & _)|].
  destruct IH as [(s & Hs & E)|IH].
  - left. exists s. split; [by apply elem_of_list_further|exact E].
  - destruct i as [|n h'|b|s|].
    4: { destruct (decide (ts_id s = id)) as [E|E].
         - left. exists s. split; [apply elem_of_list_here|exact E].
         - right. intros (s' & Hs' & E'). apply elem_of_cons in Hs' as [Hs'|Hs']; [congruence|].
           apply IH. by exists s'. }
    all: right; intros (s' & Hs' & E'); apply elem_of_cons in Hs' as [Hs'|Hs']; [discriminate Hs'|].
    all: apply IH; by exists s'.
Qed.
