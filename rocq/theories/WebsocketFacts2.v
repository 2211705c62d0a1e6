(** The invariant of the websocket consumer within one connection. *)
From Verif Require Import Base Types Producer Websocket SpecWebsocket WebsocketFacts.

Definition hash_is (h : hash) (pb : pending_batch) : Prop := pb_hash pb = h.
#[global] Instance hash_is_dec h pb : Decision (hash_is h pb) := decide (pb_hash pb = h).

(** The state of one announced block. *)
Definition waiting_for (l : list item) (st : wsc) (new : list pending_batch) (b : tbatch) : Prop :=
  ∃ w pb, w ≠ (∅ : gset hash) ∧ c_pend st !! tb_hash b = Some w ∧ c_batches st !! tb_hash b = Some pb ∧
    assembled l b pb ∧
    (∀ id, id ∈ w ↔ announces b id ∧ ∀ s, ISub s ∈ l → ts_id s ≠ id) ∧
    filter (hash_is (tb_hash b)) new = [].
Definition finished (l : list item) (st : wsc) (new : list pending_batch) (b : tbatch) : Prop :=
  all_arrived l b ∧ c_pend st !! tb_hash b = None ∧ c_batches st !! tb_hash b = None ∧
  ∃ pb, filter (hash_is (tb_hash b)) new = [pb] ∧ assembled l b pb.

Record winv (L : list item) (st0 : wsc) (l : list item) (st : wsc) (new : list pending_batch) : Prop := WInv {
  wi_out : blocks_out st = blocks_out st0 ++ new;
  wi_last : (c_num st, c_hash st) =
    from_option (λ pb, (pb_num pb, pb_hash pb)) (c_num st0, c_hash st0) (last new);
  wi_subs : ∀ id s, (∃ b, IBatch b ∈ L ∧ announces b id) →
    c_subs st !! id = Some s ↔ ISub s ∈ l ∧ ts_id s = id ∧ ∀ b, IBatch b ∈ l → ¬ announces b id;
  wi_strays : ∀ id, (∀ b, IBatch b ∈ L → ¬ announces b id) → (∀ s, ISub s ∈ l → ts_id s ≠ id) →
    c_subs st !! id = c_subs st0 !! id;
  wi_blocks : ∀ b, IBatch b ∈ l → waiting_for l st new b ∨ finished l st new b;
  wi_others : ∀ h, (∀ b, IBatch b ∈ l → tb_hash b ≠ h) →
    c_batches st !! h = None ∧ c_pend st !! h = None ∧ filter (hash_is h) new = []
}.

Lemma blocks_out_app st e n h r ba su pe :
  blocks_out (WSC ba su pe n h r (c_out st ++ e)) =
  blocks_out st ++ omap (λ e, match e with WComplete pb => Some pb | _ => None end) e.
Proof. unfold blocks_out. cbn. apply omap_app. Qed.

Lemma assembled_ext l l' b pb :
  (∀ s, part_of l b s ↔ part_of l' b s) → assembled l b pb → assembled l' b pb.
Proof. intros E H. apply asm_assembled in H. apply asm_assembled. eapply asm_ext; [exact E|exact H]. Qed.

Lemma filter_snoc_ne h pb new :
  pb_hash pb ≠ h → filter (hash_is h) (new ++ [pb]) = filter (hash_is h) new.
Proof.
  intros H. rewrite filter_app, filter_cons_False by (intros E; by apply H in E).
  by rewrite filter_nil, app_nil_r.
Qed.
Lemma filter_snoc_eq h pb new :
  pb_hash pb = h → filter (hash_is h) new = [] → filter (hash_is h) (new ++ [pb]) = [pb].
Proof.
  intros H E. rewrite filter_app, filter_cons_True by exact H.
  by rewrite E, filter_nil.
Qed.

(** Items that are neither batches nor sub-batches do not matter. *)
Lemma winv_neutral L st0 l st new i st' :
  (∀ b, i ≠ IBatch b) → (∀ s, i ≠ ISub s) →
  c_batches st' = c_batches st → c_subs st' = c_subs st → c_pend st' = c_pend st →
  c_num st' = c_num st → c_hash st' = c_hash st → blocks_out st' = blocks_out st →
  winv L st0 l st new → winv L st0 (l ++ [i]) st' new.
Proof.
  intros Nb Ns Eb Es Ep En Eh Eo [H1 H2 H3 H4 H5 H6].
  assert (Ib : ∀ b, IBatch b ∈ l ++ [i] ↔ IBatch b ∈ l).
  { intros b. rewrite elem_of_snoc. split; [|by left]. intros [H|H]; [exact H|]. by apply eq_sym, Nb in H. }
  assert (Is : ∀ s, ISub s ∈ l ++ [i] ↔ ISub s ∈ l).
  { intros s. rewrite elem_of_snoc. split; [|by left]. intros [H|H]; [exact H|]. by apply eq_sym, Ns in H. }
  assert (Ep2 : ∀ b s, part_of l b s ↔ part_of (l ++ [i]) b s).
  { intros b s. unfold part_of. by rewrite Is. }
  constructor.
  - by rewrite Eo.
  - by rewrite En, Eh.
  - intros id s H. rewrite Es, (H3 id s H), (Is s). by setoid_rewrite Ib.
  - intros id Hb Hs. rewrite Es. apply H4; [exact Hb|]. intros s Hs'. apply Hs. by apply Is.
  - intros b Hb. apply Ib in Hb. destruct (H5 b Hb) as [(w & pb & W1 & W2 & W3 & W4 & W5 & W6)|(F1 & F2 & F3 & pb & F4 & F5)].
    + left. exists w, pb. rewrite Eb, Ep. split; [exact W1|]. split; [exact W2|]. split; [exact W3|].
      split; [eapply assembled_ext; [apply Ep2|exact W4]|]. split; [|exact W6].
      intros id. rewrite (W5 id). by setoid_rewrite Is.
    + right. unfold finished. rewrite Eb, Ep. split; [|split; [exact F2|split; [exact F3|]]].
      * destruct F1 as [_ F1]. split; [by apply Ib|]. intros id Hid.
        destruct (F1 id Hid) as (s & Hs & E). exists s. split; [by apply Is|exact E].
      * exists pb. split; [exact F4|]. eapply assembled_ext; [apply Ep2|exact F5].
  - intros h Hh. rewrite Eb, Ep. apply H6. intros b Hb. apply Hh. by apply Ib.
Qed.

Lemma last_snoc_default {A} (f : A → Z * hash) d (l : list A) x :
  from_option f d (last (l ++ [x])) = f x.
Proof. by rewrite last_snoc. Qed.

(** A batch message. *)
Lemma winv_batch L st0 l st new b o :
  (∃ r, L = l ++ IBatch b :: r) → clean L → (∀ l, o l ≡ₚ l) →
  winv L st0 l st new → ∃ new', winv L st0 (l ++ [IBatch b]) (wsc_step o st (IBatch b)) new'.
Proof.
  intros (r & EL) CL Ho [H1 H2 H3 H4 H5 H6].
  assert (C : clean (l ++ [IBatch b])).
  { apply (clean_prefix _ r). rewrite <- app_assoc. cbn. by rewrite <- EL. }
  assert (HbL : IBatch b ∈ L). { rewrite EL. apply elem_of_app. right. apply elem_of_list_here. }
  assert (HlL : ∀ i, i ∈ l → i ∈ L). { intros i Hi. rewrite EL. apply elem_of_app. by left. }
  assert (Is : ∀ s, ISub s ∈ l ++ [IBatch b] ↔ ISub s ∈ l).
  { intros s. rewrite elem_of_snoc. split; [|by left]. intros [H|H]; [exact H|discriminate H]. }
  assert (Ib : ∀ b', IBatch b' ∈ l ++ [IBatch b] ↔ IBatch b' ∈ l ∨ b' = b).
  { intros b'. rewrite elem_of_snoc. split; (intros [H|H]; [by left|right]); congruence. }
  assert (Hfresh : ∀ b', IBatch b' ∈ l → tb_hash b' ≠ tb_hash b) by (intros b'; by apply clean_snoc_batch).
  assert (Hsub : ∀ id s, announces b id → c_subs st !! id = Some s ↔ ISub s ∈ l ∧ ts_id s = id).
  { intros id s Hid. rewrite (H3 id s); [|by exists b]. split.
    - intros (A1 & A2 & _). by split.
    - intros (A1 & A2). split; [exact A1|]. split; [exact A2|]. intros b' Hb' Ha.
      by apply (clean_snoc_ids l b b' id C Hb' Ha). }
  cbn [wsc_step]. fold (ids_of b).
  destruct (foldl announce (to_pending b, c_subs st, ∅) (o (ids_of b))) as [[pb subs] wait] eqn:E.
  assert (Hnd : NoDup (o (ids_of b))).
  { rewrite Ho. apply (clean_ids_NoDup _ _ CL HbL). }
  assert (Hin : ∀ id, id ∈ o (ids_of b) ↔ announces b id).
  { intros id. rewrite (Ho (ids_of b)). apply elem_of_ids. }
  destruct (announce_fold b _ (λ _, False) _ _ _ _ _ _ Hnd (asm_start (λ _, False) b (λ _ H, H)) E) as (A1 & A2 & A3 & A4).
  assert (Apb : assembled (l ++ [IBatch b]) b pb).
  { apply asm_assembled. eapply asm_ext; [|exact A1]. intros s. unfold part_of. rewrite Is. split.
    - intros [[]|(id & Hid & Hs)]. apply Hin in Hid. apply (Hsub id s Hid) in Hs as [Hs <-]. by split.
    - intros [Hs Ha]. right. exists (ts_id s). split; [by apply Hin|]. apply Hsub; [exact Ha|]. by split. }
  assert (Hwait : ∀ id, id ∈ wait ↔ announces b id ∧ ∀ s, ISub s ∈ l ++ [IBatch b] → ts_id s ≠ id).
  { intros id. rewrite (A4 id), Hin. setoid_rewrite Is. split.
    - intros [H%elem_of_empty|[Ha Hn]]; [done|]. split; [exact Ha|]. intros s Hs Ei.
      assert (c_subs st !! id = Some s) by (apply Hsub; [exact Ha|by split]). congruence.
    - intros [Ha Hn]. right. split; [exact Ha|]. destruct (c_subs st !! id) as [s|] eqn:Es; [|done].
      apply (Hsub id s Ha) in Es as [Hs Ei]. by apply Hn in Hs. }
  assert (Hsubs' : ∀ id s, (∃ b', IBatch b' ∈ L ∧ announces b' id) →
    subs !! id = Some s ↔ ISub s ∈ l ++ [IBatch b] ∧ ts_id s = id ∧ ∀ b', IBatch b' ∈ l ++ [IBatch b] → ¬ announces b' id).
  { intros id s Hid. destruct (decide (id ∈ o (ids_of b))) as [Hd|Hd].
    - rewrite (A2 id Hd). apply Hin in Hd. split; [discriminate|]. intros (_ & _ & Hx).
      destruct (Hx b); [|exact Hd]. apply Ib. by right.
    - rewrite (A3 id Hd), (H3 id s Hid), (Is s). setoid_rewrite Ib. split.
      + intros (X1 & X2 & X3). split; [exact X1|]. split; [exact X2|]. intros b' [Hb'| ->]; [by apply X3|].
        intros Ha. apply Hd. by apply Hin.
      + intros (X1 & X2 & X3). split; [exact X1|]. split; [exact X2|]. intros b' Hb'. apply X3. by left. }
  assert (Hstr' : ∀ id, (∀ b', IBatch b' ∈ L → ¬ announces b' id) →
    (∀ s, ISub s ∈ l ++ [IBatch b] → ts_id s ≠ id) → subs !! id = c_subs st0 !! id).
  { intros id Hb Hs. rewrite A3; [|intros Hd; apply Hin in Hd; by apply (Hb b)].
    apply H4; [exact Hb|]. intros s Hs'. apply Hs. by apply Is. }
  assert (Hpart : ∀ b' s, part_of l b' s ↔ part_of (l ++ [IBatch b]) b' s).
  { intros b' s. unfold part_of. by rewrite Is. }
  assert (Harr : ∀ b', all_arrived l b' → all_arrived (l ++ [IBatch b]) b').
  { intros b' [X1 X2]. split; [apply Ib; by left|]. intros id Hid. destruct (X2 id Hid) as (s & Hs & Ei).
    exists s. split; [by apply Is|exact Ei]. }
  destruct (H6 (tb_hash b) Hfresh) as (O1 & O2 & O3).
  case_decide as Hw.
  - exists (new ++ [pb]). constructor.
    + unfold completed. cbn. unfold blocks_out in *. cbn. rewrite omap_app, H1. cbn. by rewrite app_assoc.
    + cbn. rewrite last_snoc_default. by rewrite (as_num _ _ _ Apb), (as_hash _ _ _ Apb).
    + exact Hsubs'.
    + exact Hstr'.
    + intros b' Hb'. apply Ib in Hb' as [Hb'| ->].
      * specialize (Hfresh b' Hb').
        assert (Hne : pb_hash pb ≠ tb_hash b') by (rewrite (as_hash _ _ _ Apb); by apply not_eq_sym).
        destruct (H5 b' Hb') as [(w & pb' & W1 & W2 & W3 & W4 & W5 & W6)|(F1 & F2 & F3 & pb' & F4 & F5)].
        -- left. exists w, pb'. cbn. rewrite lookup_delete_ne by (by apply not_eq_sym).
           split; [exact W1|]. split; [exact W2|]. split; [exact W3|].
           split; [eapply assembled_ext; [apply Hpart|exact W4]|]. split.
           ++ intros id. rewrite (W5 id). by setoid_rewrite Is.
           ++ by rewrite filter_snoc_ne.
        -- right. split; [by apply Harr|]. cbn. rewrite lookup_delete_ne by (by apply not_eq_sym).
           split; [exact F2|]. split; [exact F3|]. exists pb'. rewrite filter_snoc_ne by exact Hne.
           split; [exact F4|]. eapply assembled_ext; [apply Hpart|exact F5].
      * right. split; [|split; [|split]].
        -- split; [apply Ib; by right|]. intros id Hid.
           destruct (c_subs st !! id) as [s|] eqn:Es.
           ++ apply (Hsub id s Hid) in Es as [Hs Ei]. exists s. split; [by apply Is|exact Ei].
           ++ exfalso. assert (Hx : id ∈ wait). { apply A4. right. split; [by apply Hin|exact Es]. }
              rewrite Hw in Hx. by apply elem_of_empty in Hx.
        -- cbn. apply lookup_delete.
        -- exact O1.
        -- exists pb. split; [|exact Apb]. apply filter_snoc_eq; [apply (as_hash _ _ _ Apb)|exact O3].
    + intros h Hh. cbn.
      assert (Hne : tb_hash b ≠ h) by (apply Hh, Ib; by right).
      rewrite lookup_delete_ne by exact Hne.
      destruct (H6 h) as (X1 & X2 & X3); [intros b' Hb'; apply Hh, Ib; by left|].
      split; [exact X1|]. split; [exact X2|]. rewrite filter_snoc_ne; [exact X3|].
      by rewrite (as_hash _ _ _ Apb).
  - exists new. constructor.
    + exact H1.
    + exact H2.
    + exact Hsubs'.
    + exact Hstr'.
    + intros b' Hb'. apply Ib in Hb' as [Hb'| ->].
      * specialize (Hfresh b' Hb').
        destruct (H5 b' Hb') as [(w & pb' & W1 & W2 & W3 & W4 & W5 & W6)|(F1 & F2 & F3 & pb' & F4 & F5)].
        -- left. exists w, pb'. cbn. rewrite !lookup_insert_ne by (by apply not_eq_sym).
           split; [exact W1|]. split; [exact W2|]. split; [exact W3|].
           split; [eapply assembled_ext; [apply Hpart|exact W4]|]. split; [|exact W6].
           intros id. rewrite (W5 id). by setoid_rewrite Is.
        -- right. split; [by apply Harr|]. cbn. rewrite !lookup_insert_ne by (by apply not_eq_sym).
           split; [exact F2|]. split; [exact F3|]. exists pb'.
           split; [exact F4|]. eapply assembled_ext; [apply Hpart|exact F5].
      * left. exists wait, pb. cbn. rewrite !lookup_insert. split; [exact Hw|]. split; [done|].
        split; [done|]. split; [exact Apb|]. split; [exact Hwait|exact O3].
    + intros h Hh. cbn.
      assert (Hne : tb_hash b ≠ h) by (apply Hh, Ib; by right).
      rewrite !lookup_insert_ne by exact Hne.
      apply H6. intros b' Hb'. apply Hh, Ib. by left.
Qed.

(** A sub-batch message. *)
Lemma winv_sub L st0 l st new s o :
  (∃ r, L = l ++ ISub s :: r) → clean L →
  winv L st0 l st new → ∃ new', winv L st0 (l ++ [ISub s]) (wsc_step o st (ISub s)) new'.
Proof.
  intros (r & EL) CL [H1 H2 H3 H4 H5 H6].
  assert (C : clean (l ++ [ISub s])).
  { apply (clean_prefix _ r). rewrite <- app_assoc. cbn. by rewrite <- EL. }
  assert (HsL : ISub s ∈ L). { rewrite EL. apply elem_of_app. right. apply elem_of_list_here. }
  assert (HlL : ∀ i, i ∈ l → i ∈ L). { intros i Hi. rewrite EL. apply elem_of_app. by left. }
  assert (Ib : ∀ b, IBatch b ∈ l ++ [ISub s] ↔ IBatch b ∈ l).
  { intros b. rewrite elem_of_snoc. split; [|by left]. intros [H|H]; [exact H|discriminate H]. }
  assert (Is : ∀ s', ISub s' ∈ l ++ [ISub s] ↔ ISub s' ∈ l ∨ s' = s).
  { intros s'. rewrite elem_of_snoc. split; (intros [H|H]; [by left|right]); congruence. }
  assert (Hfresh : ∀ s', ISub s' ∈ l → ts_id s' ≠ ts_id s) by (intros s'; by apply clean_snoc_sub).
  assert (Hpart : ∀ b s', part_of (l ++ [ISub s]) b s' ↔ part_of l b s' ∨ (s' = s ∧ announces b (ts_id s))).
  { intros b s'. unfold part_of. rewrite Is. split.
    - intros [[X| ->] Y]; [left; by split|right; by split].
    - intros [[X Y]|[-> Y]]; (split; [|exact Y]); [by left|by right]. }
  assert (Harr : ∀ b, all_arrived l b → all_arrived (l ++ [ISub s]) b).
  { intros b [X1 X2]. split; [by apply Ib|]. intros id Hid. destruct (X2 id Hid) as (s' & Hs & Ei).
    exists s'. split; [apply Is; by left|exact Ei]. }
  (* a finished block does not announce the new identifier *)
  assert (Hfin : ∀ b, all_arrived l b → ¬ announces b (ts_id s)).
  { intros b [_ X] Ha. destruct (X _ Ha) as (s' & Hs & Ei). by apply (Hfresh s' Hs). }
  (* blocks not concerned *)
  assert (Hkeep : ∀ b st' new', IBatch b ∈ l → ¬ announces b (ts_id s) →
    c_batches st' !! tb_hash b = c_batches st !! tb_hash b →
    c_pend st' !! tb_hash b = c_pend st !! tb_hash b →
    filter (hash_is (tb_hash b)) new' = filter (hash_is (tb_hash b)) new →
    waiting_for (l ++ [ISub s]) st' new' b ∨ finished (l ++ [ISub s]) st' new' b).
  { intros b st' new' Hb Hn E1 E2 E3.
    assert (Hp : ∀ s', part_of l b s' ↔ part_of (l ++ [ISub s]) b s').
    { intros s'. rewrite Hpart. split; [by left|]. intros [X|[_ X]]; [exact X|done]. }
    destruct (H5 b Hb) as [(w & pb' & W1 & W2 & W3 & W4 & W5 & W6)|(F1 & F2 & F3 & pb' & F4 & F5)].
    - left. exists w, pb'. rewrite E1, E2, E3. split; [exact W1|]. split; [exact W2|]. split; [exact W3|].
      split; [eapply assembled_ext; [apply Hp|exact W4]|]. split; [|exact W6].
      intros id. rewrite (W5 id). split; (intros [X Y]; split; [exact X|]).
      + intros s' Hs'. apply Is in Hs' as [Hs'| ->]; [by apply Y|]. intros <-. done.
      + intros s' Hs'. apply Y. apply Is. by left.
    - right. split; [by apply Harr|]. rewrite E1, E2, E3. split; [exact F2|]. split; [exact F3|].
      exists pb'. split; [exact F4|]. eapply assembled_ext; [apply Hp|exact F5]. }
  cbn [wsc_step]. destruct (c_batches st !! ts_hash s) as [pb|] eqn:Eb.
  - (* the batch is waiting *)
    destruct (classic_batch l (ts_hash s)) as [(b & Hb & Eh)|Hno].
    2: { destruct (H6 (ts_hash s) Hno) as (X & _). congruence. }
    destruct (H5 b Hb) as [(w & pb' & W1 & W2 & W3 & W4 & W5 & W6)|(F1 & F2 & F3 & pb' & F4 & F5)].
    2: { rewrite Eh in F3. congruence. }
    rewrite Eh in W2, W3, W6. assert (pb' = pb) as -> by congruence.
    assert (Ha : announces b (ts_id s)).
    { destruct (clean_member _ CL b s (HlL _ Hb) HsL (eq_sym Eh)) as [X|X]; [exact X|].
      exfalso. apply W1. apply set_eq. intros id. split; [|by intros ?%elem_of_empty].
      intros [(p & Hp) _]%W5. rewrite X in Hp. by rewrite lookup_empty in Hp. }
    assert (Apb : assembled (l ++ [ISub s]) b (merge_sub pb s)).
    { apply asm_assembled. apply asm_assembled in W4. eapply asm_ext; [|apply asm_merge, W4].
      intros s'. cbn. rewrite Hpart. split.
      - intros [X| ->]; [by left|]. by right.
      - intros [X|[-> _]]; [by left|by right]. }
    assert (Hoth : ∀ b', IBatch b' ∈ l → b' ≠ b → tb_hash b' ≠ ts_hash s ∧ ¬ announces b' (ts_id s)).
    { intros b' Hb' Hne. split.
      - intros E. apply Hne. apply (clean_batch_eq L); [exact CL|by apply HlL|by apply HlL|congruence].
      - intros X. apply Hne. apply (clean_id_eq L _ _ (ts_id s)); [exact CL|by apply HlL|by apply HlL|exact X|exact Ha]. }
    rewrite W2. change (default ∅ (Some w)) with w.
    assert (Hw' : ∀ id, id ∈ w ∖ {[ts_id s]} ↔ announces b id ∧ ∀ s', ISub s' ∈ l ++ [ISub s] → ts_id s' ≠ id).
    { intros id. rewrite elem_of_difference, elem_of_singleton, (W5 id). split.
      - intros [[X Y] Z]. split; [exact X|]. intros s' Hs'. apply Is in Hs' as [Hs'| ->]; [by apply Y|].
        by apply not_eq_sym.
      - intros [X Y]. split; [split; [exact X|]|].
        + intros s' Hs'. apply Y. apply Is. by left.
        + apply not_eq_sym. apply Y. apply Is. by right. }
    assert (Hsubs' : ∀ id s', (∃ b', IBatch b' ∈ L ∧ announces b' id) →
      delete (ts_id s) (c_subs st) !! id = Some s' ↔
      ISub s' ∈ l ++ [ISub s] ∧ ts_id s' = id ∧ ∀ b', IBatch b' ∈ l ++ [ISub s] → ¬ announces b' id).
    { intros id s' Hid. rewrite lookup_delete_Some, (H3 id s' Hid), Is. setoid_rewrite Ib. split.
      - intros (X & Y1 & Y2 & Y3). split; [by left|]. by split.
      - intros (X & Y1 & Y2). destruct X as [X| ->].
        + split; [intros <-; by apply (Hfresh s' X)|]. by split.
        + exfalso. subst id. by apply (Y2 b). }
    assert (Hstr' : ∀ id, (∀ b', IBatch b' ∈ L → ¬ announces b' id) →
      (∀ s', ISub s' ∈ l ++ [ISub s] → ts_id s' ≠ id) → delete (ts_id s) (c_subs st) !! id = c_subs st0 !! id).
    { intros id Hb' Hs'. rewrite lookup_delete_ne; [|apply Hs', Is; by right].
      apply H4; [exact Hb'|]. intros s' Hs''. apply Hs', Is. by left. }
    case_decide as Hw.
    + exists (new ++ [merge_sub pb s]). constructor.
      * unfold completed. cbn. unfold blocks_out in *. cbn. rewrite omap_app, H1. cbn. by rewrite app_assoc.
      * cbn. by rewrite last_snoc_default.
      * exact Hsubs'.
      * exact Hstr'.
      * intros b' Hb'. apply Ib in Hb'. destruct (decide (tb_hash b' = ts_hash s)) as [E|E].
        -- assert (b' = b) as -> by (apply (clean_batch_eq L); [exact CL|by apply HlL|by apply HlL|congruence]).
           right. split; [|split; [|split]].
           ++ split; [by apply Ib|]. intros id Hid. destruct (arrived_dec (l ++ [ISub s]) id) as [X|X]; [exact X|].
              exfalso. assert (Hx : id ∈ w ∖ {[ts_id s]}).
              { apply Hw'. split; [exact Hid|]. intros s' Hs' Ei. apply X. by exists s'. }
              rewrite Hw in Hx. by apply elem_of_empty in Hx.
           ++ cbn. rewrite Eh. apply lookup_delete.
           ++ cbn. rewrite Eh. apply lookup_delete.
           ++ exists (merge_sub pb s). split; [|exact Apb]. rewrite Eh.
              apply filter_snoc_eq; [|exact W6]. rewrite (as_hash _ _ _ Apb). exact Eh.
        -- assert (Hbb : b' ≠ b) by congruence. destruct (Hoth b' Hb' Hbb) as [X1 X2].
           apply Hkeep; [exact Hb'|exact X2| | |].
           ++ cbn. apply lookup_delete_ne. by apply not_eq_sym.
           ++ cbn. apply lookup_delete_ne. by apply not_eq_sym.
           ++ apply filter_snoc_ne. rewrite (as_hash _ _ _ Apb), Eh. by apply not_eq_sym.
      * intros h Hh. cbn.
        assert (Hne : ts_hash s ≠ h) by (rewrite <- Eh; by apply Hh, Ib).
        rewrite !lookup_delete_ne by exact Hne.
        destruct (H6 h) as (X1 & X2 & X3); [intros b' Hb'; by apply Hh, Ib|].
        split; [exact X1|]. split; [exact X2|]. rewrite filter_snoc_ne; [exact X3|].
        by rewrite (as_hash _ _ _ Apb), Eh.
    + exists new. constructor.
      * exact H1.
      * exact H2.
      * exact Hsubs'.
      * exact Hstr'.
      * intros b' Hb'. apply Ib in Hb'. destruct (decide (tb_hash b' = ts_hash s)) as [E|E].
        -- assert (b' = b) as -> by (apply (clean_batch_eq L); [exact CL|by apply HlL|by apply HlL|congruence]).
           left. exists (w ∖ {[ts_id s]}), (merge_sub pb s). cbn. rewrite Eh, !lookup_insert.
           split; [exact Hw|]. split; [done|]. split; [done|]. split; [exact Apb|]. split; [exact Hw'|exact W6].
        -- assert (Hbb : b' ≠ b) by congruence. destruct (Hoth b' Hb' Hbb) as [X1 X2].
           apply Hkeep; [exact Hb'|exact X2| | |done].
           ++ cbn. apply lookup_insert_ne. by apply not_eq_sym.
           ++ cbn. apply lookup_insert_ne. by apply not_eq_sym.
      * intros h Hh. cbn.
        assert (Hne : ts_hash s ≠ h) by (rewrite <- Eh; by apply Hh, Ib).
        rewrite !lookup_insert_ne by exact Hne.
        apply H6. intros b' Hb'. by apply Hh, Ib.
  - (* no batch is waiting under that hash *)
    assert (Hun : ∀ b, IBatch b ∈ l → ¬ announces b (ts_id s)).
    { intros b Hb Ha. pose proof (clean_owner _ CL b s (HlL _ Hb) HsL Ha) as E.
      destruct (H5 b Hb) as [(w & pb' & W1 & W2 & W3 & W4 & W5 & W6)|(F1 & _)].
      - rewrite <- E in W3. congruence.
      - by apply (Hfin b F1). }
    exists new. constructor.
    + exact H1.
    + exact H2.
    + intros id s' Hid. cbn. rewrite Is. setoid_rewrite Ib.
      destruct (decide (ts_id s = id)) as [<-|Hne].
      * rewrite lookup_insert. split.
        -- intros [= <-]. split; [by right|]. split; [done|exact Hun].
        -- intros (X & Y & Z). destruct X as [X| ->]; [|done]. by apply Hfresh in X.
      * rewrite lookup_insert_ne by exact Hne. rewrite (H3 id s' Hid). split.
        -- intros (X & Y). split; [by left|exact Y].
        -- intros (X & Y & Z). destruct X as [X| ->]; [by split|done].
    + intros id Hb Hs. cbn. rewrite lookup_insert_ne by (apply Hs, Is; by right).
      apply H4; [exact Hb|]. intros s' Hs'. apply Hs, Is. by left.
    + intros b Hb. apply Ib in Hb. apply Hkeep; [exact Hb|by apply Hun|done|done|done].
    + intros h Hh. cbn. apply H6. intros b Hb. by apply Hh, Ib.
Qed.

Lemma winv_start L st0 :
  c_batches st0 = ∅ → c_pend st0 = ∅ →
  (∀ b id, IBatch b ∈ L → announces b id → c_subs st0 !! id = None) →
  winv L st0 [] st0 [].
Proof.
  intros Eb Ep Hs. constructor.
  - by rewrite app_nil_r.
  - done.
  - intros id s (b & Hb & Ha). rewrite (Hs b id Hb Ha). split; [discriminate|]. by intros (?%elem_of_nil & _).
  - done.
  - by intros b ?%elem_of_nil.
  - intros h _. rewrite Eb, Ep, !lookup_empty. by split.
Qed.

Lemma winv_run st0 : ∀ r L l st new,
  L = l ++ items r → clean L → orders_ok r → winv L st0 l st new →
  ∃ new', winv L st0 L (wsc_run st r) new'.
Proof.
  induction r as [|[o i] r IH]; intros L l st new EL CL Ho H.
  - cbn in *. rewrite app_nil_r in EL. subst l. by exists new.
  - cbn in EL. apply Forall_cons in Ho as [Ho1 Ho]. cbn in Ho1.
    assert (Hstep : ∃ new', winv L st0 (l ++ [i]) (wsc_step o st i) new').
    { destruct i as [|n h|b|s|].
      - exists new. eapply winv_neutral; [done|done| | | | | | |exact H]; cbn; destruct (c_ready st); try done.
        unfold blocks_out. cbn. rewrite omap_app. cbn. by rewrite app_nil_r.
      - exists new. eapply winv_neutral; [done|done| | | | | | |exact H]; try done.
        unfold blocks_out. cbn. rewrite omap_app. cbn. by rewrite app_nil_r.
      - eapply winv_batch; [|exact CL|exact Ho1|exact H]. by exists (items r).
      - eapply winv_sub; [|exact CL|exact H]. by exists (items r).
      - exists new. eapply winv_neutral; [done|done| | | | | | |exact H]; done. }
    destruct Hstep as (new' & H').
    apply (IH L (l ++ [i]) (wsc_step o st i) new').
    + rewrite <- app_assoc. exact EL.
    + exact CL.
    + exact Ho.
    + exact H'.
Qed.

Lemma winv_all st0 ds :
  c_batches st0 = ∅ → c_pend st0 = ∅ → clean (items ds) → orders_ok ds →
  (∀ b id, IBatch b ∈ items ds → announces b id → c_subs st0 !! id = None) →
  ∃ new, winv (items ds) st0 (items ds) (wsc_run st0 ds) new.
Proof.
  intros Eb Ep C Ho Hs.
  apply (winv_run st0 ds (items ds) [] st0 []); [done|exact C|exact Ho|by apply winv_start].
Qed.
