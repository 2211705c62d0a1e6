(** Reconnection and catch-up. *)
From Verif Require Import Base Types Producer Websocket SpecWebsocket WebsocketFacts WebsocketFacts2 WebsocketFacts3.

(** ** The remembered position *)
Definition pos_of (d : Z * hash) (l : list pending_batch) : Z * hash :=
  from_option (λ pb, (pb_num pb, pb_hash pb)) d (last l).

Lemma step_last o st i d :
  (c_num st, c_hash st) = pos_of d (blocks_out st) →
  (c_num (wsc_step o st i), c_hash (wsc_step o st i)) = pos_of d (blocks_out (wsc_step o st i)).
Proof.
  intros H. destruct i as [|n h|b|s|]; cbn [wsc_step].
  - destruct (c_ready st); [exact H|]. unfold blocks_out. cbn. rewrite omap_app. cbn. by rewrite app_nil_r.
  - unfold blocks_out. cbn. rewrite omap_app. cbn. by rewrite app_nil_r.
  - destruct (foldl announce _ _) as [[pb subs] wait]. case_decide; [|exact H].
    unfold pos_of, blocks_out. cbn. rewrite omap_app. cbn. by rewrite last_snoc.
  - destruct (c_batches st !! ts_hash s) as [pb|]; [|exact H]. case_decide; [|exact H].
    unfold pos_of, blocks_out. cbn. rewrite omap_app. cbn. by rewrite last_snoc.
  - exact H.
Qed.

Lemma run_last ds d : ∀ st, (c_num st, c_hash st) = pos_of d (blocks_out st) →
  (c_num (wsc_run st ds), c_hash (wsc_run st ds)) = pos_of d (blocks_out (wsc_run st ds)).
Proof.
  induction ds as [|[o i] ds IH]; intros st H; [exact H|]. cbn. apply IH. by apply step_last.
Qed.

Lemma sessions_last l n h : let st := wsc_sessions (wsc_new n h) l in
  (c_num st, c_hash st) = from_option (λ pb, (pb_num pb, pb_hash pb)) (n, h) (last (blocks_out st)).
Proof.
  cbn zeta. unfold wsc_sessions.
  assert (G : ∀ st, (c_num st, c_hash st) = pos_of (n, h) (blocks_out st) →
    (c_num (foldl (λ st ds, wsc_run (wsc_connect st) ds) st l), c_hash (foldl (λ st ds, wsc_run (wsc_connect st) ds) st l))
    = pos_of (n, h) (blocks_out (foldl (λ st ds, wsc_run (wsc_connect st) ds) st l))).
  { induction l as [|ds l IH]; intros st H; [exact H|]. cbn [foldl]. apply IH. by apply run_last. }
  by apply G.
Qed.

(** ** One block after the other *)
Definition idle (st : wsc) : Prop := c_batches st = ∅ ∧ c_subs st = ∅ ∧ c_pend st = ∅.

Lemma others_batches l : Forall other l → batches_in l = [].
Proof. induction 1 as [|i l Hi _ IH]; [done|]. by destruct i. Qed.
Lemma others_subs l : Forall other l → subs_in l = [].
Proof. induction 1 as [|i l Hi _ IH]; [done|]. by destruct i. Qed.
Lemma batches_in_subs l : batches_in (ISub <$> l) = [].
Proof. by induction l. Qed.
Lemma subs_in_subs l : subs_in (ISub <$> l) = l.
Proof. induction l as [|s l IH]; [done|]. cbn. f_equal. exact IH. Qed.

(** The batch message of a group, and its sub-batches. *)
Lemma elem_of_wb_items x s : ISub s ∈ wb_items x ↔ s ∈ wb_subs x.
Proof.
  unfold wb_items. rewrite elem_of_cons, elem_of_list_fmap. split.
  - intros [H|(s' & [= <-] & H)]; [discriminate H|exact H].
  - intros H. right. by exists s.
Qed.
Lemma group_parts x g : group x g →
  ∃ b' subs, batches_in g = [b'] ∧ subs_in g = subs ∧ tb_hash b' = wb_hash x ∧ tb_num b' = wb_num x ∧ block_msgs b' subs ∧
    ∀ pb, assembled g b' pb → block_done x pb.
Proof.
  intros [subs pre Hp Hs Hm|b' pre Hp (Eb & pb0 & [D1 D2 D3 D4 D5 D6 D7] & En & Ew & Eh & Ep & Ev & Ed)].
  - exists (wb_head x), subs.
    assert (Es : subs_in (pre ++ IBatch (wb_head x) :: (ISub <$> subs)) = subs).
    { rewrite subs_in_app, (others_subs _ Hp). cbn. apply subs_in_subs. }
    rewrite batches_in_app, (others_batches _ Hp). cbn [app].
    split; [cbn; f_equal; apply batches_in_subs|]. split; [exact Es|]. split; [done|]. split; [done|]. split; [done|].
    intros pb. apply assembled_ext. intros s. unfold part_of.
    rewrite <- elem_of_subs_in, Es, elem_of_wb_items, Hs. done.
  - exists b', []. rewrite batches_in_app, subs_in_app, (others_batches _ Hp), (others_subs _ Hp).
    split; [done|]. split; [done|]. split; [exact (eq_trans Eh D3)|]. split; [exact (eq_trans En D1)|].
    assert (Hi : ids_of b' = []). { unfold ids_of. by rewrite Eb, map_to_list_empty. }
    split; [constructor; rewrite ?Hi; [done|constructor|constructor]|].
    intros pb [A1 A2 A3 A4 A5 A6 A7].
    assert (Hno : ∀ s, ¬ part_of (pre ++ [IBatch b']) b' s).
    { intros s [_ (p & Hs)]. rewrite Eb, lookup_empty in Hs. discriminate Hs. }
    assert (Hd : ∀ k, k ∈ pb_deletes pb ↔ k ∈ pb_deletes pb0).
    { intros k. rewrite A5, <- Ed. split; [|by left]. intros [H|(s & Hs & _)]; [done|]. by apply Hno in Hs. }
    assert (Hv : pb_values pb = pb_values pb0).
    { rewrite <- Ev. apply map_eq. intros k. destruct (pb_values pb !! k) as [v|] eqn:E.
      - destruct (A6 k v E) as [(s & Hs & _)|[H _]]; [by apply Hno in Hs|by rewrite H].
      - destruct (tb_values b' !! k) as [v|] eqn:E'; [|done]. exfalso.
        destruct (proj2 (A7 k)) as [v' Hv']; [left; by exists v|congruence]. }
    constructor.
    + by rewrite A1, En.
    + by rewrite A2, Ew.
    + by rewrite A3, Eh.
    + by rewrite A4, Ep.
    + intros k. by rewrite Hd, D5.
    + intros k v. rewrite Hv. apply D6.
    + intros k. rewrite Hv. apply D7.
Qed.

Lemma group_clean (y : wblock) g : group y g → clean g.
Proof.
  intros H. destruct (group_parts y g H) as (b' & subs & Eb & Es & _ & _ & [M1 M2 M3] & _).
  assert (Hb : ∀ x, IBatch x ∈ g → x = b').
  { intros x Hx. apply elem_of_batches_in in Hx. rewrite Eb in Hx. by apply elem_of_list_singleton in Hx. }
  assert (Hs : ∀ s, ISub s ∈ g → s ∈ subs).
  { intros s Hs. apply elem_of_subs_in in Hs. by rewrite Es in Hs. }
  constructor.
  - rewrite Eb. cbn. apply NoDup_singleton.
  - rewrite Es, M1. exact M2.
  - rewrite Eb. cbn. by rewrite app_nil_r.
  - intros x s Hx Hy _. apply Hb in Hx as ->. apply Hs in Hy.
    exact (proj1 (Forall_forall _ _) M3 _ Hy).
  - intros x s Hx Hy _. left. apply Hb in Hx as ->. apply Hs in Hy. apply elem_of_ids. rewrite <- M1.
    by apply elem_of_list_fmap_1.
Qed.

Lemma map_empty_none {V} (m : gmap hash V) : (∀ i, m !! i = None) → m = ∅.
Proof. intros H. apply map_eq. intros i. by rewrite H, lookup_empty. Qed.

Lemma group_full b g st ds :
  idle st → group b g → items ds = g → orders_ok ds →
  ∃ pb, idle (wsc_run st ds) ∧ blocks_out (wsc_run st ds) = blocks_out st ++ [pb] ∧
    (c_num (wsc_run st ds), c_hash (wsc_run st ds)) = (wb_num b, wb_hash b) ∧ block_done b pb.
Proof.
  intros (I1 & I2 & I3) Hg E Ho.
  pose proof (group_clean b g Hg) as C. destruct (group_parts b g Hg) as (b' & subs & Eb & Es & Eh & En & [M1 M2 M3] & Hwhole).
  destruct (winv_all st ds) as (new & [H1 H2 H3 H4 H5 H6]); [exact I1|exact I3|by rewrite E|exact Ho| |].
  { intros x id _ _. by rewrite I2, lookup_empty. }
  rewrite E in *.
  assert (Hb : IBatch b' ∈ g). { apply elem_of_batches_in. rewrite Eb. apply elem_of_list_here. }
  assert (Hbo : ∀ x, IBatch x ∈ g → x = b').
  { intros x Hx. apply elem_of_batches_in in Hx. rewrite Eb in Hx. by apply elem_of_list_singleton in Hx. }
  assert (Hid : ∀ id, announces b' id → ∃ s, ISub s ∈ g ∧ ts_id s = id).
  { intros id Hid. apply elem_of_ids in Hid. rewrite <- M1 in Hid. apply elem_of_list_fmap in Hid as (s & -> & Hs).
    exists s. split; [|done]. apply elem_of_subs_in. by rewrite Es. }
  destruct (H5 b' Hb) as [(w & pb & W1 & W2 & W3 & W4 & W5 & W6)|(F1 & F2 & F3 & pb & F4 & F5)].
  { exfalso. apply set_choose_L in W1 as (id & X). apply W5 in X as [Ha Hn].
    destruct (Hid id Ha) as (s & Hs & Ei). by apply (Hn s Hs). }
  assert (Hnew : new = [pb]).
  { assert (X : filter (hash_is (tb_hash b')) new = new); [|congruence].
    clear -H6 Hbo. assert (Y : ∀ x, x ∈ new → pb_hash x = tb_hash b').
    { intros x Hx. destruct (decide (pb_hash x = tb_hash b')) as [E|E]; [exact E|]. exfalso.
      destruct (H6 (pb_hash x)) as (_ & _ & Z).
      - intros y Hy. apply Hbo in Hy as ->. by apply not_eq_sym.
      - assert (U : x ∈ filter (hash_is (pb_hash x)) new) by (apply elem_of_list_filter; by split).
        rewrite Z in U. by apply elem_of_nil in U. }
    clear H6. induction new as [|x new IH]; [done|]. rewrite filter_cons_True.
    - f_equal. apply IH. intros y Hy. apply Y. by apply elem_of_list_further.
    - apply Y. apply elem_of_list_here. }
  exists pb. split; [|split; [|split]].
  - split; [|split]; apply map_empty_none; intros i.
    + destruct (decide (i = tb_hash b')) as [-> |Hne]; [exact F3|].
      apply H6. intros x Hx. apply Hbo in Hx as ->. congruence.
    + destruct (c_subs (wsc_run st ds) !! i) as [s|] eqn:Ec; [|done]. exfalso.
      destruct (decide (i ∈ ids_of b')) as [Hi|Hi].
      * apply elem_of_ids in Hi. apply H3 in Ec as (_ & _ & X); [|by exists b']. by apply (X b').
      * rewrite H4 in Ec; [by rewrite I2, lookup_empty in Ec| |].
        -- intros x Hx Ha. apply Hbo in Hx as ->. by apply Hi, elem_of_ids.
        -- intros s' Hs' <-. apply Hi. rewrite <- M1. apply elem_of_list_fmap_1.
           apply elem_of_subs_in in Hs'. by rewrite Es in Hs'.
    + destruct (decide (i = tb_hash b')) as [-> |Hne]; [exact F2|].
      apply H6. intros x Hx. apply Hbo in Hx as ->. congruence.
  - by rewrite H1, Hnew.
  - rewrite H2, Hnew. cbn. by rewrite (as_num _ _ _ F5), (as_hash _ _ _ F5), En, Eh.
  - by apply Hwhole.
Qed.

Lemma group_cut b g st ds r :
  idle st → group b g → items ds ++ r = g → r ≠ [] → orders_ok ds →
  blocks_out (wsc_run st ds) = blocks_out st ∧
  (c_num (wsc_run st ds), c_hash (wsc_run st ds)) = (c_num st, c_hash st).
Proof.
  intros (I1 & I2 & I3) Hg E Hr Ho.
  pose proof (group_clean b g Hg) as C. rewrite <- E in C. pose proof (clean_prefix _ _ C) as C'.
  destruct (winv_all st ds) as (new & [H1 H2 H3 H4 H5 H6]); [exact I1|exact I3|exact C'|exact Ho| |].
  { intros x id _ _. by rewrite I2, lookup_empty. }
  assert (Hnew : new = []).
  { destruct new as [|pb new]; [done|]. exfalso.
    assert (Hno : ∀ x, all_arrived (items ds) x → False).
    { intros x [X1 X2]. clear -X1 X2 Hg E Hr C.
      assert (Hlast : ∃ i, last r = Some i).
      { destruct r as [|i r] using rev_ind; [done|]. exists i. by rewrite last_snoc. }
      destruct Hlast as (i & Hi).
      assert (Hir : i ∈ r). { destruct r as [|y r _] using rev_ind; [done|]. rewrite last_snoc in Hi. injection Hi as ->.
        apply elem_of_app. right. apply elem_of_list_here. }
      assert (Hig : last g = Some i). { rewrite <- E. destruct r as [|y r _] using rev_ind; [done|].
        rewrite app_assoc, last_snoc. by rewrite last_snoc in Hi. }
      remember (wb_head b) as b1 eqn:Eb1. destruct Hg as [subs pre Hp Hperm [M1 M2 M3]|b' pre Hp Hw]; rewrite <- ?Eb1 in *.
      - assert (Hx : x = b1).
        { assert (Y : IBatch x ∈ pre ++ IBatch b1 :: (ISub <$> subs)) by (rewrite <- E; apply elem_of_app; by left).
          apply elem_of_batches_in in Y. rewrite batches_in_app, (others_batches _ Hp) in Y. cbn in Y.
          rewrite batches_in_subs in Y. by apply elem_of_list_singleton in Y. }
        subst x. destruct subs as [|s subs _] using rev_ind.
        + cbn in Hig. rewrite last_snoc in Hig. injection Hig as <-.
          pose proof (clean_hashes _ C) as N. rewrite batches_in_app, fmap_app in N.
          apply NoDup_app in N as (_ & N & _). apply (N (tb_hash b1)).
          * apply elem_of_list_fmap_1. by apply elem_of_batches_in.
          * apply elem_of_list_fmap_1. by apply elem_of_batches_in.
        + rewrite fmap_app, app_comm_cons, app_assoc in Hig. cbn in Hig. rewrite last_snoc in Hig. injection Hig as <-.
          destruct (X2 (ts_id s)) as (s' & Hs' & Ei).
          * apply elem_of_ids. rewrite <- M1. rewrite fmap_app. apply elem_of_app. right. apply elem_of_list_here.
          * pose proof (clean_subs _ C) as N. rewrite subs_in_app, fmap_app in N.
            apply NoDup_app in N as (_ & N & _). apply (N (ts_id s)).
            -- rewrite <- Ei. apply elem_of_list_fmap_1. by apply elem_of_subs_in.
            -- apply elem_of_list_fmap_1. by apply elem_of_subs_in.
      - assert (Hx : x = b').
        { assert (Y : IBatch x ∈ pre ++ [IBatch b']) by (rewrite <- E; apply elem_of_app; by left).
          apply elem_of_batches_in in Y. rewrite batches_in_app, (others_batches _ Hp) in Y. cbn in Y.
          by apply elem_of_list_singleton in Y. }
        subst x. rewrite last_snoc in Hig. injection Hig as <-.
        pose proof (clean_hashes _ C) as N. rewrite batches_in_app, fmap_app in N.
        apply NoDup_app in N as (_ & N & _). apply (N (tb_hash b')).
        * apply elem_of_list_fmap_1. by apply elem_of_batches_in.
        * apply elem_of_list_fmap_1. by apply elem_of_batches_in. }
    destruct (classic_batch (items ds) (pb_hash pb)) as [(x & Hx & Ex)|Hx].
    - destruct (H5 x Hx) as [(w & pb' & W1 & W2 & W3 & W4 & W5 & W6)|(F1 & _)].
      + rewrite filter_cons_True in W6; [discriminate W6|]. by symmetry.
      + by apply (Hno x).
    - destruct (H6 _ Hx) as (_ & _ & X). rewrite filter_cons_True in X; [discriminate X|]. done. }
  rewrite Hnew, app_nil_r in H1. rewrite Hnew in H2. by split.
Qed.

Lemma wsc_run_app st l1 l2 : wsc_run st (l1 ++ l2) = wsc_run (wsc_run st l1) l2.
Proof. unfold wsc_run. by rewrite foldl_app. Qed.

(** A cut sequence of groups: some are complete, the next one is not. *)
Lemma groups_run : ∀ blocks groups st ds rest,
  Forall2 group blocks groups → items ds ++ rest = concat groups → orders_ok ds → idle st →
  ∃ k pbs, k ≤ length blocks ∧ blocks_out (wsc_run st ds) = blocks_out st ++ pbs ∧
    Forall2 block_done (take k blocks) pbs ∧
    (c_num (wsc_run st ds), c_hash (wsc_run st ds)) =
      from_option (λ b, (wb_num b, wb_hash b)) (c_num st, c_hash st) (last (take k blocks)).
Proof.
  induction blocks as [|b blocks IH]; intros groups st ds rest HF E Ho Hi.
  - apply Forall2_nil_inv_l in HF as ->. cbn in E. apply app_eq_nil in E as [E _].
    destruct ds; [|discriminate E]. exists 0, []. cbn. split; [lia|]. split; [by rewrite app_nil_r|]. split; [constructor|done].
  - apply Forall2_cons_inv_l in HF as (g & groups' & Hg & HF & ->). cbn in E.
    destruct (decide (length g ≤ length ds)) as [Hl|Hl].
    + (* the first group is complete *)
      assert (Hsplit : ∃ d1 d2, ds = d1 ++ d2 ∧ items d1 = g ∧ items d2 ++ rest = concat groups').
      { exists (take (length g) ds), (drop (length g) ds). split; [by rewrite take_drop|].
        assert (X : items ds = items (take (length g) ds) ++ items (drop (length g) ds)).
        { unfold items. by rewrite <- fmap_app, take_drop. }
        rewrite X, <- app_assoc in E. apply app_inj_1 in E; [exact E|].
        unfold items. rewrite fmap_length, take_length. apply Nat.min_l. exact Hl. }
      destruct Hsplit as (d1 & d2 & -> & E1 & E2).
      apply Forall_app in Ho as [Ho1 Ho2].
      destruct (group_full b g st d1 Hi Hg E1 Ho1) as (pb & Hi' & Eo & El & Hd).
      destruct (IH groups' (wsc_run st d1) d2 rest HF E2 Ho2 Hi') as (k & pbs & Hk & Eo' & Hf & El').
      exists (S k), (pb :: pbs). rewrite wsc_run_app. split; [cbn; lia|]. split; [|split].
      * rewrite Eo', Eo, <- app_assoc. done.
      * cbn. by constructor.
      * rewrite El', El. cbn [take]. destruct (last (take k blocks)) as [x|] eqn:Ex; rewrite last_cons, Ex; done.
    + (* the first group is cut *)
      assert (Hcut : ∃ r, items ds ++ r = g ∧ r ≠ []).
      { exists (drop (length ds) g). split.
        - assert (X : take (length ds) g = items ds).
          { assert (Y : take (length ds) (items ds ++ rest) = take (length ds) (g ++ concat groups')) by (by rewrite E).
            rewrite take_app_le in Y by (unfold items; by rewrite fmap_length).
            rewrite (take_app_le g) in Y by lia. rewrite <- Y. apply take_ge. unfold items. by rewrite fmap_length. }
          rewrite <- X. apply take_drop.
        - intros X. apply (f_equal length) in X. rewrite drop_length in X. cbn in X. lia. }
      destruct Hcut as (r & Er & Hr). destruct (group_cut b g st ds r Hi Hg Er Hr Ho) as (Eo & El).
      exists 0, []. cbn. split; [lia|]. split; [by rewrite app_nil_r|]. split; [constructor|exact El].
Qed.

Lemma hash_unique (chain : list wblock) i j b b' :
  NoDup (wb_hash <$> chain) → chain !! i = Some b → chain !! j = Some b' → wb_hash b = wb_hash b' → i = j.
Proof.
  intros N Hi Hj E. eapply (NoDup_lookup (wb_hash <$> chain)); [exact N| |].
  - by rewrite list_lookup_fmap, Hi.
  - by rewrite list_lookup_fmap, Hj, E.
Qed.

Lemma last_take_drop (chain : list wblock) n k :
  last (take k (drop n chain)) = if decide (k = 0 ∨ length chain ≤ n) then None else chain !! (pred (n + k `min` (length chain - n))).
Proof.
  rewrite last_lookup, take_length, drop_length.
  case_decide as Hd.
  - destruct (min k (length chain - n)) as [|m] eqn:Em; [|lia]. cbn.
    destruct (take k (drop n chain)) as [|x r] eqn:Ex; [done|].
    apply (f_equal length) in Ex. rewrite take_length, drop_length in Ex. cbn in Ex. lia.
  - rewrite lookup_take by lia. rewrite lookup_drop. f_equal. lia.
Qed.

Lemma sessions_prefix chain n0 h0 : NoDup (wb_hash <$> chain) → h0 ∉ wb_hash <$> chain →
  ∀ l st n, n ≤ length chain → resume_at chain n0 h0 st n → Forall2 block_done (take n chain) (blocks_out st) →
  sessions_ok chain n0 h0 st l →
  ∃ n', n ≤ n' ∧ n' ≤ length chain ∧ resume_at chain n0 h0 (wsc_sessions st l) n' ∧
    Forall2 block_done (take n' chain) (blocks_out (wsc_sessions st l)).
Proof.
  intros N Hh. induction l as [|ds l IH]; intros st n Hn Hr Hb Hok.
  - by exists n.
  - inversion Hok as [|st' ds' l' m Hr' (groups & rest & HF & E) Ho Hok']. subst st' ds' l'.
    assert (m = n) as ->.
    { destruct Hr as [[-> E1]|(b & Hp & Hl & E1)]; destruct Hr' as [[-> E2]|(b' & Hp' & Hl' & E2)].
      - done.
      - exfalso. apply Hh. rewrite E1 in E2. injection E2 as _ ->. apply elem_of_list_fmap_1.
        by apply elem_of_list_lookup_2 in Hl'.
      - exfalso. apply Hh. rewrite E1 in E2. injection E2 as _ <-. apply elem_of_list_fmap_1.
        by apply elem_of_list_lookup_2 in Hl.
      - rewrite E1 in E2. injection E2 as _ E2. pose proof (hash_unique chain _ _ _ _ N Hl Hl' E2). lia. }
    destruct (groups_run (drop n chain) groups (wsc_connect st) ds rest HF E Ho) as (k & pbs & Hk & Eo & Hf & El); [done|].
    rewrite drop_length in Hk.
    assert (Hr2 : resume_at chain n0 h0 (wsc_run (wsc_connect st) ds) (n + k)).
    { rewrite last_take_drop in El. case_decide as Hd.
      - cbn in El. replace (n + k) with n by lia. unfold resume_at in *. rewrite El. exact Hr.
      - destruct (lookup_lt_is_Some_2 chain (pred (n + k))) as (b & Hlb); [lia|]. right. exists b.
        split; [lia|]. split; [exact Hlb|].
        replace (n + k `min` (length chain - n)) with (n + k) in El by lia. by rewrite El, Hlb. }
    assert (Hb2 : Forall2 block_done (take (n + k) chain) (blocks_out (wsc_run (wsc_connect st) ds))).
    { rewrite Eo. rewrite connect_blocks. rewrite <- take_take_drop. by apply Forall2_app. }
    destruct (IH (wsc_run (wsc_connect st) ds) (n + k)) as (n' & X1 & X2 & X3 & X4); [lia|exact Hr2|exact Hb2|exact Hok'|].
    exists n'. split; [lia|]. split; [exact X2|]. by split.
Qed.

(** All groups are complete. *)
Lemma groups_all : ∀ blocks groups st ds,
  Forall2 group blocks groups → items ds = concat groups → orders_ok ds → idle st →
  ∃ pbs, blocks_out (wsc_run st ds) = blocks_out st ++ pbs ∧ Forall2 block_done blocks pbs.
Proof.
  induction blocks as [|b blocks IH]; intros groups st ds HF E Ho Hi.
  - apply Forall2_nil_inv_l in HF as ->. destruct ds; [|discriminate E]. exists []. by rewrite app_nil_r.
  - apply Forall2_cons_inv_l in HF as (g & groups' & Hg & HF & ->). cbn in E.
    assert (Hsplit : ∃ d1 d2, ds = d1 ++ d2 ∧ items d1 = g ∧ items d2 = concat groups').
    { exists (take (length g) ds), (drop (length g) ds). split; [by rewrite take_drop|].
      unfold items. rewrite fmap_take, fmap_drop. change (snd <$> ds) with (items ds). rewrite E. by rewrite take_app, drop_app. }
    destruct Hsplit as (d1 & d2 & -> & E1 & E2). apply Forall_app in Ho as [Ho1 Ho2].
    destruct (group_full b g st d1 Hi Hg E1 Ho1) as (pb & Hi' & Eo & _ & Hd).
    destruct (IH groups' (wsc_run st d1) d2 HF E2 Ho2 Hi') as (pbs & Eo' & Hf).
    exists (pb :: pbs). rewrite wsc_run_app, Eo', Eo, <- app_assoc. split; [done|]. by constructor.
Qed.

Lemma resume_unique chain n0 h0 st n n' : NoDup (wb_hash <$> chain) → h0 ∉ wb_hash <$> chain →
  resume_at chain n0 h0 st n → resume_at chain n0 h0 st n' → n = n'.
Proof.
  intros N Hh [[-> E1]|(b & Hp & Hl & E1)] [[-> E2]|(b' & Hp' & Hl' & E2)].
  - done.
  - exfalso. apply Hh. rewrite E1 in E2. injection E2 as _ ->. apply elem_of_list_fmap_1. by apply elem_of_list_lookup_2 in Hl'.
  - exfalso. apply Hh. rewrite E1 in E2. injection E2 as _ <-. apply elem_of_list_fmap_1. by apply elem_of_list_lookup_2 in Hl.
  - rewrite E1 in E2. injection E2 as _ E2. pose proof (hash_unique chain _ _ _ _ N Hl Hl' E2). lia.
Qed.
Lemma sessions_ok_app chain n0 h0 l l' : ∀ st, sessions_ok chain n0 h0 st (l ++ l') →
  sessions_ok chain n0 h0 st l ∧ sessions_ok chain n0 h0 (wsc_sessions st l) l'.
Proof.
  induction l as [|ds l IH]; intros st H; [by split; [apply sessions_nil|]|].
  inversion H as [|st' ds' l1 m Hr Hc Ho Hok]. subst st' ds' l1. destruct (IH _ Hok) as [H1 H2].
  split; [by eapply sessions_cons|exact H2].
Qed.

(** ** Catch-up *)
Lemma sends_app l1 l2 : sends (l1 ++ l2) = sends l1 ++ sends l2.
Proof. apply omap_app. Qed.
Lemma stores_app l1 l2 : stores (l1 ++ l2) = stores l1 ++ stores l2.
Proof. apply omap_app. Qed.

Lemma live_run : ∀ l s s', sv_phase s = Live → sv_run s l = Some s' →
  sv_phase s' = Live ∧ sv_recv s' = sv_recv s ++ (RLive <$> sends l).
Proof.
  induction l as [|a l IH]; intros s s' Hp E; cbn [sv_run] in E.
  - injection E as <-. cbn. by rewrite app_nil_r.
  - destruct s as [db pos ph recv]. cbn in Hp. subst ph. destruct a as [pb|i| | |]; cbn in E; try discriminate E.
    + by apply IH in E.
    + apply IH in E as [E1 E2]; [|done]. split; [exact E1|]. rewrite E2. cbn. by rewrite <- app_assoc.
Qed.

Lemma ended_run : ∀ l s s', sv_phase s = Ended → sv_run s l = Some s' →
  (sv_phase s' = Ended ∧ sv_recv s' = sv_recv s ∧ ASubscribe ∉ l) ∨
  (sv_phase s' = Live ∧ ∃ l2 l3, l = l2 ++ ASubscribe :: l3 ∧ sv_recv s' = sv_recv s ++ [RReady] ++ (RLive <$> sends l3)).
Proof.
  induction l as [|a l IH]; intros s s' Hp E; cbn [sv_run] in E.
  - injection E as <-. left. split; [exact Hp|]. split; [done|]. apply not_elem_of_nil.
  - destruct s as [db pos ph recv]. cbn in Hp. subst ph. destruct a as [pb|i| | |]; cbn in E; try discriminate E.
    + apply IH in E as [(E1 & E2 & E3)|(E1 & l2 & l3 & -> & E2)]; [| |done].
      * left. split; [exact E1|]. split; [exact E2|]. intros X. by apply elem_of_cons in X as [X|X].
      * right. split; [exact E1|]. by exists (AStore pb :: l2), l3.
    + apply IH in E as [(E1 & E2 & E3)|(E1 & l2 & l3 & -> & E2)]; [| |done].
      * left. split; [exact E1|]. split; [exact E2|]. intros X. by apply elem_of_cons in X as [X|X].
      * right. split; [exact E1|]. by exists (ASend i :: l2), l3.
    + apply live_run in E as [E1 E2]; [|done]. right. split; [exact E1|]. exists [], l. split; [done|].
      rewrite E2. cbn. by rewrite <- app_assoc.
Qed.

Lemma reading_run : ∀ l s s', sv_phase s = Reading → sv_pos s ≤ length (sv_db s) →
  sv_run s l = Some s' → sv_phase s' = Live →
  ∃ l1 l2 l3, l = l1 ++ AEnd :: l2 ++ ASubscribe :: l3 ∧ AEnd ∉ l1 ∧
    sv_recv s' = sv_recv s ++ (RCatch <$> drop (sv_pos s) (sv_db s) ++ stores l1) ++ [RReady] ++ (RLive <$> sends l3).
Proof.
  induction l as [|a l IH]; intros s s' Hp Hle E Hlive; cbn [sv_run] in E.
  - injection E as <-. congruence.
  - destruct s as [db pos ph recv]. cbn in Hp, Hle. subst ph.
    destruct a as [pb|i| | |]; cbn [sv_step sv_phase sv_db sv_pos sv_recv] in E.
    + apply IH in E as (l1 & l2 & l3 & -> & Hne & E); [|done|cbn; rewrite app_length; lia|exact Hlive].
      exists (AStore pb :: l1), l2, l3. split; [done|]. split; [intros X; by apply elem_of_cons in X as [X|X]|].
      rewrite E. cbn. rewrite drop_app_le by exact Hle. by rewrite <- !app_assoc.
    + apply IH in E as (l1 & l2 & l3 & -> & Hne & E); [|done|exact Hle|exact Hlive].
      exists (ASend i :: l1), l2, l3. split; [done|]. split; [intros X; by apply elem_of_cons in X as [X|X]|].
      exact E.
    + destruct (db !! pos) as [pb|] eqn:Ed; [|discriminate E].
      apply lookup_lt_Some in Ed as Hlt.
      apply IH in E as (l1 & l2 & l3 & -> & Hne & E); [|done|cbn; lia|exact Hlive].
      exists (ARead :: l1), l2, l3. split; [done|]. split; [intros X; by apply elem_of_cons in X as [X|X]|].
      rewrite E. cbn. rewrite (drop_S db pb pos Ed). cbn. by rewrite <- !app_assoc.
    + destruct (db !! pos) as [pb|] eqn:Ed; [discriminate E|]. apply lookup_ge_None_1 in Ed.
      apply ended_run in E as [(E1 & _)|(E1 & l2 & l3 & -> & E)]; [congruence| |done].
      exists [], l2, l3. split; [done|]. split; [apply not_elem_of_nil|].
      rewrite E. cbn. rewrite drop_ge by exact Ed. done.
    + discriminate E.
Qed.

Lemma catchup_received db l s :
  sv_run (SV db 0 Reading []) l = Some s → sv_phase s = Live →
  ∃ l1 l2 l3, l = l1 ++ AEnd :: l2 ++ ASubscribe :: l3 ∧ AEnd ∉ l1 ∧
    sv_recv s = (RCatch <$> db ++ stores l1) ++ [RReady] ++ (RLive <$> sends l3).
Proof.
  intros E Hl. destruct (reading_run l (SV db 0 Reading []) s eq_refl (Nat.le_0_l _) E Hl) as (l1 & l2 & l3 & X1 & X2 & X3).
  exists l1, l2, l3. split; [exact X1|]. split; [exact X2|]. exact X3.
Qed.

Lemma catchup_nogap db blk l s i pb :
  sv_run (SV db 0 Reading []) l = Some s → sv_phase s = Live →
  stored_first db blk l → no_gap l → ASend i ∈ l → blk i = Some pb →
  RCatch pb ∈ sv_recv s ∨ RLive i ∈ sv_recv s.
Proof.
  intros E Hl Hst Hng Hi Hb. destruct (catchup_received db l s E Hl) as (l1 & l2 & l3 & El & Hn & Er).
  rewrite Er. pose proof (Hng l1 l2 l3 El i) as Hg. rewrite El in Hi.
  apply elem_of_app in Hi as [Hi|Hi].
  - left. apply elem_of_app. left. apply elem_of_list_fmap_1.
    apply elem_of_list_split in Hi as (k1 & k2 & ->).
    destruct (Hst k1 i (k2 ++ AEnd :: l2 ++ ASubscribe :: l3) pb) as [X|X]; [|exact Hb| |].
    + rewrite El, <- app_assoc. done.
    + apply elem_of_app. by left.
    + apply elem_of_app. right. apply elem_of_list_omap. exists (AStore pb). split; [|done]. apply elem_of_app. by left.
  - apply elem_of_cons in Hi as [Hi|Hi]; [discriminate Hi|]. apply elem_of_app in Hi as [Hi|Hi]; [done|].
    apply elem_of_cons in Hi as [Hi|Hi]; [discriminate Hi|].
    right. apply elem_of_app. right. apply elem_of_list_further. apply elem_of_list_fmap_1.
    apply elem_of_list_omap. by exists (ASend i).
Qed.
