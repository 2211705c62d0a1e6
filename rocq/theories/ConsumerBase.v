(** The message processor as a sequence of elementary steps; facts that hold for arbitrary
    messages. *)
From Verif Require Import Base Lru LruFacts Types Avro Wire GoPath Consumer.

(** * Eviction *)
Definition evicted (ns : list Z) (pb : pending_batch) : Prop := ∃ n, n ∈ ns ∧ (pb_num pb < n)%Z.
#[global] Instance evicted_dec ns pb : Decision (evicted ns pb).
Proof.
  destruct (decide (Exists (λ n, (pb_num pb < n)%Z) ns)) as [H|H]; rewrite Exists_exists in H; [left|right]; exact H.
Defined.

Lemma evict_fold ns st :
  let st' := foldl evict_one st ns in
  mp_queue st' = mp_queue st ∧ mp_done st' = mp_done st ∧ mp_out st' = mp_out st ∧ mp_last st' = mp_last st ∧
  mp_res st' = mp_res st ∧ mp_chan st' = mp_chan st ∧ mp_evict st' = mp_evict st ∧
  (∀ h pb, mp_pend st' !! h = Some pb ↔ mp_pend st !! h = Some pb ∧ ¬ evicted ns pb) ∧
  (∀ h, h ∈ mp_old st' ↔ h ∈ mp_old st ∨ ∃ pb, mp_pend st !! h = Some pb ∧ evicted ns pb).
Proof.
  revert st; induction ns as [|n ns IH]; intros st; cbn [foldl].
  - do 7 (split; [done|]). split.
    + intros h pb. split; [intros H; split; [done|]; intros (n & Hn & _); by apply elem_of_nil in Hn|by intros [? _]].
    + intros h. split; [by left|]. intros [?|(pb & _ & n & Hn & _)]; [done|by apply elem_of_nil in Hn].
  - specialize (IH (evict_one st n)). cbn zeta in *.
    destruct IH as (-> & -> & -> & -> & -> & -> & -> & Hp & Ho).
    do 7 (split; [done|]). split.
    + intros h pb. rewrite Hp. unfold evict_one; cbn [mp_pend]. rewrite map_filter_lookup_Some. cbn.
      split.
      * intros [[H1 H2] H3]. split; [done|]. intros (n' & [->|Hn]%elem_of_cons & Hlt); [done|]. apply H3. by exists n'.
      * intros [H1 H2]. split; [split; [done|]|].
        -- intros Hlt. apply H2. exists n. split; [by apply elem_of_list_here|done].
        -- intros (n' & Hn & Hlt). apply H2. exists n'. split; [by apply elem_of_list_further|done].
    + intros h. rewrite Ho. unfold evict_one; cbn [mp_pend mp_old]. rewrite elem_of_union, elem_of_dom. split.
      * intros [[(pb & [H1 H2]%map_filter_lookup_Some)|?]|(pb & [H1 H2]%map_filter_lookup_Some & n' & Hn & Hlt)].
        -- right. exists pb. split; [done|]. exists n. split; [apply elem_of_list_here|done].
        -- by left.
        -- right. exists pb. split; [done|]. exists n'. split; [by apply elem_of_list_further|done].
      * intros [?|(pb & H1 & n' & [->|Hn]%elem_of_cons & Hlt)]; [left; by right|left; left|].
        -- exists pb. apply map_filter_lookup_Some. by split.
        -- destruct (decide (pb_num pb < n)%Z) as [Hd|Hd].
           ++ left. left. exists pb. apply map_filter_lookup_Some. by split.
           ++ right. exists pb. split; [apply map_filter_lookup_Some; by split|]. by exists n'.
Qed.
Lemma drain_spec st :
  let st' := drain st in
  mp_queue st' = mp_queue st ∧ mp_done st' = mp_done st ∧ mp_out st' = mp_out st ∧ mp_last st' = mp_last st ∧
  mp_res st' = mp_res st ∧ mp_chan st' = mp_chan st ∧ mp_evict st' = [] ∧
  (∀ h pb, mp_pend st' !! h = Some pb ↔ mp_pend st !! h = Some pb ∧ ¬ evicted (mp_evict st) pb) ∧
  (∀ h, h ∈ mp_old st' ↔ h ∈ mp_old st ∨ ∃ pb, mp_pend st !! h = Some pb ∧ evicted (mp_evict st) pb).
Proof. apply (evict_fold (mp_evict st) (set_evict st [])). Qed.

Lemma upd_res_spec st m :
  let st' := mp_update_res st m in
  mp_pend st' = mp_pend st ∧ mp_queue st' = mp_queue st ∧ mp_old st' = mp_old st ∧ mp_done st' = mp_done st ∧
  mp_out st' = mp_out st ∧ mp_evict st' = mp_evict st ∧ mp_chan st' = mp_chan st ∧ mp_last st' = mp_last st.
Proof. unfold mp_update_res. destruct (mp_res st !! m_src m); [case_bool_decide|]; done. Qed.

(** * Elementary steps *)
Definition reset (c : mp_config) (st : mp) : mp :=
  MP (mp_last st) (mp_pend st) (mp_queue st) ∅ (lru_new (Z.to_nat (2 * mc_thr c)))
     (mp_res st) (mp_evict st) (mp_chan st) (mp_out st).
Definition announce_reorg (st : mp) (n : Z) (h : hash) : mp :=
  MP n (mp_pend st) (mp_queue st) (mp_old st) (mp_done st) (mp_res st) (mp_evict st)
     (mp_chan st) (mp_out st ++ [EReorg n h]).
Definition open_batch (st : mp) (h : hash) (pb : pending_batch) (p : hash) (n : Z) : mp :=
  MP (mp_last st) (<[h := pb]> (mp_pend st)) (mp_queue st) (mp_old st) (mp_done st)
     (mp_res st) (mp_evict st) (mp_chan st + 1)%N (mp_out st ++ [EWaiter h p n (mp_chan st)]).

Definition is_reorg (m : msg) : bool := bool_decide (head (m_key m) = Some ReorgType).
(** A message kept for later: neither a header nor a reorg message. *)
Definition type_of (m : msg) : option byte := head (m_key m).
Definition later (h : hash) (m : msg) : Prop :=
  msg_hash m = h ∧ 33 ≤ length (m_key m) ∧ type_of m ≠ Some BatchType ∧ type_of m ≠ Some ReorgType.

(** [e]: the environment of the call; [r]: the message is a reorg message. *)
Inductive prim (c : mp_config) (e : menv) (r : bool) (h : hash) : mp → mp → Prop :=
| PDrain st : prim c e r h st (drain st)
| PRes st m : prim c e r h st (mp_update_res st m)
| PReset st : r = true → prim c e r h st (reset c st)
| PReorg st n : r = true → mp_done st = lru_new (Z.to_nat (2 * mc_thr c)) → mp_old st = ∅ → prim c e r h st (announce_reorg st n h)
| POpen st pb p n : mp_pend st !! h = None → h ∉ mp_old st → h ∉ lru_keys (mp_done st) → pb_hash pb = h →
    prim c e r h st (open_batch st h pb p n)
| PQueue st m : mp_pend st !! h = None → h ∉ mp_old st → h ∉ lru_keys (mp_done st) → later h m →
    prim c e r h st (queue_msg st h m)
| PUpd st pb pb' : mp_pend st !! h = Some pb → pb_num pb' = pb_num pb → pb_hash pb' = pb_hash pb →
    prim c e r h st (set_pend st (<[h := pb']> (mp_pend st)))
| PEmit st pb : mp_pend st !! h = Some pb → ready pb = true → prim c e r h st (emit st h pb)
| PUnqueue st : prim c e r h st (set_queue st (delete h (mp_queue st)))
| PPush st k n : n ∈ me_evict e k → prim c e r h st (evict_older_than st n).

(** Queued messages are stored under their own key and hash. *)
Definition queue_ok (st : mp) : Prop :=
  ∀ h q k m, mp_queue st !! h = Some q → q !! k = Some m → m_key m = k ∧ later h m.

Lemma queue_msg_spec st h m h' :
  mp_queue (queue_msg st h m) !! h' =
  if bool_decide (h = h') then Some (<[m_key m := m]> (default ∅ (mp_queue st !! h))) else mp_queue st !! h'.
Proof.
  unfold queue_msg; cbn. case_bool_decide; subst; [by rewrite lookup_insert|by rewrite lookup_insert_ne].
Qed.
Lemma evict_older_spec st n :
  let st' := evict_older_than st n in
  mp_pend st' = mp_pend st ∧ mp_queue st' = mp_queue st ∧ mp_old st' = mp_old st ∧ mp_done st' = mp_done st ∧
  mp_out st' = mp_out st ∧ mp_chan st' = mp_chan st ∧ mp_last st' = mp_last st ∧ mp_res st' = mp_res st.
Proof. unfold evict_older_than. case_bool_decide; done. Qed.

Lemma prim_queue_ok c e r h st st' : prim c e r h st st' → queue_ok st → queue_ok st'.
Proof.
  intros Hp Hq. unfold queue_ok in *. destruct Hp.
  - by rewrite (proj1 (drain_spec st)).
  - by rewrite (proj1 (proj2 (upd_res_spec st m))).
  - done.
  - done.
  - done.
  - intros h' q k m'. rewrite queue_msg_spec. case_bool_decide; [subst h'|by apply Hq].
    intros [= <-]. destruct (decide (k = m_key m)) as [->|Hne].
    + rewrite lookup_insert. by intros [= <-].
    + rewrite lookup_insert_ne by done. destruct (mp_queue st !! h) as [q|] eqn:E; cbn; [by apply Hq|].
      by rewrite lookup_empty.
  - done.
  - done.
  - cbn. intros h' q k m. destruct (decide (h = h')) as [->|]; [by rewrite lookup_delete|].
    rewrite lookup_delete_ne by done. by apply Hq.
  - by rewrite (proj1 (proj2 (evict_older_spec st n))).
Qed.

(** [apply_msg] keeps the identification of the batch. *)
Definition same_id (pb pb' : pending_batch) : Prop :=
  pb_num pb' = pb_num pb ∧ pb_hash pb' = pb_hash pb ∧ pb_weight pb' = pb_weight pb ∧ pb_parent pb' = pb_parent pb ∧
  pb_resdef pb' = pb_resdef pb ∧ pb_wait pb' = pb_wait pb ∧ pb_frp pb' = pb_frp pb.
Lemma same_id_refl pb : same_id pb pb.
Proof. done. Qed.
Lemma same_id_trans a b c : same_id a b → same_id b c → same_id a c.
Proof. unfold same_id. intuition congruence. Qed.
Lemma same_id_upd_res pb m : same_id pb (pb_update_res pb m).
Proof. unfold pb_update_res. destruct (pb_res pb !! m_src m); [case_bool_decide|]; done. Qed.
Lemma apply_same_id pb m pb' d : apply_msg pb m = Ok (pb', d) → same_id pb pb'.
Proof.
  unfold apply_msg. intros H. eapply same_id_trans; [apply (same_id_upd_res pb m)|].
  set (p := pb_update_res pb m) in *. clearbody p.
  destruct (m_key m) as [|t kr] eqn:Ek; [discriminate|].
  repeat (case_bool_decide || case_match || (ob; cbn [mbind outcome_bind] in H)); simplify_eq/=; try done.
  all: try (destruct (dec_prefix _ _ _) as [[?|]| |]; cbn in H; simplify_eq/=; done).
Qed.
Lemma apply_pending_same_id pb ks pb' : apply_pending pb ks = Ok pb' → same_id pb pb'.
Proof.
  unfold apply_pending. intros H.
  eapply (foldM_inv (λ p, same_id pb p)) in H; [exact H| |apply same_id_refl].
  intros s x s' _ Hs Hx. cbn beta in Hx. destruct (pb_pmsgs pb !! x) as [m|]; [|by simplify_eq].
  destruct (apply_msg s m) as [[p d]| |] eqn:E; cbn in Hx; simplify_eq.
  apply apply_same_id in E. eapply same_id_trans; [exact Hs|]. eapply same_id_trans; [exact E|]. by destruct d.
Qed.

(** Only queued messages are processed recursively, and they do not recurse. *)
Lemma later_rec r1 r2 c e st m h : later h m → process_with r1 c e st m = process_with r2 c e st m.
Proof.
  intros (_ & _ & Ht & _). unfold process_with. case_bool_decide; [done|].
  unfold type_of in Ht. destruct (m_key m) as [|t r]; [done|].
  case_bool_decide; [done|]. destruct (lru_contains _ _); [done|]. case_bool_decide; [done|].
  case_bool_decide; [subst; by destruct Ht|]. done.
Qed.

Lemma finish_prims c e r h st : rtc (prim c e r h) st (finish st h).
Proof.
  unfold finish. destruct (mp_pend st !! h) as [pb|] eqn:E; [|apply rtc_refl].
  destruct (ready pb) eqn:Er; [|apply rtc_refl]. apply rtc_once. by apply PEmit.
Qed.
Lemma push_prims c e r h k ns st : (∀ n, n ∈ ns → n ∈ me_evict e k) → rtc (prim c e r h) st (foldl evict_older_than st ns).
Proof. revert st; induction ns as [|n ns IH]; intros st Hk; cbn; [apply rtc_refl|]. eapply rtc_l; [eapply PPush, Hk, elem_of_list_here|apply IH]. intros x Hx. by apply Hk, elem_of_list_further. Qed.

Lemma contains_false {st : mp} {h} : lru_contains (mp_done st) h = false → h ∉ lru_keys (mp_done st).
Proof. unfold lru_contains. by intros ?%bool_decide_eq_false. Qed.

(** Every call of ProcessMessage is a sequence of elementary steps for the hash in the key. *)
Lemma process_with_prims rec c e st m st' err :
  (∀ m', later (msg_hash m) m' → ∀ st st' err, rec st m' = Ok (st', err) → rtc (prim c e (is_reorg m) (msg_hash m)) st st') →
  queue_ok st → process_with rec c e st m = Ok (st', err) → rtc (prim c e (is_reorg m) (msg_hash m)) st st'.
Proof.
  intros Hrec Hq. unfold process_with. set (h := msg_hash m) in *.
  set (st1 := mp_update_res (drain st) m).
  assert (H1 : rtc (prim c e (is_reorg m) h) st st1) by (eapply rtc_l; [apply PDrain|apply rtc_once; apply PRes]).
  assert (Hq1 : queue_ok st1) by (eapply prim_queue_ok; [apply (PRes c e false h)|]; eapply prim_queue_ok; [apply (PDrain c e false h)|done]).
  clearbody st1. case_bool_decide as Hlen; [discriminate|].
  destruct (m_key m) as [|t kr] eqn:Ek; [discriminate|].
  case_bool_decide as Ht5.
  { assert (Hr5 : is_reorg m = true) by (unfold is_reorg; rewrite Ek, Ht5; done).
    destruct (decode_int (m_val m)) as [n|]; intros [= <- <-].
    - eapply rtc_r; [eapply rtc_r; [exact H1|apply PReset, Hr5]|]. by apply (PReorg c e _ h (reset c st1)).
    - eapply rtc_r; [exact H1|apply PReset, Hr5]. }
  destruct (lru_contains (mp_done st1) h) eqn:Hd; [intros E; simplify_eq; done|]. apply contains_false in Hd.
  case_bool_decide as Ho; [intros E; simplify_eq; done|].
  case_bool_decide as Ht0.
  { destruct (decode_batch (m_val m)) as [b|]; [|intros E; simplify_eq; done].
    destruct (mp_pend st1 !! h) as [pb|] eqn:Ep; [intros E; simplify_eq; done|].
    set (st2 := MP _ _ _ _ _ _ _ _ _).
    assert (H2 : rtc (prim c e (is_reorg m) h) st st2).
    { eapply rtc_r; [exact H1|]. apply (POpen c e _ h st1); [done|done|done|].
      unfold header_batch, pb_update_res. destruct (pb_res _ !! _); [case_bool_decide|]; done. }
    change (mp_queue st2) with (mp_queue st1).
    destruct (mp_queue st1 !! h) as [q|] eqn:Eq.
    - destruct (replay rec e q (me_queue e (keys q)) st2) as [[st3 er]| |] eqn:Er; cbn; try discriminate.
      assert (H3 : rtc (prim c e (is_reorg m) h) st st3).
      { unfold replay in Er.
        eapply (foldM_inv (λ s, rtc (prim c e (is_reorg m) h) st s.1)) in Er; [exact Er| |exact H2].
        intros [s er'] k [s' er''] _ Hs Hk. cbn [fst] in *. cbn beta iota in Hk. destruct er'; [by simplify_eq|].
        destruct (q !! k) as [m'|] eqn:Ek'; [|by simplify_eq].
        etrans; [exact Hs|]. etrans; [by apply (push_prims c e _ h k)|]. eapply Hrec; [|exact Hk].
        by apply (Hq1 h q k m'). }
      destruct er; intros [= <- <-]; [done|].
      etrans; [|apply finish_prims]. eapply rtc_r; [exact H3|]. apply PUnqueue.
    - intros [= <- <-]. etrans; [exact H2|apply finish_prims]. }
  assert (Hlater : later h m).
  { split; [done|]. unfold type_of. rewrite Ek. split; [lia|]. cbn. split; congruence. }
  case_bool_decide as Ht1.
  { destruct (mp_pend st1 !! h) as [pb|] eqn:Ep.
    - case_bool_decide as Hid; [intros E; simplify_eq; done|].
      destruct (decode_int (m_val m)) as [n|].
      + case_bool_decide; [discriminate|].
        match goal with |- context [apply_pending ?p ?k] => destruct (apply_pending p k) as [pb3| |] eqn:Ea end; cbn; try discriminate.
        intros [= <- <-]. apply apply_pending_same_id in Ea.
        etrans; [|apply finish_prims]. eapply rtc_r; [exact H1|].
        destruct Ea as (Ea1 & Ea2 & _). eapply PUpd; [exact Ep|rewrite Ea1|rewrite Ea2];
          (match goal with |- context[pb_update_res ?x m] => destruct (same_id_upd_res x m) as (Eb1 & Eb2 & _) end;
           first [by rewrite Eb1 | by rewrite Eb2]).
      + intros [= <- <-]. eapply rtc_r; [exact H1|]. by eapply PUpd.
    - intros [= <- <-]. eapply rtc_r; [exact H1|]. by apply PQueue. }
  destruct (mp_pend st1 !! h) as [pb|] eqn:Ep.
  - destruct (apply_msg pb m) as [[pb' d]| |] eqn:Ea; cbn; try discriminate.
    intros [= <- <-]. etrans; [|apply finish_prims]. eapply rtc_r; [exact H1|].
    apply apply_same_id in Ea as (? & ? & _). by eapply PUpd.
  - intros [= <- <-]. eapply rtc_r; [exact H1|]. by apply PQueue.
Qed.
Lemma rtc_prim_queue_ok c e r h st st' : rtc (prim c e r h) st st' → queue_ok st → queue_ok st'.
Proof. induction 1 as [|x y z Hxy _ IH]; intros Hq; [done|]. apply IH. by eapply prim_queue_ok. Qed.

Lemma queue_ok_ext st st' : mp_queue st' = mp_queue st → queue_ok st → queue_ok st'.
Proof. unfold queue_ok. by intros ->. Qed.

Lemma process_later_prims rec c e st m r h st' err :
  later h m → process_with rec c e st m = Ok (st', err) → rtc (prim c e r h) st st'.
Proof.
  intros Hl Hp. rewrite (later_rec rec (λ _ _, Hang) c e st m h Hl) in Hp.
  (* the queue is not read for such messages *)
  unfold process_with in Hp. destruct Hl as (Hh & Hlen & Ht0 & Ht5). rewrite Hh in Hp.
  set (st1 := mp_update_res (drain st) m) in *.
  assert (H1 : rtc (prim c e r h) st st1) by (eapply rtc_l; [apply PDrain|apply rtc_once; apply PRes]).
  clearbody st1. rewrite bool_decide_eq_false_2 in Hp by lia. unfold type_of in *.
  destruct (m_key m) as [|t kr] eqn:Ek; [discriminate|].
  rewrite bool_decide_eq_false_2 in Hp by (cbn in *; congruence).
  destruct (lru_contains (mp_done st1) h) eqn:Hd; [by simplify_eq|]. apply contains_false in Hd.
  case_bool_decide as Ho; [by simplify_eq|].
  rewrite bool_decide_eq_false_2 in Hp by (cbn in *; congruence).
  assert (Hlater : later h m).
  { split; [done|]. rewrite Ek. split; [done|]. unfold type_of. by rewrite Ek. }
  case_bool_decide as Ht1.
  { destruct (mp_pend st1 !! h) as [pb|] eqn:Ep.
    - case_bool_decide as Hid; [by simplify_eq|].
      destruct (decode_int (m_val m)) as [n|].
      + case_bool_decide; [discriminate|].
        match type of Hp with context [apply_pending ?p ?k] => destruct (apply_pending p k) as [pb3| |] eqn:Ea end; cbn in Hp; try discriminate.
        simplify_eq. apply apply_pending_same_id in Ea.
        etrans; [|apply finish_prims]. eapply rtc_r; [exact H1|].
        destruct Ea as (Ea1 & Ea2 & _). eapply PUpd; [exact Ep|rewrite Ea1|rewrite Ea2];
          (match goal with |- context[pb_update_res ?x m] => destruct (same_id_upd_res x m) as (Eb1 & Eb2 & _) end;
           first [by rewrite Eb1 | by rewrite Eb2]).
      + simplify_eq. eapply rtc_r; [exact H1|]. by eapply PUpd.
    - simplify_eq. eapply rtc_r; [exact H1|]. by apply PQueue. }
  destruct (mp_pend st1 !! h) as [pb|] eqn:Ep.
  - destruct (apply_msg pb m) as [[pb' d]| |] eqn:Ea; cbn in Hp; try discriminate.
    simplify_eq. etrans; [|apply finish_prims]. eapply rtc_r; [exact H1|].
    apply apply_same_id in Ea as (? & ? & _). by eapply PUpd.
  - simplify_eq. eapply rtc_r; [exact H1|]. by apply PQueue.
Qed.

Lemma process_prims c e st m st' err :
  queue_ok st → process c e st m = Ok (st', err) → rtc (prim c e (is_reorg m) (msg_hash m)) st st'.
Proof.
  intros Hq Hp. unfold process in Hp. eapply process_with_prims; [|exact Hq|exact Hp].
  intros m' Hl s s' er Hs. by eapply process_later_prims.
Qed.

(** Two levels of recursion are enough. *)
Lemma replay_depth c e st m r :
  queue_ok st → process c e st m = process_with (process_with r c e) c e st m.
Proof.
  intros Hq. unfold process. unfold process_with at 1 3. set (h := msg_hash m) in *.
  set (st1 := mp_update_res (drain st) m).
  assert (Hq1 : queue_ok st1) by (eapply prim_queue_ok; [apply (PRes c e false h)|]; eapply prim_queue_ok; [apply (PDrain c e false h)|done]).
  clearbody st1. case_bool_decide; [done|]. destruct (m_key m) as [|t rr]; [done|].
  case_bool_decide; [done|]. destruct (lru_contains _ _); [done|]. case_bool_decide; [done|].
  case_bool_decide; [|done]. destruct (decode_batch _) as [b|]; [|done].
  destruct (mp_pend st1 !! h); [done|]. cbn [mp_queue].
  destruct (mp_queue st1 !! h) as [q|] eqn:Eq; [|done]. f_equal. unfold replay.
  generalize (me_queue e (keys q)). intros ks. match goal with |- foldM _ _ ?s = _ => generalize s end.
  induction ks as [|k ks IH]; intros s; [done|]. cbn [foldM].
  destruct s as [s er]. destruct er; [cbn; apply IH|]. destruct (q !! k) as [m'|] eqn:Ek; [|cbn; apply IH].
  rewrite (later_rec (λ _ _, Hang) r c e _ m' h) by (by apply (Hq1 h q k m')).
  destruct (process_with r c e _ m') as [s'| |]; cbn; [apply IH|done|done].
Qed.
