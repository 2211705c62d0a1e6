From Coq Require Import Strings.String.
From Verif Require Import Base Types Avro GoText Mux SpecMux.

Lemma trim_stripped url : stripped url (trim_prefix url cardinal_prefix).
Proof.
  unfold stripped, trim_prefix. case_bool_decide as H; [left|by right]. destruct H as [r ->]. by rewrite drop_app.
Qed.
Lemma stripped_eq url u : stripped url u → u = trim_prefix url cardinal_prefix.
Proof.
  unfold stripped, trim_prefix. intros [->|[H ->]].
  - rewrite bool_decide_eq_true_2 by (by exists u). by rewrite drop_app.
  - by rewrite bool_decide_eq_false_2.
Qed.
Lemma before_sep_scheme s u : x3a ∉ s → before_sep u = s ↔ u = s ∨ ∃ r, u = s ++ scheme_sep ++ r.
Proof.
  revert u. induction s as [|c s IH]; intros u Hs.
  - destruct u as [|b u]; [split; [by left|done]|]. cbn [before_sep]. case_bool_decide as H.
    + split; [|done]. intros _. right. destruct H as [r H]. exists r. exact H.
    + split; [done|]. intros [?|[r Hr]]; [done|]. exfalso. apply H. by exists r.
  - destruct u as [|b u]; cbn [before_sep].
    + split; [done|]. intros [?|[r Hr]]; done.
    + apply not_elem_of_cons in Hs as [Hc Hs]. case_bool_decide as H.
      * split; [done|]. destruct H as [r H]. intros [[= -> ->]|[r' Hr]].
        -- exfalso. injection H as E1 _. apply Hc. symmetry. exact E1.
        -- exfalso. injection H as E1 _. injection Hr as E2 _. apply Hc. congruence.
      * split.
        -- intros [= -> E]. apply IH in E as [->|[r ->]]; [by left|by right; exists r|done].
        -- intros [[= -> ->]|[r [= -> ->]]]; f_equal; apply IH; eauto.
Qed.
Lemma protocol_scheme url s : x3a ∉ s → protocol url = s ↔ has_scheme url s.
Proof.
  intros Hs. unfold protocol, has_scheme. rewrite before_sep_scheme by done. split.
  - intros H. exists (trim_prefix url cardinal_prefix). split; [apply trim_stripped|done].
  - intros (u & Hu & H). by rewrite <- (stripped_eq _ _ Hu).
Qed.
Definition sch (s : string) : bytes := str s.
Lemma no_colon : x3a ∉ str "kafka"%string ∧ x3a ∉ str "ws"%string ∧ x3a ∉ str "wss"%string ∧ x3a ∉ str "null"%string.
Proof. split_and!; apply (bool_decide_unpack _); by vm_compute. Qed.

Lemma resolve_producer_spec url t : resolve_producer_resumer url = Some t ↔
  ∃ u, stripped url u ∧ (((has_scheme url (str "ws"%string) ∨ has_scheme url (str "wss"%string)) ∧ t = TWebsocket u) ∨
    (has_scheme url (str "kafka"%string) ∧ t = TKafka u)).
Proof.
  destruct no_colon as (H1 & H2 & H3 & H4). setoid_rewrite <- (protocol_scheme url _ H1). setoid_rewrite <- (protocol_scheme url _ H2). setoid_rewrite <- (protocol_scheme url _ H3). unfold resolve_producer_resumer. split.
  - intros H. exists (trim_prefix url cardinal_prefix). split; [apply trim_stripped|]. repeat case_bool_decide; cbn in H; naive_solver.
  - intros (u & Hu & H). apply stripped_eq in Hu as ->. destruct H as [[[E|E] ->]|[E ->]]; rewrite E; by vm_compute.
Qed.
Lemma resolve_plain_spec url t : resolve_producer url = Some t ↔ ∃ u, stripped url u ∧ has_scheme url (str "kafka"%string) ∧ t = TKafka u.
Proof.
  destruct no_colon as (H1 & H2 & H3 & H4). setoid_rewrite <- (protocol_scheme url _ H1). unfold resolve_producer. split.
  - intros H. exists (trim_prefix url cardinal_prefix). split; [apply trim_stripped|]. case_bool_decide; naive_solver.
  - intros (u & Hu & E & ->). apply stripped_eq in Hu as ->. by rewrite bool_decide_eq_true_2.
Qed.
Lemma resolve_consumer_spec url t : resolve_consumer url = Some t ↔
  (has_scheme url (str "kafka"%string) ∧ t = TKafka url) ∨
  ((has_scheme url (str "ws"%string) ∨ has_scheme url (str "wss"%string)) ∧ ∃ u, stripped url u ∧ t = TWebsocket u) ∨
  (has_scheme url (str "null"%string) ∧ t = TNull).
Proof.
  destruct no_colon as (H1 & H2 & H3 & H4). rewrite <- !protocol_scheme by done. unfold resolve_consumer. split.
  - intros H. pose proof (trim_stripped url). repeat case_bool_decide; cbn in H; naive_solver.
  - intros [[E ->]|[[[E|E] (u & Hu & ->)]|[E ->]]]; try apply stripped_eq in Hu as ->; rewrite E; by vm_compute.
Qed.

Lemma resumption_for_spec {P} (url : P → bytes) token l acc : resumption_for url token l acc =
  if bool_decide (Forall (λ bp, (protocol (url bp) = str "kafka"%string ∧ token bp ≠ None) ∨ protocol (url bp) = str "null"%string) l)
  then Some (join_byte x3b (acc ++ omap (λ bp, if bool_decide (protocol (url bp) = str "kafka"%string) then token bp else None) l)) else None.
Proof.
  revert acc. induction l as [|bp l IH]; intros acc.
  { cbn [resumption_for omap list_omap]. rewrite app_nil_r, bool_decide_eq_true_2 by constructor. done. }
  cbn [resumption_for omap list_omap].
  destruct (bool_decide (protocol (url bp) = str "kafka"%string)) eqn:B.
  - apply bool_decide_eq_true_1 in B. destruct (token bp) as [t|] eqn:Et.
    + rewrite IH. rewrite <- app_assoc. cbn [app].
      destruct (decide (Forall (λ bp, (protocol (url bp) = str "kafka"%string ∧ token bp ≠ None) ∨ protocol (url bp) = str "null"%string) l)) as [H|H].
      * rewrite (bool_decide_eq_true_2 (Forall _ l)) by done. rewrite bool_decide_eq_true_2; [done|]. constructor; [|done]. left. split; [done|by rewrite Et].
      * rewrite (bool_decide_eq_false_2 (Forall _ l)) by done. rewrite bool_decide_eq_false_2; [done|]. intros Hc. apply Forall_cons in Hc as [_ Hc]. done.
    + rewrite bool_decide_eq_false_2; [done|]. intros Hc. apply Forall_cons in Hc as [[[_ Hc]|Hc] _]; [done|]. rewrite B in Hc. discriminate Hc.
  - apply bool_decide_eq_false_1 in B. destruct (bool_decide (protocol (url bp) = str "null"%string)) eqn:B2; [apply bool_decide_eq_true_1 in B2|apply bool_decide_eq_false_1 in B2].
    + rewrite IH. destruct (decide (Forall (λ bp, (protocol (url bp) = str "kafka"%string ∧ token bp ≠ None) ∨ protocol (url bp) = str "null"%string) l)) as [H|H].
      * rewrite (bool_decide_eq_true_2 (Forall _ l)) by done. rewrite bool_decide_eq_true_2; [done|]. constructor; [|done]. by right.
      * rewrite (bool_decide_eq_false_2 (Forall _ l)) by done. rewrite bool_decide_eq_false_2; [done|]. intros Hc. apply Forall_cons in Hc as [_ Hc]. done.
    + rewrite bool_decide_eq_false_2; [done|]. intros Hc. apply Forall_cons in Hc as [[[? _]|?] _]; done.
Qed.

Section facts.
  Context {S E : Type}.
  Implicit Types l : list S.
  Lemma mux_loop_spec (f : S → S * option E) l errs : mux_loop f l errs = (map (λ p, (f p).1) l, errs ++ omap (λ p, (f p).2) l).
  Proof.
    revert errs. induction l as [|p l IH]; intros errs; cbn [mux_loop map omap list_omap]; [by rewrite app_nil_r|].
    destruct (f p) as [p' [e|]]; cbn [fst snd]; rewrite IH; [|done]. by rewrite <- app_assoc.
  Qed.
  Lemma head_first_error (rs : list (option E)) : first_error rs (head (omap id rs)).
  Proof.
    induction rs as [|[e|] rs IH]; cbn [omap list_omap id head].
    - intros x Hx. by apply elem_of_nil in Hx.
    - exists [], rs. split; [done|]. intros x Hx. by apply elem_of_nil in Hx.
    - unfold first_error in *. destruct (head (omap id rs)) as [e|].
      + destruct IH as (pre & post & -> & H). exists (None :: pre), post. split; [done|]. intros x [->|Hx]%elem_of_cons; [done|by apply H].
      + intros x [->|Hx]%elem_of_cons; [done|by apply IH].
  Qed.
  Lemma mux_call_spec (f : S → S * option E) l l' r : mux_call f l = (l', r) →
    length l' = length l ∧ (∀ i p, l !! i = Some p → l' !! i = Some (f p).1) ∧ first_error (map (λ p, (f p).2) l) r.
  Proof.
    unfold mux_call. rewrite mux_loop_spec. intros [= <- <-]. split; [apply map_length|]. split.
    - intros i p Hp. rewrite list_lookup_fmap, Hp. done.
    - cbn [app]. assert (omap (λ p, (f p).2) l = omap id (map (λ p, (f p).2) l)) as ->.
      { induction l as [|p l IH]; [done|]. cbn [omap list_omap map]. destruct (f p) as [? [?|]]; cbn; [by f_equal|done]. }
      apply head_first_error.
  Qed.

  Lemma mux_reorg_loop_spec (f : S → S * (E + (S → S))) l i errs fns : mux_reorg_loop f l i errs fns =
    (map (λ p, (f p).1) l, errs ++ omap (λ p, match (f p).2 with inl e => Some e | inr _ => None end) l,
     fns ++ omap (λ x, match (f x.2).2 with inl _ => None | inr fn => Some (i + x.1, fn) end) (zip (seq 0 (length l)) l)).
  Proof.
    revert i errs fns. induction l as [|p l IH]; intros i errs fns; cbn [mux_reorg_loop map omap list_omap length seq zip zip_with fst snd]; [by rewrite !app_nil_r|].
    assert (Hz : ∀ j, omap (λ x : nat * S, match (f x.2).2 with inl _ => None | inr fn => Some (i + 1 + x.1, fn) end) (zip (seq j (length l)) l)
      = omap (λ x : nat * S, match (f x.2).2 with inl _ => None | inr fn => Some (i + x.1, fn) end) (zip (seq (Datatypes.S j) (length l)) l)).
    { clear. induction l as [|q l IH]; intros j; [done|]. cbn [length seq zip zip_with omap list_omap fst snd]. rewrite IH.
      destruct (f q) as [? [?|?]]; cbn [snd]; [done|]. replace (i + 1 + j) with (i + Datatypes.S j) by lia. done. }
    destruct (f p) as [p' [e|fn]] eqn:Ef; cbn [fst snd]; rewrite IH, Hz.
    - by rewrite <- app_assoc.
    - rewrite <- app_assoc. cbn [app]. by rewrite Nat.add_0_r.
  Qed.
  Lemma alter_seq (f : S → S * (E + (S → S))) l0 l : l0 = map (λ p, (f p).1) l →
    reorg_finish (omap (λ x, match (f x.2).2 with inl _ => None | inr fn => Some (0 + x.1, fn) end) (zip (seq 0 (length l)) l)) l0
    = map (λ p, match (f p).2 with inl _ => (f p).1 | inr fn => fn (f p).1 end) l.
  Proof.
    intros ->. unfold reorg_finish. cut (∀ pre, foldl (λ (l : list S) x, alter x.2 x.1 l) (pre ++ map (λ p, (f p).1) l)
      (omap (λ x : nat * S, match (f x.2).2 with inl _ => None | inr fn => Some (0 + x.1, fn) end) (zip (seq (length pre) (length l)) l))
      = pre ++ map (λ p, match (f p).2 with inl _ => (f p).1 | inr fn => fn (f p).1 end) l).
    { intros H. apply (H []). }
    induction l as [|p l IH]; intros pre; [done|]. cbn [map length seq zip zip_with omap list_omap fst snd].
    specialize (IH (pre ++ [match (f p).2 with inl _ => (f p).1 | inr fn => fn (f p).1 end])). rewrite app_length in IH. cbn [length] in IH. rewrite Nat.add_1_r in IH.
    rewrite <- !app_assoc in IH. cbn [app] in IH. destruct (f p) as [p' [e|fn]]; cbn [fst snd] in *.
    - exact IH.
    - cbn [foldl fst snd Nat.add]. rewrite <- IH. f_equal. clear. induction pre as [|y pre IH]; [done|]. cbn. by f_equal.
  Qed.
  Lemma mux_reorg_spec (f : S → S * (E + (S → S))) l l' r fns : mux_reorg f l = (l', r, fns) →
    l' = map (λ p, (f p).1) l ∧ first_error (map (λ p, match (f p).2 with inl e => Some e | inr _ => None end) l) r ∧
    reorg_finish fns l' = map (λ p, match (f p).2 with inl _ => (f p).1 | inr fn => fn (f p).1 end) l.
  Proof.
    unfold mux_reorg. rewrite mux_reorg_loop_spec. intros [= <- <- <-]. split; [done|]. cbn [app]. split; [|by apply alter_seq].
    assert (omap (λ p, match (f p).2 with inl e => Some e | inr _ => None end) l = omap id (map (λ p, match (f p).2 with inl e => Some e | inr _ => None end) l)) as ->.
    { induction l as [|p l IH]; [done|]. cbn [omap list_omap map]. destruct (f p) as [? [?|?]]; cbn; [by f_equal|done]. }
    apply head_first_error.
  Qed.

  Lemma mux_latest_loop_spec (rs : list (E + Z)) n te :
    let '(m, te') := mux_latest_loop rs n te in
    (m ≤ n)%Z ∧ (∀ v, inr v ∈ rs → (m ≤ v)%Z) ∧ (m = n ∨ inr m ∈ rs) ∧
    ((∀ e, inl e ∉ rs) → te' = te) ∧ ((∃ e, inl e ∈ rs) → ∃ e, te' = Some e ∧ inl e ∈ rs).
  Proof.
    revert n te. induction rs as [|[e|v] rs IH]; intros n te; cbn [mux_latest_loop].
    - split; [lia|]. split; [intros v Hv; by apply elem_of_nil in Hv|]. split; [by left|]. split; [done|]. intros [e He]. by apply elem_of_nil in He.
    - specialize (IH n (Some e)). destruct (mux_latest_loop rs n (Some e)) as [m te']. destruct IH as (I1 & I2 & I3 & I4 & I5).
      split; [done|]. split; [intros v [Hv|Hv]%elem_of_cons; [done|by apply I2]|]. split; [destruct I3; [by left|right; by right]|].
      split; [intros H; exfalso; apply (H e); left|]. intros _.
      assert ((∃ e', inl e' ∈ rs) ∨ ∀ e', @inl E Z e' ∉ rs) as [Hx|Hx].
      { clear. induction rs as [|[e|v] rs IH]; [right; intros e' He'; by apply elem_of_nil in He'|left; exists e; left|].
        destruct IH as [[e He]|He]; [left; exists e; by right|]. right. intros e' [?|He']%elem_of_cons; [done|]. by apply He in He'. }
      + destruct (I5 Hx) as (e'' & -> & Hin'). exists e''. split; [done|by right].
      + exists e. split; [|left]. by apply I4.
    - specialize (IH (if bool_decide (v < n)%Z then v else n) te). destruct (mux_latest_loop rs _ te) as [m te']. destruct IH as (I1 & I2 & I3 & I4 & I5).
      split; [case_bool_decide; lia|]. split; [intros w [[= ->]|Hw]%elem_of_cons; [case_bool_decide; lia|by apply I2]|].
      split; [destruct I3 as [->|I3]; [case_bool_decide; [right; left|by left]|right; by right]|].
      split; [intros H; apply I4; intros e He; apply (H e); by right|].
      intros [e He]. apply elem_of_cons in He as [?|He]; [done|]. destruct I5 as (e' & -> & He'); [by exists e|]. exists e'. split; [done|by right].
  Qed.
  Lemma mux_latest_spec (rs : list (E + Z)) : (∀ v, inr v ∈ rs → (v < max_int64)%Z) →
    let '(n, err) := mux_latest rs in
    ((∃ v, inr v ∈ rs) → inr n ∈ rs ∧ err = None ∧ ∀ v, inr v ∈ rs → (n ≤ v)%Z) ∧
    ((∀ v, inr v ∉ rs) → n = 0%Z ∧ (rs ≠ [] → ∃ e, err = Some e ∧ inl e ∈ rs)).
  Proof.
    intros Hv. unfold mux_latest. pose proof (mux_latest_loop_spec rs max_int64 None) as H.
    destruct (mux_latest_loop rs max_int64 None) as [m te]. destruct H as (I1 & I2 & I3 & I4 & I5). case_bool_decide as Hm; split.
    - intros _. destruct I3 as [->|I3]; [lia|]. done.
    - intros Hn. destruct I3 as [->|I3]; [lia|]. by apply Hn in I3.
    - intros [v Hin]. exfalso. specialize (I2 _ Hin). specialize (Hv _ Hin). lia.
    - intros Hn. split; [done|]. intros Hne. destruct rs as [|[e|v] rs]; [done| |exfalso; apply (Hn v); left]. apply I5. exists e. left.
  Qed.

  Lemma mux_start_loop_spec (f : S → S * option E) l n : mux_start_loop f l n = (map (λ p, (f p).1) l, n + length (omap (λ p, (f p).2) l)).
  Proof.
    revert n. induction l as [|p l IH]; intros n; cbn [mux_start_loop map omap list_omap length]; [by rewrite Nat.add_0_r|].
    destruct (f p) as [p' [e|]]; cbn [fst snd]; rewrite IH; cbn [length]; [|done]. f_equal. lia.
  Qed.
  Lemma omap_length_le {A B} (g : A → option B) (l : list A) : length (omap g l) ≤ length l.
  Proof. induction l as [|x l IH]; [done|]. cbn. destruct (g x); cbn; lia. Qed.
  Lemma mux_start_spec (f : S → S * option E) l l' b : mux_start f l = (l', b) →
    length l' = length l ∧ (∀ i p, l !! i = Some p → l' !! i = Some (f p).1) ∧ (b = true ↔ ∀ p, p ∈ l → (f p).2 ≠ None).
  Proof.
    unfold mux_start. rewrite mux_start_loop_spec. intros [= <- <-]. split; [apply map_length|]. split.
    - intros i p Hp. by rewrite list_lookup_fmap, Hp.
    - rewrite bool_decide_eq_true. cbn [Nat.add]. induction l as [|p l IH]; cbn [omap list_omap length].
      + split; [|done]. intros _ p Hp. by apply elem_of_nil in Hp.
      + pose proof (omap_length_le (λ p, (f p).2) l) as Hle. destruct ((f p).2) as [e|] eqn:Ef; cbn [length].
        * split.
          -- intros H q [->|Hq]%elem_of_cons; [by rewrite Ef|]. apply IH; [lia|done].
          -- intros H. f_equal. apply IH. intros q Hq. apply H. by right.
        * split; [lia|]. intros H. exfalso. apply (H p); [left|done].
  Qed.
  Lemma mux_count_spec (f : S → N) l : (foldr (λ p c, (f p + c)%N) 0%N l < 2 ^ 64)%N → mux_count f l = foldr (λ p c, (f p + c)%N) 0%N l.
  Proof.
    unfold mux_count. cut (∀ c, (c + foldr (λ p c, (f p + c)%N) 0%N l < 2 ^ 64)%N →
      foldl (λ c p, (c + f p) mod 2 ^ 64)%N c l = (c + foldr (λ p c, (f p + c)%N) 0%N l)%N).
    { intros H H1. rewrite H; [done|]. by rewrite N.add_0_l. }
    induction l as [|p l IH]; intros c Hc; cbn [foldl foldr] in *; [by rewrite N.add_0_r|].
    rewrite N.mod_small by lia. rewrite IH by lia. lia.
  Qed.
  Lemma mux_why_spec (f : S → bytes) l :
    (∃ pre p post, l = pre ++ p :: post ∧ (∀ q, q ∈ pre → f q = []) ∧ f p ≠ [] ∧ mux_why f l = f p) ∨
    ((∀ p, p ∈ l → f p = []) ∧ mux_why f l = str "no consumers to report"%string).
  Proof.
    induction l as [|p l IH]; cbn [mux_why]; [right; split; [intros p Hp; by apply elem_of_nil in Hp|done]|].
    destruct (f p) as [|b v] eqn:Ef.
    - destruct IH as [(pre & q & post & -> & H1 & H2 & H3)|[H1 H2]].
      + left. exists (p :: pre), q, post. split; [done|]. split; [|done]. intros q' [->|Hq]%elem_of_cons; [done|by apply H1].
      + right. split; [|done]. intros q' [->|Hq]%elem_of_cons; [done|by apply H1].
    - left. exists [], p, l. split; [done|]. split; [intros q Hq; by apply elem_of_nil in Hq|]. by rewrite Ef.
  Qed.
  Lemma mux_waiter_spec {W : Type} (f : S → option W) l :
    (∃ pre p post w, l = pre ++ p :: post ∧ (∀ q, q ∈ pre → f q = None) ∧ f p = Some w ∧ mux_waiter f l = Some w) ∨
    ((∀ p, p ∈ l → f p = None) ∧ mux_waiter f l = None).
  Proof.
    induction l as [|p l IH]; cbn [mux_waiter]; [right; split; [intros p Hp; by apply elem_of_nil in Hp|done]|].
    destruct (f p) as [w|] eqn:Ef.
    - left. exists [], p, l, w. split; [done|]. split; [intros q Hq; by apply elem_of_nil in Hq|]. by rewrite Ef.
    - destruct IH as [(pre & q & post & w & -> & H1 & H2 & H3)|[H1 H2]].
      + left. exists (p :: pre), q, post, w. split; [done|]. split; [|done]. intros q' [->|Hq]%elem_of_cons; [done|by apply H1].
      + right. split; [|done]. intros q' [->|Hq]%elem_of_cons; [done|by apply H1].
  Qed.
End facts.

Lemma timestamps_spec {P : Type} (url : P → bytes) (token : P → option bytes) (l : list P) :
  (∀ t, resumption_for url token l [] = Some t → ∃ ts, t = join_byte x3b ts ∧
     Forall (λ bp, (has_scheme (url bp) (str "kafka"%string) ∧ token bp ≠ None) ∨ has_scheme (url bp) (str "null"%string)) l ∧
     ∀ tok, tok ∈ ts ↔ ∃ bp, bp ∈ l ∧ has_scheme (url bp) (str "kafka"%string) ∧ token bp = Some tok) ∧
  (Forall (λ bp, (has_scheme (url bp) (str "kafka"%string) ∧ token bp ≠ None) ∨ has_scheme (url bp) (str "null"%string)) l →
     resumption_for url token l [] ≠ None).
Proof.
  destruct no_colon as (H1 & H2 & H3 & H4). rewrite resumption_for_spec.
  assert (Hi : ∀ l : list P, Forall (λ bp, (has_scheme (url bp) (str "kafka"%string) ∧ token bp ≠ None) ∨ has_scheme (url bp) (str "null"%string)) l ↔
    Forall (λ bp, (protocol (url bp) = str "kafka"%string ∧ token bp ≠ None) ∨ protocol (url bp) = str "null"%string) l).
  { clear l. intros l. rewrite !Forall_forall. split; intros H x Hx; specialize (H x Hx).
    - destruct H as [[Ha Hb]|Ha]; [left; split; [by apply protocol_scheme|done]|right; by apply protocol_scheme].
    - destruct H as [[Ha Hb]|Ha]; [left; split; [by apply protocol_scheme|done]|right; by apply protocol_scheme]. }
  destruct (decide (Forall (λ bp, (protocol (url bp) = str "kafka"%string ∧ token bp ≠ None) ∨ protocol (url bp) = str "null"%string) l)) as [H|H].
  - rewrite (bool_decide_eq_true_2 (Forall _ l)) by done. split; [|done]. intros t [= <-]. eexists. split; [reflexivity|].
    split; [by apply Hi|]. intros tok. cbn [app]. rewrite elem_of_list_omap. split.
    + intros (bp & Hin & E). case_bool_decide as B; [|done]. exists bp. split; [done|]. split; [|done]. by apply protocol_scheme.
    + intros (bp & Hin & Hs & E). exists bp. split; [done|]. rewrite bool_decide_eq_true_2; [done|]. by apply protocol_scheme.
  - rewrite (bool_decide_eq_false_2 (Forall _ l)) by done. split; [done|]. intros Hc. apply Hi in Hc. done.
Qed.
