(** Facts for C68: what ParseKafkaURL makes of a URL. *)
From Coq Require Import Strings.String.
From Verif Require Import Base Types Avro AvroFacts GoText TextFacts KafkaUrl SpecKafkaUrl.

(** * Bytes *)
Definition plainb (b : byte) : bool := is_alnum b || is_mark b.
Lemma plain_plainb b : plain b ↔ plainb b = true.
Proof.
  unfold plain, plainb, is_alnum, is_digit, is_mark.
  rewrite !orb_true_iff, !andb_true_iff, !N.leb_le, bool_decide_eq_true. tauto.
Qed.
Lemma digit_isb b : digit b ↔ is_digit b = true.
Proof. unfold digit, is_digit. by rewrite andb_true_iff, !N.leb_le. Qed.
Lemma digit_plain b : digit b → plain b.
Proof. intros H. left. by left. Qed.
Lemma plain_ne b c : plain b → plainb c = false → b ≠ c.
Proof. intros H Hc ->. apply plain_plainb in H. congruence. Qed.
Lemma plain_notin l c : Forall plain l → plainb c = false → c ∉ l.
Proof. intros H Hc Hin. rewrite Forall_forall in H. by apply (plain_ne c c (H c Hin)). Qed.
Lemma plain_calm b : plain b → is_control b = false.
Proof.
  intros H. unfold is_control. apply orb_false_iff. rewrite N.ltb_ge, N.eqb_neq.
  destruct H as [H|H]; [lia|]. rewrite !elem_of_cons, elem_of_nil in H.
  destruct H as [->|[->|[->|[->|[]]]]]; vm_compute; split; congruence.
Qed.
Lemma hex_value_ok b n : hex b n → hex_value b = Some n ∧ (n < 16)%N ∧ plain b.
Proof.
  intros H. unfold hex_value, plain. cbn zeta.
  destruct H as [[H ->]|[[H ->]|[H ->]]].
  - rewrite (proj2 (N.leb_le 48 _)), (proj2 (N.leb_le _ 57)) by lia. cbn [andb]. split; [f_equal; lia|]. split; [lia|]. left. lia.
  - rewrite (proj2 (N.leb_gt _ 57)) by lia. rewrite andb_false_r.
    rewrite (proj2 (N.leb_le 97 _)), (proj2 (N.leb_le _ 102)) by lia. cbn [andb]. split; [f_equal; lia|]. split; [lia|]. left. lia.
  - rewrite (proj2 (N.leb_gt _ 57)) by lia. rewrite andb_false_r.
    rewrite (proj2 (N.leb_gt 97 _)) by lia. cbn [andb].
    rewrite (proj2 (N.leb_le 65 _)), (proj2 (N.leb_le _ 70)) by lia. cbn [andb]. split; [f_equal; lia|]. split; [lia|]. left. lia.
Qed.

(** What an escaped text consists of. *)
Definition esc_byte (b : byte) : Prop := plain b ∨ b = x25.
Lemma escaped_bytes t v : escaped t v → Forall esc_byte t.
Proof.
  induction 1 as [|b t v Hb _ IH|h l x y b t v Hh Hl _ _ IH]; [constructor|constructor; [by left|done]|].
  apply hex_value_ok in Hh as (_ & _ & Hh). apply hex_value_ok in Hl as (_ & _ & Hl).
  constructor; [by right|]. constructor; [by left|]. constructor; [by left|done].
Qed.
Lemma esc_notin t c : Forall esc_byte t → plainb c = false → c ≠ x25 → c ∉ t.
Proof.
  intros H Hc Hne Hin. rewrite Forall_forall in H. destruct (H c Hin) as [Hp|]; [|done].
  by apply (plain_ne c c Hp).
Qed.

Lemma unescape_escaped m t v : m ≠ PHost → escaped t v → unescape m t = Some v.
Proof.
  intros Hm. induction 1 as [|b t v Hb _ IH|h l x y b t v Hh Hl Hv _ IH]; [done|..]; cbn [unescape].
  - rewrite (bool_decide_eq_false_2 (b = x25)) by (by apply plain_ne).
    rewrite (bool_decide_eq_false_2 (b = x2b)) by (by apply plain_ne).
    rewrite (bool_decide_eq_false_2 (m = PHost)) by done. cbn [andb]. by rewrite IH.
  - rewrite bool_decide_eq_true_2 by done.
    apply hex_value_ok in Hh as (-> & _). apply hex_value_ok in Hl as (-> & _).
    rewrite (bool_decide_eq_false_2 (m = PHost)) by done. cbn [andb]. rewrite IH. cbn [fmap option_fmap option_map].
    by rewrite <- Hv, byte_of_N.
Qed.

Definition hosts_byte (b : byte) : Prop := plain b ∨ b = x3a ∨ b = x2c.
Lemma unescape_hosts h : Forall hosts_byte h → unescape PHost h = Some h.
Proof.
  induction 1 as [|b h Hb _ IH]; [done|]. cbn [unescape].
  assert (Hne : b ≠ x25) by (destruct Hb as [Hb|[->| ->]]; [by apply plain_ne|done|done]).
  assert (Hh : host_byte b = true).
  { unfold host_byte. destruct Hb as [Hb|[->| ->]]; [|done|done]. apply plain_plainb in Hb. unfold plainb in Hb. by rewrite Hb. }
  rewrite (bool_decide_eq_false_2 (b = x25)) by done. rewrite (bool_decide_eq_false_2 (PHost = PQuery)) by done.
  rewrite andb_false_r, Hh, andb_false_r, IH. done.
Qed.

Lemma forallb_intro {A} (f : A → bool) l : Forall (λ x, f x = true) l → forallb f l = true.
Proof. induction 1 as [|x l Hx _ IH]; [done|]. cbn [forallb]. by rewrite Hx, IH. Qed.

(** * Cutting *)
Lemma cut_app c a r : c ∉ a → cut c (a ++ c :: r) = (a, Some r).
Proof.
  induction a as [|b a IH]; intros H; cbn [app cut].
  - by rewrite bool_decide_eq_true_2.
  - rewrite bool_decide_eq_false_2 by (intros ->; apply H, elem_of_list_here).
    rewrite IH; [done|]. intros Hin. by apply H, elem_of_list_further.
Qed.
Lemma cut_none c a : c ∉ a → cut c a = (a, None).
Proof.
  induction a as [|b a IH]; intros H; cbn [cut]; [done|].
  rewrite bool_decide_eq_false_2 by (intros ->; apply H, elem_of_list_here).
  rewrite IH; [done|]. intros Hin. by apply H, elem_of_list_further.
Qed.
Lemma cut_prefix c p s : c ∉ p → cut c (p ++ s) = (p ++ (cut c s).1, (cut c s).2).
Proof.
  induction p as [|b p IH]; intros H; cbn [app cut]; [by destruct (cut c s)|].
  rewrite bool_decide_eq_false_2 by (intros ->; apply H, elem_of_list_here).
  rewrite IH; [done|]. intros Hin. by apply H, elem_of_list_further.
Qed.
Lemma cut_last_none c a : c ∉ a → cut_last c a = None.
Proof.
  induction a as [|b a IH]; intros H; cbn [cut_last]; [done|].
  rewrite IH by (intros Hin; by apply H, elem_of_list_further).
  by rewrite bool_decide_eq_false_2 by (intros ->; apply H, elem_of_list_here).
Qed.
Lemma cut_last_app c a r : c ∉ r → cut_last c (a ++ c :: r) = Some (a, r).
Proof.
  intros H. induction a as [|b a IH]; cbn [app cut_last].
  - by rewrite cut_last_none, bool_decide_eq_true_2.
  - by rewrite IH.
Qed.

(** * The authority *)
Lemma join_snoc c l x : l ≠ [] → join_byte c (l ++ [x]) = join_byte c l ++ c :: x.
Proof.
  induction l as [|y l IH]; [done|]. intros _. destruct l as [|z l]; [done|].
  change (join_byte c ((y :: z :: l) ++ [x])) with (y ++ c :: join_byte c ((z :: l) ++ [x])).
  change (join_byte c (y :: z :: l)) with (y ++ c :: join_byte c (z :: l)).
  rewrite IH by done. by rewrite <- app_assoc.
Qed.
Lemma join_Forall (P : byte → Prop) c l : P c → Forall (Forall P) l → Forall P (join_byte c l).
Proof.
  intros Hc H. induction H as [|x l Hx Hl IH]; [constructor|]. cbn [join_byte]. destruct l as [|y l]; [done|].
  apply Forall_app. split; [done|]. constructor; done.
Qed.
Definition any_host (h : bytes) : Prop := bare_host h ∨ port_host h.
Lemma any_host_bytes h : any_host h → Forall (λ b, plain b ∨ b = x3a) h.
Proof.
  intros [H|(n & p & -> & Hn & Hp)].
  - eapply Forall_impl; [exact H|]. by left.
  - apply Forall_app. split; [eapply Forall_impl; [exact Hn|]; by left|]. constructor; [by right|].
    eapply Forall_impl; [exact Hp|]. intros b Hb. left. by apply digit_plain.
Qed.
Lemma hosts_bytes hosts : Forall any_host hosts → Forall hosts_byte (join_byte x2c hosts).
Proof.
  intros H. apply join_Forall; [by right; right|]. eapply Forall_impl; [exact H|].
  intros h Hh. apply any_host_bytes in Hh. eapply Forall_impl; [exact Hh|].
  intros b [Hb|Hb]; [by left|by right; left].
Qed.
Lemma hosts_notin c hosts : Forall any_host hosts → plainb c = false → c ≠ x3a → c ≠ x2c → c ∉ join_byte x2c hosts.
Proof.
  intros H Hc H1 H2 Hin. apply hosts_bytes in H. rewrite Forall_forall in H.
  destruct (H c Hin) as [Hp|[?|?]]; [by apply (plain_ne c c Hp)|done|done].
Qed.

Lemma digits_forallb p : Forall digit p → forallb is_digit p = true.
Proof. intros H. apply forallb_intro. eapply Forall_impl; [exact H|]. intros b Hb. by apply digit_isb. Qed.

Lemma parse_host_ok hosts :
  Forall any_host hosts → (Forall bare_host hosts ∨ ∃ h, last hosts = Some h ∧ port_host h) →
  parse_host (join_byte x2c hosts) = Some (join_byte x2c hosts).
Proof.
  intros Hh Hp. pose proof (hosts_bytes _ Hh) as Hb. unfold parse_host.
  assert (Hbr : x5b ∉ join_byte x2c hosts) by (by apply hosts_notin).
  assert (Hport : match cut_last x3a (join_byte x2c hosts) with Some (_, ds) => forallb is_digit ds | None => true end = true).
  { destruct Hp as [Hp|(h & Hl & n & p & -> & Hn & Hd)].
    - rewrite cut_last_none; [done|]. intros Hin.
      assert (H : Forall (λ b, plain b ∨ b = x2c) (join_byte x2c hosts)).
      { apply join_Forall; [by right|]. eapply Forall_impl; [exact Hp|]. intros x Hx. eapply Forall_impl; [exact Hx|]. by left. }
      rewrite Forall_forall in H. destruct (H _ Hin) as [H'|]; [|done]. by apply (plain_ne x3a x3a H').
    - apply last_Some in Hl as [l ->].
      assert (Hc : x3a ∉ p).
      { intros Hin. rewrite Forall_forall in Hd. by apply (plain_ne x3a x3a (digit_plain _ (Hd _ Hin))). }
      destruct (decide (l = [])) as [->|Hne].
      + cbn [app join_byte]. rewrite cut_last_app by done. by apply digits_forallb.
      + rewrite join_snoc by done. rewrite app_comm_cons, app_assoc, cut_last_app by done. by apply digits_forallb. }
  destruct (join_byte x2c hosts) as [|b r] eqn:E; [done|].
  rewrite (bool_decide_eq_false_2 (b = x5b)) by (intros ->; apply Hbr, elem_of_list_here).
  rewrite Hport. by apply unescape_hosts.
Qed.

Lemma esc_user t : Forall esc_byte t → forallb user_byte t = true.
Proof.
  intros H. apply forallb_intro. eapply Forall_impl; [exact H|]. intros b [Hb| ->]; [|done].
  apply plain_plainb in Hb. unfold plainb in Hb. unfold user_byte. by rewrite Hb.
Qed.

Lemma parse_authority_ok u user hosts :
  user_text u user → Forall any_host hosts → (Forall bare_host hosts ∨ ∃ h, last hosts = Some h ∧ port_host h) →
  parse_authority (u ++ join_byte x2c hosts) = Some (user, join_byte x2c hosts).
Proof.
  intros Hu Hh Hp. unfold parse_authority.
  assert (Hat : x40 ∉ join_byte x2c hosts) by (by apply hosts_notin).
  destruct Hu as [|t n Ht|t n t' p Ht Ht'].
  - cbn [app]. rewrite cut_last_none by done. by rewrite parse_host_ok.
  - rewrite <- app_assoc. cbn [app]. rewrite cut_last_app by done. rewrite parse_host_ok by done. cbn [mbind option_bind].
    pose proof (escaped_bytes _ _ Ht) as Hb. rewrite esc_user by done.
    rewrite cut_none by (by apply esc_notin). by rewrite (unescape_escaped PUser _ _ ltac:(done) Ht).
  - rewrite <- !app_assoc. cbn [app]. rewrite <- app_assoc. cbn [app].
    rewrite app_comm_cons, app_assoc, cut_last_app by done. rewrite parse_host_ok by done. cbn [mbind option_bind].
    pose proof (escaped_bytes _ _ Ht) as Hb. pose proof (escaped_bytes _ _ Ht') as Hb'.
    rewrite forallb_app. cbn [forallb]. rewrite !esc_user by done. cbn [andb].
    change (user_byte x3a) with true. cbn [andb].
    rewrite cut_app by (by apply esc_notin).
    rewrite (unescape_escaped PUser _ _ ltac:(done) Ht). cbn [mbind option_bind]. by rewrite (unescape_escaped PUser _ _ ltac:(done) Ht').
Qed.

(** * The query *)
Definition query_byte (b : byte) : Prop := esc_byte b ∨ b = x3d.
Lemma option_bytes t o : option_text t o → Forall query_byte t.
Proof.
  intros (k & v & -> & Hk & Hv). apply escaped_bytes in Hk, Hv. apply Forall_app.
  split; [eapply Forall_impl; [exact Hk|]; by left|]. constructor; [by right|]. eapply Forall_impl; [exact Hv|]. by left.
Qed.
Lemma query_notin c t : Forall query_byte t → plainb c = false → c ≠ x25 → c ≠ x3d → c ∉ t.
Proof.
  intros H Hc H1 H2 Hin. rewrite Forall_forall in H. destruct (H c Hin) as [[Hp|?]|?]; [|done|done].
  by apply (plain_ne c c Hp).
Qed.
Lemma query_pair_ok t o : option_text t o → query_pair t = Some o.
Proof.
  intros H. pose proof (option_bytes _ _ H) as Hb. destruct H as (k & v & -> & Hk & Hv). unfold query_pair.
  rewrite bool_decide_eq_false_2 by (by apply query_notin).
  rewrite bool_decide_eq_false_2 by (by destruct k). cbn [orb].
  pose proof (escaped_bytes _ _ Hk) as Hkb. rewrite cut_app by (by apply esc_notin).
  rewrite (unescape_escaped PQuery _ _ ltac:(done) Hk). cbn [mbind option_bind from_option id].
  rewrite (unescape_escaped PQuery _ _ ltac:(done) Hv). cbn. by destruct o.
Qed.
Lemma query_pairs_ok ts opts : Forall2 option_text ts opts → query_pairs (join_byte x26 ts) = opts.
Proof.
  intros H. unfold query_pairs. destruct (decide (ts = [])) as [->|Hne].
  - apply Forall2_nil_inv_l in H as ->. done.
  - rewrite split_of_join; [|done|].
    + clear Hne. induction H as [|t o ts opts Ht _ IH]; [done|]. cbn. rewrite (query_pair_ok _ _ Ht). by f_equal.
    + clear Hne. induction H as [|t o ts opts Ht _ IH]; [constructor|]. constructor; [|done].
      apply query_notin; try done. by eapply option_bytes.
Qed.
Lemma query_text_ok q opts : options_text q opts → ∃ q', query_pairs q' = opts ∧
  (q = [] ∧ q' = [] ∨ q = x3f :: q') ∧ Forall (λ b, query_byte b ∨ b = x26) q'.
Proof.
  intros [[-> ->]|(ts & H & ->)].
  - exists []. split; [done|]. split; [by left|]. constructor.
  - exists (join_byte x26 ts). split; [by apply query_pairs_ok|]. split; [by right|].
    apply join_Forall; [by right|]. induction H as [|t o ts opts Ht _ IH]; [constructor|]. constructor; [|done].
    apply option_bytes in Ht. eapply Forall_impl; [exact Ht|]. by left.
Qed.

(** * The whole *)
Lemma user_bytes u user : user_text u user → Forall (λ b, esc_byte b ∨ b = x3a ∨ b = x40) u.
Proof.
  intros [|t n Ht|t n t' p Ht Ht']; [constructor|..].
  - apply escaped_bytes in Ht. apply Forall_app. split; [eapply Forall_impl; [exact Ht|]; by left|].
    constructor; [by right; right|constructor].
  - apply escaped_bytes in Ht, Ht'. apply Forall_app. split; [eapply Forall_impl; [exact Ht|]; by left|].
    constructor; [by right; left|]. apply Forall_app. split; [eapply Forall_impl; [exact Ht'|]; by left|].
    constructor; [by right; right|constructor].
Qed.

Definition url_byte (b : byte) : Prop := plain b ∨ b ∈ [x25; x3a; x40; x2c; x3d; x26].
Lemma parse_url_ok u user hosts q opts :
  user_text u user → Forall any_host hosts → (Forall bare_host hosts ∨ ∃ h, last hosts = Some h ∧ port_host h) →
  options_text q opts →
  ∃ q', query_pairs q' = opts ∧ parse_url (u ++ join_byte x2c hosts ++ q) = Some (user, join_byte x2c hosts, q').
Proof.
  intros Hu Hh Hp Hq. destruct (query_text_ok _ _ Hq) as (q' & Eq & Hq' & Hqb). exists q'. split; [done|].
  assert (Ha : Forall url_byte (u ++ join_byte x2c hosts)).
  { apply Forall_app. split.
    - eapply Forall_impl; [exact (user_bytes _ _ Hu)|]. intros b [[Hb| ->]|[->| ->]]; [by left|right; set_solver..].
    - eapply Forall_impl; [exact (hosts_bytes _ Hh)|]. intros b [Hb|[->| ->]]; [by left|right; set_solver..]. }
  assert (Hb : Forall url_byte q').
  { eapply Forall_impl; [exact Hqb|]. intros b [[[Hb| ->]| ->]| ->]; [by left|right; set_solver..]. }
  assert (Hn : ∀ c l, Forall url_byte l → plainb c = false → c ∉ [x25; x3a; x40; x2c; x3d; x26] → c ∉ l).
  { intros c l Hl Hc H1 Hin. rewrite Forall_forall in Hl. destruct (Hl c Hin) as [Hpl|]; [|done]. by apply (plain_ne c c Hpl). }
  assert (Hcalm : ∀ l, Forall url_byte l → existsb is_control l = false).
  { induction 1 as [|b l Hbb _ IH]; [done|]. cbn [existsb]. rewrite IH, orb_false_r.
    destruct Hbb as [?|Hin]; [by apply plain_calm|].
    rewrite !elem_of_cons, elem_of_nil in Hin. by destruct Hin as [->|[->|[->|[->|[->|[->|[]]]]]]]. }
  rewrite app_assoc. set (a := u ++ join_byte x2c hosts) in *.
  assert (E1 : cut x23 (a ++ q) = (a ++ q, None)).
  { apply cut_none. intros Hin. apply elem_of_app in Hin as [Hin|Hin].
    - revert Hin. apply Hn; [done|done|]. rewrite !elem_of_cons, elem_of_nil. intuition discriminate.
    - destruct Hq' as [[-> _]| ->]; [by apply elem_of_nil in Hin|]. apply elem_of_cons in Hin as [|Hin]; [done|].
      revert Hin. apply Hn; [done|done|]. rewrite !elem_of_cons, elem_of_nil. intuition discriminate. }
  assert (E2 : existsb is_control (a ++ q) = false).
  { rewrite existsb_app, (Hcalm a Ha). destruct Hq' as [[-> _]| ->]; [done|]. cbn [existsb]. by rewrite (Hcalm _ Hb). }
  assert (E3 : default [] (cut x3f (a ++ q)).2 = q' ∧ (cut x3f (a ++ q)).1 = a).
  { assert (Hx : x3f ∉ a). { apply Hn; [done|done|]. rewrite !elem_of_cons, elem_of_nil. intuition discriminate. }
    destruct Hq' as [[-> ->]| ->].
    - by rewrite app_nil_r, cut_none.
    - by rewrite cut_app. }
  assert (E4 : cut x2f a = (a, None)).
  { apply cut_none, Hn; [done|done|]. rewrite !elem_of_cons, elem_of_nil. intuition discriminate. }
  unfold parse_url. rewrite E1, E2. destruct (cut x3f (a ++ q)) as [a' qq]. cbn [fst snd] in E3. destruct E3 as [Eqq ->].
  rewrite E4. unfold a. rewrite (parse_authority_ok _ user) by done. cbn. by rewrite Eqq.
Qed.

Lemma not_scheme u user hosts q opts :
  user_text u user → Forall any_host hosts → options_text q opts → ¬ scheme `prefix_of` u ++ join_byte x2c hosts ++ q.
Proof.
  intros Hu Hh Hq [r E].
  assert (Hs : x2f ∉ u ++ join_byte x2c hosts).
  { intros Hin. apply elem_of_app in Hin as [Hin|Hin].
    - pose proof (user_bytes _ _ Hu) as Hb. rewrite Forall_forall in Hb.
      destruct (Hb _ Hin) as [[Hp|]|[|]]; try done. by apply (plain_ne x2f x2f Hp).
    - revert Hin. by apply hosts_notin. }
  assert (Hx : x3f ∉ u ++ join_byte x2c hosts).
  { intros Hin. apply elem_of_app in Hin as [Hin|Hin].
    - pose proof (user_bytes _ _ Hu) as Hb. rewrite Forall_forall in Hb.
      destruct (Hb _ Hin) as [[Hp|]|[|]]; try done. by apply (plain_ne x3f x3f Hp).
    - revert Hin. by apply hosts_notin. }
  destruct (query_text_ok _ _ Hq) as (q' & _ & Hq' & _).
  assert (E1 : (cut x3f (u ++ join_byte x2c hosts ++ q)).1 = u ++ join_byte x2c hosts).
  { rewrite app_assoc. destruct Hq' as [[-> _]| ->]; [by rewrite app_nil_r, cut_none|by rewrite cut_app]. }
  rewrite E, cut_prefix in E1.
  - cbn [fst] in E1. apply Hs. rewrite <- E1. apply elem_of_app. left. apply elem_of_list_In. vm_compute. tauto.
  - intros Hin. apply elem_of_list_In in Hin. vm_compute in Hin. intuition discriminate.
Qed.

Lemma written_parsed url hosts user opts : written url hosts user opts →
  ∃ q, query_pairs q = opts ∧ parse_kafka_url url = Ok (hosts, kafka_config user q).
Proof.
  intros (pre & u & q & Hpre & Hne & Hh & Hp & Hu & Hq & ->).
  destruct (parse_url_ok _ _ _ _ _ Hu Hh Hp Hq) as (q' & Eq & E). exists q'. split; [done|].
  unfold parse_kafka_url. fold scheme.
  assert (Et : trim_prefix (pre ++ u ++ join_byte x2c hosts ++ q) scheme = u ++ join_byte x2c hosts ++ q).
  { unfold trim_prefix. destruct Hpre as [->| ->].
    - cbn [app]. rewrite bool_decide_eq_false_2; [done|]. by eapply not_scheme.
    - rewrite bool_decide_eq_true_2 by (by apply prefix_app_r). by rewrite drop_app. }
  rewrite Et, E. rewrite split_of_join; [done|done|].
  eapply Forall_impl; [exact Hh|]. intros h Hb Hin. apply any_host_bytes in Hb. rewrite Forall_forall in Hb.
  destruct (Hb _ Hin) as [Hpl|]; [|done]. by apply (plain_ne x2c x2c Hpl).
Qed.

(** * Options *)
Lemma get_given q opts k v : query_pairs q = opts → given opts k v → query_get q k = v.
Proof.
  intros Eq (l1 & l2 & -> & Hn). unfold query_get. rewrite Eq.
  assert (E : list_find (λ p : bytes * bytes, p.1 = str k) (l1 ++ (str k, v) :: l2) = Some (length l1, (str k, v))).
  { apply list_find_Some. split; [by rewrite list_lookup_middle|]. split; [done|].
    intros j y Hj Hlt. rewrite lookup_app_l in Hj by done. intros E. apply Hn. rewrite <- E.
    apply elem_of_list_fmap. exists y. split; [done|]. by eapply elem_of_list_lookup_2. }
  by rewrite E.
Qed.
Lemma get_absent q opts k : query_pairs q = opts → absent opts k → query_get q k = [].
Proof.
  intros Eq Hn. unfold query_get. rewrite Eq.
  destruct (list_find _ _) as [[i p]|] eqn:E; [|done]. exfalso. apply Hn.
  apply list_find_Some in E as (Hl & <- & _). apply elem_of_list_fmap. exists p. split; [done|]. by eapply elem_of_list_lookup_2.
Qed.
Lemma get_cases q opts k : query_pairs q = opts → given opts k (query_get q k) ∨ (absent opts k ∧ query_get q k = []).
Proof.
  intros Eq. destruct (decide (str k ∈ map fst opts)) as [Hin|Hn].
  - left. unfold query_get. rewrite Eq. destruct (list_find _ _) as [[i p]|] eqn:E.
    + apply list_find_Some in E as (Hl & Hk & Hb). exists (take i opts), (drop (S i) opts). split.
      * rewrite <- Hk. rewrite <- (take_drop_middle _ _ _ Hl) at 1. by destruct p.
      * intros Hin'. apply elem_of_list_fmap in Hin' as (y & Ey & Hy). apply elem_of_list_lookup in Hy as [j Hj].
        pose proof (lookup_lt_Some _ _ _ Hj) as Hlt. rewrite take_length in Hlt.
        rewrite lookup_take in Hj by lia. by apply (Hb j y Hj ltac:(lia)).
    + exfalso. apply list_find_None in E. rewrite Forall_forall in E.
      apply elem_of_list_fmap in Hin as (y & Ey & Hy). by apply (E y Hy).
  - right. split; [done|]. by eapply get_absent.
Qed.
Lemma get_iff q opts k v : query_pairs q = opts → v ≠ [] → query_get q k = v ↔ given opts k v.
Proof.
  intros Eq Hv. split; [|by eapply get_given]. intros <-.
  destruct (get_cases q opts k Eq) as [|[_ E]]; [done|congruence].
Qed.

Lemma read_digits_garbage s acc b : b ∈ s → ¬ digit b → read_digits acc s = None.
Proof.
  revert acc; induction s as [|x s IH]; intros acc Hin Hd; [by apply elem_of_nil in Hin|]. cbn [read_digits].
  destruct (_ && _) eqn:E; [|done]. apply IH; [|done]. apply elem_of_cons in Hin as [->|]; [|done].
  exfalso. apply Hd. unfold digit. rewrite andb_true_iff, !N.leb_le in E. done.
Qed.
Lemma atoi_garbage v : garbage v → atoi v = None.
Proof.
  intros (b & Hin & Hd & H1 & H2). unfold atoi. destruct v as [|x v]; [by apply elem_of_nil in Hin|].
  case_bool_decide as E1; [|case_bool_decide as E2].
  - subst x. apply elem_of_cons in Hin as [|Hin]; [done|]. destruct v as [|y v]; [done|].
    by rewrite (read_digits_garbage _ _ b).
  - subst x. apply elem_of_cons in Hin as [|Hin]; [done|]. destruct v as [|y v]; [done|].
    by rewrite (read_digits_garbage _ _ b).
  - by rewrite (read_digits_garbage _ _ b).
Qed.
Lemma int16_id x : in_int16 x → int16 x = x.
Proof. unfold in_int16, int16, to_signed. intros H. rewrite Z.mod_small; lia. Qed.
Lemma int64_id x : in_int64 x → to_signed 64 x = x.
Proof. unfold in_int64, to_signed. intros H. rewrite Z.mod_small; lia. Qed.

(** * What is used as it stands *)
Lemma options_used url hosts user opts : written url hosts user opts →
  ∃ c, parse_kafka_url url = Ok (hosts, c) ∧
    k_sasl c = match user with Some (n, p) => Some (n, default [] p) | None => None end ∧
    (k_tls c = true ↔ given opts "tls"%string (str "1"%string)) ∧
    (k_idempotent c = true ↔ given opts "idempotent"%string (str "1"%string)) ∧
    (k_log c = true ↔ given opts "log"%string (str "1"%string)) ∧
    (∀ m t, (m, t) ∈ [(CGzip, "gzip"%string); (CNone, "none"%string); (CLz4, "lz4"%string); (CZstd, "zstd"%string)] →
       k_codec c = m ↔ given opts "compression.codec"%string (str t)) ∧
    (∀ m t, (m, t) ∈ [(MSha256, "SCRAM-SHA-256"%string); (MSha512, "SCRAM-SHA-512"%string); (MGssapi, "GSSAPI"%string)] →
       k_mech c = Some m ↔ given opts "sasl.mechanism"%string (str t)) ∧
    (∀ z, in_int32 z → given opts "fetch.default"%string (int_text z) → k_fetch c = Some z) ∧
    (∀ z, in_int64 (z * 1000000) → given opts "max.waittime"%string (int_text z) → k_wait c = Some (z * 1000000)%Z) ∧
    (∀ z, in_int64 z → given opts "message.send.max.retries"%string (int_text z) → k_retries c = z) ∧
    (∀ z, in_int16 z → given opts "request.required.acks"%string (int_text z) → k_acks c = z) ∧
    (∀ z, in_int64 (z * 1000000) → given opts "retry.backoff.ms"%string (int_text z) → k_backoff c = Some (z * 1000000)%Z) ∧
    (∀ z, in_int64 z → given opts "net.maxopenrequests"%string (int_text z) → k_open c = Some z).
Proof.
  intros H. destruct (written_parsed _ _ _ _ H) as (q & Eq & E). exists (kafka_config user q). split; [done|].
  assert (Hsw : ∀ k v, v ≠ [] → bool_decide (query_get q k = v) = true ↔ given opts k v).
  { intros k v Hv. rewrite bool_decide_eq_true. by apply get_iff. }
  unfold kafka_config. cbn [k_sasl k_tls k_idempotent k_log k_codec k_mech k_fetch k_wait k_retries k_acks k_backoff k_open].
  split; [done|]. split; [by apply Hsw|]. split; [by apply Hsw|]. split; [by apply Hsw|].
  split.
  { intros m t Hin. rewrite !elem_of_cons, elem_of_nil in Hin.
    destruct Hin as [[= -> ->]|[[= -> ->]|[[= -> ->]|[[= -> ->]|[]]]]]; (rewrite <- (get_iff q opts) by done);
      split; intros Hx; [| by rewrite Hx | | by rewrite Hx | | by rewrite Hx | | by rewrite Hx];
      repeat case_bool_decide; congruence. }
  split.
  { intros m t Hin. rewrite !elem_of_cons, elem_of_nil in Hin.
    destruct Hin as [[= -> ->]|[[= -> ->]|[[= -> ->]|[]]]]; (rewrite <- (get_iff q opts) by done);
      split; intros Hx; [| by rewrite Hx | | by rewrite Hx | | by rewrite Hx];
      repeat case_bool_decide; congruence. }
  assert (H64 : ∀ z, in_int64 (z * 1000000) → in_int64 z) by (unfold in_int64; lia).
  split. { intros z Hz Hg. rewrite (get_given _ _ _ _ Eq Hg), atoi_int_text by (unfold in_int64, in_int32 in *; lia). cbn [fmap option_fmap option_map]. by rewrite int32_id. }
  split. { intros z Hz Hg. rewrite (get_given _ _ _ _ Eq Hg), atoi_int_text by auto. cbn [fmap option_fmap option_map]. unfold millis. by rewrite int64_id. }
  split. { intros z Hz Hg. by rewrite (get_given _ _ _ _ Eq Hg), atoi_int_text. }
  split. { intros z Hz Hg. rewrite (get_given _ _ _ _ Eq Hg), atoi_int_text by (unfold in_int64, in_int16 in *; lia). cbn [fmap option_fmap option_map from_option id]. by rewrite int16_id. }
  split. { intros z Hz Hg. rewrite (get_given _ _ _ _ Eq Hg), atoi_int_text by auto. cbn [fmap option_fmap option_map]. unfold millis. by rewrite int64_id. }
  intros z Hz Hg. by rewrite (get_given _ _ _ _ Eq Hg), atoi_int_text.
Qed.

Lemma unusable_atoi q opts k : query_pairs q = opts → unusable opts k → atoi (query_get q k) = None.
Proof.
  intros Eq [Ha|(v & Hg & Hv)].
  - by rewrite (get_absent _ _ _ Eq Ha).
  - rewrite (get_given _ _ _ _ Eq Hg). by apply atoi_garbage.
Qed.
Lemma options_default url hosts user opts : written url hosts user opts →
  ∃ c, parse_kafka_url url = Ok (hosts, c) ∧
    (unusable opts "fetch.default"%string → k_fetch c = None) ∧
    (unusable opts "max.waittime"%string → k_wait c = None) ∧
    (unusable opts "message.send.max.retries"%string → k_retries c = 100%Z) ∧
    (unusable opts "request.required.acks"%string → k_acks c = (-1)%Z) ∧
    (unusable opts "retry.backoff.ms"%string → k_backoff c = None) ∧
    (unusable opts "net.maxopenrequests"%string → k_open c = None) ∧
    ((∀ t, t ∈ ["gzip"%string; "none"%string; "lz4"%string; "zstd"%string] → ¬ given opts "compression.codec"%string (str t)) → k_codec c = CSnappy) ∧
    (absent opts "sasl.mechanism"%string → k_mech c = None).
Proof.
  intros H. destruct (written_parsed _ _ _ _ H) as (q & Eq & E). exists (kafka_config user q). split; [done|].
  unfold kafka_config. cbn [k_sasl k_tls k_idempotent k_log k_codec k_mech k_fetch k_wait k_retries k_acks k_backoff k_open].
  split; [intros Hu; by rewrite (unusable_atoi _ _ _ Eq Hu)|]. split; [intros Hu; by rewrite (unusable_atoi _ _ _ Eq Hu)|].
  split; [intros Hu; by rewrite (unusable_atoi _ _ _ Eq Hu)|]. split; [intros Hu; by rewrite (unusable_atoi _ _ _ Eq Hu)|].
  split; [intros Hu; by rewrite (unusable_atoi _ _ _ Eq Hu)|]. split; [intros Hu; by rewrite (unusable_atoi _ _ _ Eq Hu)|].
  split.
  - intros Hn.
    assert (Hx : ∀ t, str t ≠ [] → t ∈ ["gzip"%string; "none"%string; "lz4"%string; "zstd"%string] → query_get q "compression.codec" ≠ str t).
    { intros t Ht Hin Eg. apply (Hn t Hin). by apply (get_iff q opts). }
    rewrite !bool_decide_eq_false_2; [done|..]; (apply Hx; [done|]); apply elem_of_list_In; cbn; tauto.
  - intros Ha. by rewrite (get_absent _ _ _ Eq Ha).
Qed.

(** * URLs that are not understood *)
Lemma bad_authority a c rest :
  c = x2f ∨ c = x3f ∨ c = x23 → x2f ∉ a → x3f ∉ a → x23 ∉ a → parse_authority a = None →
  parse_url (a ++ c :: rest) = None.
Proof.
  intros Hc H1 H2 H3 Ha. unfold parse_url. destruct Hc as [->|[->| ->]].
  - rewrite (cut_prefix x23 a) by done. cbn [cut]. rewrite bool_decide_eq_false_2 by done. destruct (cut x23 rest) as [r f]. cbn [fst snd].
    destruct (existsb _ _); [done|].
    rewrite (cut_prefix x3f a) by done. cbn [cut]. rewrite bool_decide_eq_false_2 by done. destruct (cut x3f r) as [r' q]. cbn [fst snd].
    rewrite cut_app by done. by rewrite Ha.
  - rewrite (cut_prefix x23 a) by done. cbn [cut]. rewrite bool_decide_eq_false_2 by done. destruct (cut x23 rest) as [r f]. cbn [fst snd].
    destruct (existsb _ _); [done|].
    rewrite cut_app by done. rewrite cut_none by done. by rewrite Ha.
  - rewrite cut_app by done. destruct (existsb _ _); [done|]. rewrite cut_none by done. rewrite cut_none by done. by rewrite Ha.
Qed.
Lemma scheme_trimmed s : trim_prefix (scheme ++ s) (str "kafka://"%string) = s.
Proof. unfold trim_prefix. fold scheme. rewrite bool_decide_eq_true_2 by (by apply prefix_app_r). by rewrite drop_app. Qed.

Lemma bad_port n p : x5b ∉ n → x3a ∉ p → Exists (λ b, ¬ digit b) p → parse_host (n ++ x3a :: p) = None.
Proof.
  intros Hn Hp Hd. unfold parse_host.
  assert (Hf : forallb is_digit p = false).
  { apply not_true_iff_false. intros H. apply Exists_exists in Hd as (b & Hin & Hb). apply Hb, digit_isb.
    rewrite forallb_forall in H. by apply H, elem_of_list_In. }
  rewrite cut_last_app by done. destruct n as [|b n]; cbn [app].
  - rewrite bool_decide_eq_false_2 by done. by rewrite Hf.
  - rewrite bool_decide_eq_false_2 by (intros ->; apply Hn, elem_of_list_here). by rewrite Hf.
Qed.

Lemma raw_password n p c rest :
  Forall plain n → Forall plain p → Exists (λ b, ¬ digit b) p → c = x2f ∨ c = x3f ∨ c = x23 →
  parse_kafka_url (scheme ++ n ++ x3a :: p ++ c :: rest) = Panic.
Proof.
  intros Hn Hp Hd Hc. unfold parse_kafka_url. rewrite scheme_trimmed.
  assert (Hnot : ∀ x, plainb x = false → x ≠ x3a → x ∉ n ++ x3a :: p).
  { intros x Hx Hne Hin. apply elem_of_app in Hin as [Hin|Hin]; [by apply (plain_notin n x)|].
    apply elem_of_cons in Hin as [|Hin]; [done|by apply (plain_notin p x)]. }
  replace (n ++ x3a :: p ++ c :: rest) with ((n ++ x3a :: p) ++ c :: rest) by (by rewrite <- app_assoc).
  rewrite bad_authority; [done|done|by apply Hnot|by apply Hnot|by apply Hnot|].
  unfold parse_authority. rewrite cut_last_none by (by apply Hnot).
  rewrite bad_port; [done|by apply plain_notin|by apply plain_notin|done].
Qed.

Lemma lost_port before h after :
  Forall any_host before → port_host h → after ≠ [] → Forall bare_host after →
  parse_kafka_url (scheme ++ join_byte x2c (before ++ h :: after)) = Panic.
Proof.
  intros Hb Hh Hne Ha.
  assert (Hall : Forall any_host (before ++ h :: after)).
  { apply Forall_app. split; [done|]. constructor; [by right|]. eapply Forall_impl; [exact Ha|]. by left. }
  unfold parse_kafka_url. rewrite scheme_trimmed. unfold parse_url.
  rewrite (cut_none x23) by (by apply hosts_notin).
  destruct (existsb _ _); [done|]. rewrite (cut_none x3f) by (by apply hosts_notin). rewrite (cut_none x2f) by (by apply hosts_notin).
  unfold parse_authority. rewrite cut_last_none by (by apply hosts_notin).
  destruct Hh as (n & p & -> & Hn & Hp).
  assert (E : ∃ m, join_byte x2c (before ++ (n ++ x3a :: p) :: after) = m ++ x3a :: p ++ x2c :: join_byte x2c after).
  { assert (Ej : join_byte x2c ((n ++ x3a :: p) :: after) = n ++ x3a :: p ++ x2c :: join_byte x2c after).
    { destruct after as [|y after]; [done|]. cbn [join_byte]. by rewrite <- app_assoc. }
    clear Hb Hall. induction before as [|x before IH]; cbn [app].
    - exists n. exact Ej.
    - destruct IH as [m IH]. exists (x ++ x2c :: m).
      assert (Ex : join_byte x2c (x :: before ++ (n ++ x3a :: p) :: after) = x ++ x2c :: join_byte x2c (before ++ (n ++ x3a :: p) :: after)).
      { by destruct before. }
      etransitivity; [exact Ex|]. etransitivity; [exact (f_equal (λ l, x ++ x2c :: l) IH)|]. by rewrite <- app_assoc. }
  destruct E as [m E].
  assert (Hm : x5b ∉ m).
  { assert (Hj : x5b ∉ join_byte x2c (before ++ (n ++ x3a :: p) :: after)) by (by apply hosts_notin).
    rewrite E in Hj. intros Hin. apply Hj, elem_of_app. by left. }
  enough (Hq : parse_host (join_byte x2c (before ++ (n ++ x3a :: p) :: after)) = None) by (unfold bytes in *; by rewrite Hq).
  rewrite E, bad_port; [done|done| |].
  - intros Hin. apply elem_of_app in Hin as [Hin|Hin].
    + rewrite Forall_forall in Hp. by apply (plain_ne x3a x3a (digit_plain _ (Hp _ Hin))).
    + apply elem_of_cons in Hin as [|Hin]; [done|].
      assert (H : Forall (λ b, plain b ∨ b = x2c) (join_byte x2c after)).
      { apply join_Forall; [by right|]. eapply Forall_impl; [exact Ha|]. intros x Hx. eapply Forall_impl; [exact Hx|]. by left. }
      rewrite Forall_forall in H. destruct (H _ Hin) as [H'|]; [|done]. by apply (plain_ne x3a x3a H').
  - apply Exists_exists. exists x2c. split; [apply elem_of_app; right; apply elem_of_list_here|].
    intros Hd. by apply (plain_ne x2c x2c (digit_plain _ Hd)).
Qed.

(** * Topics *)
Lemma topic_created url hosts user opts topic parts entries brokers found :
  written url hosts user opts → topic ≠ [] → in_int32 parts → (1 <= Z.of_nat brokers < 2 ^ 15)%Z → (found = [] ∨ head found = Some 0) →
  ∃ d, create_topic url topic parts entries true brokers found true = Ok (TRDone (Some d)) ∧
    (1 <= td_replicas d <= 3 ∧ td_replicas d <= Z.of_nat brokers)%Z ∧ (0 < td_parts d)%Z ∧
    ((0 < parts)%Z → td_parts d = parts) ∧ ((parts <= 0)%Z → td_parts d = (2 * Z.of_nat brokers)%Z) ∧
    td_entries d !! str "max.message.bytes"%string = Some (str "10000024"%string) ∧
    (∀ k, k ≠ str "max.message.bytes"%string → td_entries d !! k = entries !! k).
Proof.
  intros Hw Ht Hp Hb Hf. destruct (written_parsed _ _ _ _ Hw) as (q & _ & E). unfold create_topic.
  rewrite bool_decide_eq_false_2 by done. rewrite E. ob.
  rewrite bool_decide_eq_true_2 by (destruct Hf as [->|Hf]; [done|destruct found; cbn in Hf; congruence]).
  assert (E16 : int16 (Z.of_nat brokers) = Z.of_nat brokers) by (apply int16_id; unfold in_int16; lia).
  assert (E32 : int32 (int32 (Z.of_nat brokers) * 2) = (2 * Z.of_nat brokers)%Z).
  { rewrite (int32_id (Z.of_nat brokers)) by (unfold in_int32; lia). rewrite int32_id by (unfold in_int32; lia). lia. }
  rewrite E16, E32. eexists. split; [reflexivity|]. cbn [td_replicas td_parts td_entries].
  split; [case_bool_decide; lia|]. split; [case_bool_decide; lia|]. split; [intros; case_bool_decide; lia|].
  split; [intros; case_bool_decide; lia|]. split; [by rewrite lookup_insert|]. intros k Hk. by rewrite lookup_insert_ne.
Qed.
Lemma topic_kept url topic parts entries brokers n found accepted r :
  create_topic url topic parts entries true brokers (S n :: found) accepted = Ok r → r = TRError ∧ topic = [] ∨ r = TRDone None.
Proof.
  unfold create_topic. case_bool_decide; [intros [= <-]; by left|].
  destruct (parse_kafka_url url); ob; [|discriminate|discriminate]. intros [= <-]. by right.
Qed.
