(** Facts about the LRU cache model. *)
From Verif Require Import Base Lru.

Section lru.
  Context {K : Type} `{EqDecision K}.
  Implicit Types c : lru K.

  Record lru_wf c : Prop := {
    lwf_nodup : NoDup (lru_keys c);
    lwf_len : length (lru_keys c) ≤ lru_cap c
  }.

  Lemma lru_add_cap c k : lru_cap (lru_add c k).1 = lru_cap c.
  Proof. unfold lru_add. repeat case_bool_decide; done. Qed.

  Lemma removelast_elem (l : list K) x : x ∈ removelast l → x ∈ l.
  Proof.
    induction l as [|y l IH]; [done|]. cbn. destruct l; [by intros ?%elem_of_nil|].
    intros [->|H]%elem_of_cons; [apply elem_of_list_here|]. apply elem_of_list_further. by apply IH.
  Qed.

  Lemma removelast_NoDup (l : list K) : NoDup l → NoDup (removelast l).
  Proof.
    induction 1 as [|y l Hy Hl IH]; [constructor|]. cbn. destruct l; [constructor|].
    constructor; [|done]. intros H. apply Hy. by apply removelast_elem.
  Qed.

  Lemma last_split (l : list K) x : last l = Some x → l = removelast l ++ [x].
  Proof.
    intros H. destruct l as [|y l']; [done|]. rewrite (app_removelast_last x (l:=y::l')) at 1; [|done].
    f_equal. f_equal. clear -H. revert y H. induction l' as [|z l IH]; intros y H; [by injection H|].
    cbn in *. by apply IH.
  Qed.

  Lemma lru_add_elem c k x : x ∈ lru_keys (lru_add c k).1 → x = k ∨ x ∈ lru_keys c.
  Proof.
    unfold lru_add. case_bool_decide; cbn [fst snd lru_keys lru_cap].
    - rewrite elem_of_cons, elem_of_list_filter. naive_solver.
    - case_bool_decide; cbn [fst lru_keys].
      + intros Hx%removelast_elem. by apply elem_of_cons.
      + apply elem_of_cons.
  Qed.

  Lemma lru_add_self c k : 0 < lru_cap c → k ∈ lru_keys (lru_add c k).1.
  Proof.
    intros Hc. unfold lru_add. case_bool_decide; cbn [fst snd lru_keys lru_cap]; [apply elem_of_list_here|].
    case_bool_decide as Hl; cbn [fst lru_keys]; [|apply elem_of_list_here].
    cbn. cbn in Hl. destruct (lru_keys c); [cbn in Hl; lia|apply elem_of_list_here].
  Qed.

  Lemma lru_add_wf c k : 0 < lru_cap c → lru_wf c → lru_wf (lru_add c k).1.
  Proof.
    intros Hc [Hn Hl]. unfold lru_add. case_bool_decide as Hk; cbn [fst snd lru_keys lru_cap].
    - split; cbn.
      + constructor; [|by apply NoDup_filter]. rewrite elem_of_list_filter. naive_solver.
      + cut (length (filter (λ x, x ≠ k) (lru_keys c)) < length (lru_keys c)); [lia|].
        clear -Hk. induction (lru_keys c) as [|y l IH]; [by apply elem_of_nil in Hk|].
        rewrite filter_cons. case_decide.
        * cbn. apply elem_of_cons in Hk as [->|Hk]; [done|]. specialize (IH Hk). lia.
        * cbn. pose proof (filter_length (λ x, x ≠ k) l). lia.
    - case_bool_decide as Hb; cbn [fst]; split; cbn [lru_keys lru_cap].
      + apply removelast_NoDup. by constructor.
      + rewrite removelast_firstn_len, take_length. cbn. lia.
      + by constructor.
      + cbn in *. lia.
  Qed.

  (** A key is evicted only when the cache is full; it was in the cache, is not the
      key being added and is gone afterwards. *)
  Lemma lru_add_evicted c k e :
    0 < lru_cap c → lru_wf c → (lru_add c k).2 = Some e →
    e ∈ lru_keys c ∧ e ≠ k ∧ e ∉ lru_keys (lru_add c k).1 ∧ length (lru_keys c) = lru_cap c ∧ k ∉ lru_keys c.
  Proof.
    intros Hc [Hn Hl]. unfold lru_add. case_bool_decide as Hk; cbn [fst snd lru_keys lru_cap]; [discriminate|].
    case_bool_decide as Hb; cbn [fst snd lru_keys]; [|discriminate].
    intros He. cbn in Hb.
    assert (Hnd : NoDup (k :: lru_keys c)) by by constructor.
    assert (Hin : e ∈ lru_keys c).
    { destruct (lru_keys c) as [|y l] eqn:E; [cbn in Hb; lia|].
      change (last (y :: l) = Some e) in He.
      apply last_split in He. rewrite He. apply elem_of_app. right. by apply elem_of_list_singleton. }
    split; [done|]. split; [by intros ->|]. split; [|split; [lia|done]].
    apply last_split in He. rewrite He in Hnd. apply NoDup_app in Hnd as (_ & H & _).
    intros Hx. apply (H e Hx). by apply elem_of_list_singleton.
  Qed.

  Lemma lru_add_no_evict c k : length (lru_keys c) < lru_cap c ∨ k ∈ lru_keys c → (lru_add c k).2 = None.
  Proof.
    intros H. unfold lru_add. case_bool_decide; [done|]. rewrite bool_decide_eq_false_2; [done|].
    cbn. destruct H; [lia|done].
  Qed.

  Lemma lru_add_keep c k x :
    (lru_add c k).2 = None → x ∈ lru_keys c → x ∈ lru_keys (lru_add c k).1.
  Proof.
    unfold lru_add. case_bool_decide as Hk; cbn [fst snd lru_keys lru_cap].
    - intros _ Hx. rewrite elem_of_cons, elem_of_list_filter. destruct (decide (x = k)); naive_solver.
    - case_bool_decide as Hb; cbn [fst snd lru_keys].
      + intros Hn. exfalso. destruct (lru_keys c) as [|y l]; [done|].
        revert Hn. change (last (y :: l) ≠ None). intros Hn%last_None. done.
      + intros _ Hx. by apply elem_of_list_further.
  Qed.

  (** Whatever was present and is not the evicted key stays. *)
  Lemma lru_add_stay c k x :
    x ∈ lru_keys c → (lru_add c k).2 ≠ Some x → x ∈ lru_keys (lru_add c k).1.
  Proof.
    intros Hx Hne. destruct ((lru_add c k).2) as [e|] eqn:E; [|by apply lru_add_keep].
    revert E Hne. unfold lru_add. case_bool_decide as Hk; cbn [fst snd lru_keys lru_cap]; [discriminate|].
    case_bool_decide as Hb; cbn [fst snd lru_keys]; [|discriminate].
    intros He Hne. assert (Hx' : x ∈ k :: lru_keys c) by by apply elem_of_list_further.
    rewrite (last_split _ _ He) in Hx'. apply elem_of_app in Hx' as [?|?%elem_of_list_singleton]; [done|].
    congruence.
  Qed.

  Lemma lru_add_len c k : 0 < lru_cap c →
    length (lru_keys c) ≤ lru_cap c →
    lru_wf c →
    lru_len (lru_add c k).1 = if bool_decide (k ∈ lru_keys c) then lru_len c else min (S (lru_len c)) (lru_cap c).
  Proof.
    intros Hc Hle [Hn Hl]. unfold lru_add, lru_len. case_bool_decide as Hk; cbn [fst snd lru_keys lru_cap].
    - apply elem_of_list_split in Hk as (l1 & l2 & E). rewrite E in *.
      apply NoDup_app in Hn as (Hn1 & Hd & Hn2). apply NoDup_cons in Hn2 as [Hk2 Hn2].
      rewrite filter_app, filter_cons. rewrite decide_False by naive_solver.
      assert (∀ l : list K, k ∉ l → filter (λ x, x ≠ k) l = l) as Hf.
      { intros l Hkl. induction l as [|y l IH]; [done|].
        rewrite filter_cons, decide_True by (intros ->; apply Hkl, elem_of_list_here).
        f_equal. apply IH. intros ?. apply Hkl. by apply elem_of_list_further. }
      rewrite !Hf; [|done|]; cbn [length]; rewrite ?app_length; cbn [length]; [lia|]. intros H1. apply (Hd k H1). apply elem_of_list_here.
    - case_bool_decide as Hb; cbn [fst lru_keys].
      + rewrite removelast_firstn_len, take_length. cbn [length] in *.
        unfold lru_len in *. lia.
      + cbn [length] in *. lia.
  Qed.
End lru.
