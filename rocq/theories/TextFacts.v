(** Facts about the text functions. *)
From Verif Require Import Base Types Avro GoText.
From Coq Require Decimal DecimalPos.

Lemma split_no_sep c s : c ∉ s → split_byte c s = [s].
Proof.
  induction s as [|b s IH]; intros H; cbn [split_byte]; [done|].
  rewrite bool_decide_eq_false_2 by (intros ->; apply H; left). rewrite IH; [done|]. intros Hin. apply H. by right.
Qed.
Lemma split_join_cons c x s : c ∉ x → split_byte c (x ++ c :: s) = x :: split_byte c s.
Proof.
  induction x as [|b x IH]; intros H; cbn [app split_byte].
  - by rewrite bool_decide_eq_true_2.
  - rewrite bool_decide_eq_false_2 by (intros ->; apply H; left). rewrite IH; [done|]. intros Hin. apply H. by right.
Qed.
Lemma split_of_join c l : l ≠ [] → Forall (λ x, c ∉ x) l → split_byte c (join_byte c l) = l.
Proof.
  intros Hne H. induction H as [|x l Hx Hl IH]; [done|]. cbn [join_byte]. destruct l as [|y l].
  - by apply split_no_sep.
  - rewrite split_join_cons by done. f_equal. by apply IH.
Qed.

Lemma digits_all d : Forall (λ b, (48 ≤ byte_N b ∧ byte_N b ≤ 57)%N) (digits_text d).
Proof. induction d; cbn [digits_text]; constructor; try done; vm_compute; split; discriminate. Qed.
Lemma read_digits_pos d p : read_digits (Npos p) (digits_text d) = Some (Npos (Pos.of_uint_acc d p)).
Proof.
  revert p; induction d as [|d IH|d IH|d IH|d IH|d IH|d IH|d IH|d IH|d IH|d IH]; intros q; [done|..].
  all: cbn [Pos.of_uint_acc]; rewrite <- IH; cbn [digits_text read_digits].
  all: match goal with |- (if ?c then _ else _) = _ => replace c with true by (vm_compute; reflexivity) end.
  all: f_equal; unfold byte_N; cbn [Byte.to_N]; lia.
Qed.
Lemma read_digits_zero d : read_digits 0 (digits_text d) = Some (Pos.of_uint d).
Proof.
  induction d as [|d IH|d IH|d IH|d IH|d IH|d IH|d IH|d IH|d IH|d IH]; [done|..].
  all: cbn [Pos.of_uint]; cbn [digits_text read_digits].
  all: match goal with |- (if ?c then _ else _) = _ => replace c with true by (vm_compute; reflexivity) end.
  1: exact IH.
  all: rewrite <- read_digits_pos; reflexivity.
Qed.
Lemma digits_pos p : read_digits 0 (digits_text (Pos.to_uint p)) = Some (Npos p).
Proof. rewrite read_digits_zero. f_equal. apply DecimalPos.Unsigned.of_to. Qed.
Lemma digits_ne p : digits_text (Pos.to_uint p) ≠ [].
Proof. intros E. pose proof (digits_pos p) as H. rewrite E in H. done. Qed.
Lemma digit_not d b : b ∈ digits_text d → b ≠ x2d ∧ b ≠ x2b ∧ b ≠ x3b ∧ b ≠ x3d.
Proof.
  intros Hin. pose proof (digits_all d) as H. rewrite Forall_forall in H. specialize (H b Hin).
  split; [|split; [|split]]; intros ->; vm_compute in H; destruct H as [H1 H2]; first [by apply H1|by apply H2].
Qed.

Lemma atoi_int_text z : in_int64 z → atoi (int_text z) = Some z.
Proof.
  intros Hz. destruct z as [|p|p]; cbn [int_text].
  - reflexivity.
  - unfold atoi. pose proof (digits_pos p) as Hp. pose proof (digit_not (Pos.to_uint p)) as Hd. pose proof (digits_ne p).
    destruct (digits_text (Pos.to_uint p)) as [|b r]; [done|]. destruct (Hd b) as (H1 & H2 & _); [left|].
    rewrite (bool_decide_eq_false_2 (b = x2d)), (bool_decide_eq_false_2 (b = x2b)) by done.
    rewrite Hp. cbn [mbind option_bind]. by rewrite bool_decide_eq_true_2.
  - unfold atoi. rewrite bool_decide_eq_true_2 by done. pose proof (digits_pos p) as Hp. pose proof (digits_ne p).
    destruct (digits_text (Pos.to_uint p)) as [|b r]; [done|]. rewrite Hp. cbn [mbind option_bind]. by rewrite bool_decide_eq_true_2.
Qed.
Lemma int_text_seps z : x3b ∉ int_text z ∧ x3d ∉ int_text z.
Proof.
  assert (H : ∀ d, x3b ∉ digits_text d ∧ x3d ∉ digits_text d).
  { intros d. split; intros Hin; apply digit_not in Hin; tauto. }
  destruct z as [|p|p]; cbn [int_text]; [split; by intros ?%elem_of_list_singleton|apply H|].
  split; (intros [?|Hin]%elem_of_cons; [done|]; by apply H in Hin).
Qed.
