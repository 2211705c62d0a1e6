(** Proofs for C07, C08, C09, C10. *)
From Verif Require Import Base Avro AvroFacts Wire SpecWire.

Lemma dec_record_ok r l : record_ok r → sized (length (br_value r)) → dec_record (enc_record r ++ l) = Some (r, l).
Proof.
  intros [Hc Hs] Hl. unfold dec_record, enc_record. rewrite <- !app_assoc.
  rewrite read_bytes_ok by done. cbn [mbind option_bind].
  rewrite int32_id, read_int_ok by done. cbn [mbind option_bind].
  rewrite read_bool_ok. cbn [mbind option_bind].
  rewrite read_fixed_ok by apply hash_bytes_length. cbn [mbind option_bind].
  rewrite bytes_hash_bytes by done. by destruct r.
Qed.

Lemma batch_roundtrip b es :
  batch_ok b → es ≡ₚ map_to_list (b_updates b) → sized (length (encode_batch b es)) →
  decode_batch (encode_batch b es) = Some b.
Proof.
  intros (Hn & Hp & Hr) Hes Hs. unfold decode_batch, encode_batch in *. rewrite !app_length in Hs.
  rewrite read_long_ok by done. cbn [mbind option_bind].
  rewrite read_bytes_ok. 2: { eapply sized_le; [|exact Hs]. pose proof (write_bytes_len (b_weight b)). lia. }
  cbn [mbind option_bind].
  rewrite read_fixed_ok by apply hash_bytes_length. cbn [mbind option_bind].
  rewrite <- (app_nil_r (write_blocks _ _)).
  rewrite (read_blocks_ok (write_entry enc_record) (read_entry dec_record)
    (λ e, sized (length e.1) ∧ record_ok e.2 ∧ sized (length (br_value e.2)))).
  - cbn [mbind option_bind]. rewrite bytes_hash_bytes by done. rewrite (map_of_entries_ok es (b_updates b)) by done.
    by destruct b.
  - intros e l (H1 & H2 & H3). apply (read_entry_ok enc_record dec_record (λ r, record_ok r ∧ sized (length (br_value r)))); [|done|done].
    intros x l' [? ?]. by apply dec_record_ok.
  - intros e. unfold write_entry. rewrite app_length. pose proof (write_bytes_len e.1). lia.
  - apply Forall_forall. intros [k r] Hin.
    assert (Hr' : record_ok r).
    { rewrite Hes in Hin. apply elem_of_map_to_list in Hin. by eapply Hr. }
    assert (Hlen : length (write_entry enc_record (k, r)) ≤ length (write_blocks (write_entry enc_record) es))
      by (by apply blocks_elem_len).
    remember (length (write_blocks _ _)) as n eqn:En in *. clear En.
    unfold write_entry, enc_record in Hlen. cbn [fst snd] in *. rewrite !app_length in Hlen.
    pose proof (write_bytes_len k). pose proof (write_bytes_len (br_value r)).
    split; [|split; [done|]]; (eapply sized_le; [|exact Hs]; lia).
  - eapply sized_le; [|exact Hs]. lia.
Qed.

Lemma sub_roundtrip ds us es :
  es ≡ₚ map_to_list us → sized (length (encode_sub ds es)) → decode_sub (encode_sub ds es) = Some (SR ds us).
Proof.
  intros Hes Hs. unfold decode_sub, encode_sub in *. rewrite app_length in Hs.
  rewrite (read_blocks_ok write_bytes read_bytes (λ d, sized (length d))).
  2: { intros x l Hx. by apply read_bytes_ok. }
  2: { intros x. pose proof (write_bytes_len x). lia. }
  2: { apply Forall_forall. intros d Hd. apply (blocks_elem_len write_bytes) in Hd.
       pose proof (write_bytes_len d). eapply sized_le; [|exact Hs]. lia. }
  2: { eapply sized_le; [|exact Hs]. lia. }
  cbn [mbind option_bind]. rewrite <- (app_nil_r (write_blocks (write_entry _) _)).
  rewrite (read_blocks_ok (write_entry write_bytes) (read_entry read_bytes) (λ e, sized (length e.1) ∧ sized (length e.2))).
  - cbn [mbind option_bind]. by rewrite (map_of_entries_ok es us).
  - intros e l [H1 H2]. apply (read_entry_ok write_bytes read_bytes (λ v, sized (length v))); [|done|done].
    intros x l' ?. by apply read_bytes_ok.
  - intros e. unfold write_entry. rewrite app_length. pose proof (write_bytes_len e.1). lia.
  - apply Forall_forall. intros [k v] Hin.
    assert (Hlen : length (write_entry write_bytes (k, v)) ≤ length (write_blocks (write_entry write_bytes) es))
      by (by apply blocks_elem_len).
    remember (length (write_blocks (write_entry _) _)) as n eqn:En in *. clear En.
    unfold write_entry in Hlen. cbn [fst snd] in *. rewrite app_length in Hlen.
    pose proof (write_bytes_len k). pose proof (write_bytes_len v).
    split; (eapply sized_le; [|exact Hs]; lia).
  - eapply sized_le; [|exact Hs]. lia.
Qed.

Lemma decode_int_app x l : in_int32 x → decode_int (avro_int x ++ l) = Some x.
Proof. intros H. unfold decode_int, avro_int. rewrite int32_id, read_int_ok by done. done. Qed.
Lemma int_roundtrip x : decode_int (avro_int x) = Some (int32 x).
Proof.
  unfold decode_int, avro_int. rewrite <- (app_nil_r (write_int _)), read_int_ok by apply int32_range. done.
Qed.
Lemma int_exact x : decode_int (avro_int x) = Some x ↔ in_int32 x.
Proof.
  rewrite int_roundtrip. split; [intros [= <-]; apply int32_range|]. intros H. by rewrite int32_id.
Qed.
Lemma int_wraps x y : decode_int (avro_int x) = Some y → in_int32 y ∧ (y mod 2 ^ 32 = x mod 2 ^ 32)%Z.
Proof. rewrite int_roundtrip. intros [= <-]. split; [apply int32_range|apply int32_mod]. Qed.

Lemma app_inj_len {A} (l1 l2 r1 r2 : list A) : length l1 = length l2 → l1 ++ r1 = l2 ++ r2 → l1 = l2 ∧ r1 = r2.
Proof. intros. by apply app_inj_1. Qed.
Lemma hash_app_inj h h' r r' : hash_ok h → hash_ok h' → hash_bytes h ++ r = hash_bytes h' ++ r' → h = h' ∧ r = r'.
Proof.
  intros H H' E. apply app_inj_len in E as [E1 E2]; [|by rewrite !hash_bytes_length].
  split; [by apply hash_bytes_inj|done].
Qed.
Lemma avro_int_inj i j : in_int32 i → in_int32 j → avro_int i = avro_int j → i = j.
Proof.
  intros Hi Hj E. apply (f_equal decode_int) in E. rewrite !int_roundtrip, !int32_id in E by done. congruence.
Qed.

Lemma key_inj k k' : kind_ok k → kind_ok k' → key_of k = key_of k' → k = k'.
Proof.
  intros [Hh Hk] [Hh' Hk'] E. destruct k, k'; cbn [kind_hash] in *; unfold key_of, get_key in E; try discriminate E;
    apply (f_equal tail) in E; cbn [concat tail] in E; apply hash_app_inj in E as [-> E]; try done.
  - apply hash_app_inj in E as [-> _]; done.
  - destruct Hk, Hk'. apply hash_app_inj in E as [-> E]; try done. rewrite !app_nil_r in E.
    apply avro_int_inj in E as ->; done.
  - rewrite !app_nil_r in E. by subst.
  - rewrite !app_nil_r in E. by subst.
Qed.

Lemma key_slices h t c : hash_ok h →
  let key := get_key t (hash_bytes h :: c) in
  head key = Some t ∧ 33 ≤ length key ∧ bytes_hash (take 32 (drop 1 key)) = h ∧ drop 33 key = concat c.
Proof.
  intros H key. replace key with (t :: hash_bytes h ++ concat c) by done. clear key. split; [done|]. split.
  - cbn [length]. rewrite app_length, hash_bytes_length. lia.
  - split.
    + change (drop 1 (t :: ?x)) with x. rewrite <- (hash_bytes_length h) at 1. rewrite take_app. by apply bytes_hash_bytes.
    + change (drop 33 (t :: hash_bytes h ++ concat c)) with (drop 32 (hash_bytes h ++ concat c)).
      rewrite <- (hash_bytes_length h) at 1. by rewrite drop_app.
Qed.

Lemma key_recovered k : kind_ok k →
  bytes_hash (take 32 (drop 1 (key_of k))) = kind_hash k ∧
  match k with
  | KSubHead _ id => bytes_hash (drop 33 (key_of k)) = id
  | KSubMsg _ id i => bytes_hash (take 32 (drop 33 (key_of k))) = id ∧ decode_int (drop 65 (key_of k)) = Some i
  | KUpdate _ p | KDelete _ p => drop 33 (key_of k) = p
  | _ => True
  end.
Proof.
  intros [Hh Hk]. destruct k; cbn [kind_hash key_of] in *;
    match goal with |- context [get_key ?t (_ :: ?c)] => destruct (key_slices h t c Hh) as (_ & _ & E1 & E2) end;
    rewrite ?E1, ?E2; (split; [done|]); cbn [concat]; rewrite ?app_nil_r; try done.
  - by apply bytes_hash_bytes.
  - destruct Hk as [Hid Hi].
    assert (Hl := hash_bytes_length id).
    split; [rewrite <- Hl, take_app; by apply bytes_hash_bytes|].
    change 65 with (33 + 32). rewrite <- drop_drop, E2. cbn [concat]. rewrite app_nil_r, <- Hl, drop_app.
    rewrite int_roundtrip. by rewrite int32_id.
Qed.
