(** Properties C07, C08, C09 and C10: the wire format. *)
From Verif Require Import Base Avro Wire SpecWire WireFacts.

(** C07.  Decoding an encoded header gives the header back, whatever order [es] the map
    entries were written in. *)
Theorem C07_header_roundtrip : ∀ b es,
  batch_ok b → es ≡ₚ map_to_list (b_updates b) → sized (length (encode_batch b es)) →
  decode_batch (encode_batch b es) = Some b.
Proof. exact batch_roundtrip. Qed.
Print Assumptions C07_header_roundtrip.

(** C08.  The same for sub-batch records. *)
Theorem C08_sub_batch_roundtrip : ∀ deletes updates es,
  es ≡ₚ map_to_list updates → sized (length (encode_sub deletes es)) →
  decode_sub (encode_sub deletes es) = Some (SR deletes updates).
Proof. exact sub_roundtrip. Qed.
Print Assumptions C08_sub_batch_roundtrip.

(** C09.  Integers come back unchanged exactly when they fit in 32 bits ... *)
Theorem C09_int_exact : ∀ x, decode_int (avro_int x) = Some x ↔ in_int32 x.
Proof. exact int_exact. Qed.
Print Assumptions C09_int_exact.

(** ... and otherwise reduced modulo 2^32 into that range. *)
Theorem C09_int_wraps : ∀ x, ∃ y,
  decode_int (avro_int x) = Some y ∧ in_int32 y ∧ (y mod 2 ^ 32 = x mod 2 ^ 32)%Z.
Proof. intros x. exists (int32 x). split; [apply int_roundtrip|]. apply int_wraps, int_roundtrip. Qed.
Print Assumptions C09_int_wraps.

(** C10.  Different messages have different keys. *)
Theorem C10_keys_injective : ∀ k k', kind_ok k → kind_ok k' → key_of k = key_of k' → k = k'.
Proof. exact key_inj. Qed.
Print Assumptions C10_keys_injective.

(** C10.  The slices taken by the consumer (consumer.go:107-109,128,138,287,375) give back
    the parts of the key. *)
Theorem C10_keys_recovered : ∀ k, kind_ok k →
  bytes_hash (take 32 (drop 1 (key_of k))) = kind_hash k ∧
  match k with
  | KSubHead _ id => bytes_hash (drop 33 (key_of k)) = id
  | KSubMsg _ id i => bytes_hash (take 32 (drop 33 (key_of k))) = id ∧ decode_int (drop 65 (key_of k)) = Some i
  | KUpdate _ p | KDelete _ p => drop 33 (key_of k) = p
  | _ => True
  end.
Proof. exact key_recovered. Qed.
Print Assumptions C10_keys_recovered.

(** * Concrete cases *)

(** More than one block of map entries (100 per block), all kinds of records. *)
Definition ex07_updates : gmap bytes batch_record :=
  list_to_map ((([x61; x2f], BR [] 7 0 false)) :: ([x62], BR [] 0 (2 ^ 255) false) :: ([x63], BR [] 0 0 true) ::
    map (λ i, ([byte_of i; x7a], BR [byte_of i; x01] 0 0 false)) (map N.of_nat (seq 0 110))).
Definition ex07 : batch := Batch (-5) [x01; x00] 12345 ex07_updates.
Example C07_case :
  batch_ok ex07 ∧ size (b_updates ex07) = 113 ∧
  let es := reverse (map_to_list (b_updates ex07)) in
  es ≡ₚ map_to_list (b_updates ex07) ∧ sized (length (encode_batch ex07 es)) ∧
  (λ b, size (b_updates b)) <$> decode_batch (encode_batch ex07 es) = Some 113.
Proof.
  split; [|split; [vm_compute; reflexivity|split; [apply reverse_Permutation|split]]].
  - split; [unfold in_int64; cbn; lia|]. split; [done|].
    assert (H : forallb (λ e : bytes * batch_record, bool_decide (-2147483648 <= br_count e.2 < 2147483648)%Z && (br_sub e.2 <? 2 ^ 256)%N)
                  (map_to_list ex07_updates) = true) by (vm_compute; reflexivity).
    intros k r Hr. rewrite forallb_forall in H. apply elem_of_map_to_list, elem_of_list_In, H in Hr.
    apply andb_true_iff in Hr as [H1%bool_decide_eq_true H2%N.ltb_lt]. split; [exact H1|exact H2].
  - unfold sized. vm_compute. reflexivity.
  - vm_compute. reflexivity.
Qed.
Example C08_case : decode_sub (encode_sub [[x61]; []; [x62; x63]] [([x6b], [x76]); ([x6c], [])]) =
  Some (SR [[x61]; []; [x62; x63]] {[ [x6b] := [x76]; [x6c] := [] ]}).
Proof.
  apply sub_roundtrip; [|unfold sized; vm_compute; reflexivity].
  rewrite map_to_list_insert by (vm_compute; reflexivity). by rewrite map_to_list_singleton.
Qed.
Example C09_case : decode_int (avro_int (-2147483648)) = Some (-2147483648)%Z ∧
  decode_int (avro_int 5000000000) = Some 705032704%Z.
Proof. split; vm_compute; reflexivity. Qed.
Example C10_case : kind_ok (KSubMsg 5 (2 ^ 255) 300) ∧ length (key_of (KSubMsg 5 (2 ^ 255) 300)) = 67.
Proof. split; [|vm_compute; reflexivity]. split; [done|]. split; [done|]. unfold in_int32. lia. Qed.
