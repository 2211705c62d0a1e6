(** Round-trip lemmas for the wire format. *)
From Verif Require Import Base Avro.

Lemma byte_N_of n : (n < 256)%N → byte_N (byte_of n) = n.
Proof.
  intros H. unfold byte_of, byte_N. destruct (Byte.of_N n) as [b|] eqn:E.
  - cbn. by apply Byte.to_of_N.
  - apply Byte.of_N_None_iff in E. lia.
Qed.
Lemma byte_of_N b : byte_of (byte_N b) = b.
Proof. unfold byte_of, byte_N. by rewrite Byte.of_to_N. Qed.
Lemma byte_N_lt b : (byte_N b < 256)%N.
Proof. unfold byte_N. pose proof (Byte.to_N_bounded b). lia. Qed.

Lemma varint_S k n : varint (S k) n =
  if (n <? 128)%N then [byte_of n] else byte_of (n mod 128 + 128)%N :: varint k (n / 128)%N.
Proof. done. Qed.
Lemma read_varint_S k b l : read_varint (S k) (b :: l) =
  if (byte_N b <? 128)%N then Some (byte_N b, l)
  else '(v, r) ← read_varint k l; Some (byte_N b - 128 + 128 * v, r)%N.
Proof. done. Qed.

Lemma read_varint_ok k n l : (n < 128 ^ N.of_nat (S k))%N → read_varint (S k) (varint (S k) n ++ l) = Some (n, l).
Proof.
  revert n; induction k as [|k IH]; intros n Hn; rewrite varint_S.
  - change (128 ^ N.of_nat 1)%N with 128%N in Hn. rewrite (proj2 (N.ltb_lt _ _) Hn). cbn [app]. rewrite read_varint_S.
    rewrite byte_N_of by lia. by rewrite (proj2 (N.ltb_lt _ _) Hn).
  - destruct (n <? 128)%N eqn:E.
    + apply N.ltb_lt in E. cbn [app]. rewrite read_varint_S. rewrite byte_N_of by lia. by rewrite (proj2 (N.ltb_lt _ _) E).
    + apply N.ltb_ge in E.
      pose proof (N.mod_lt n 128 ltac:(lia)) as Hm.
      pose proof (N.div_mod n 128 ltac:(lia)) as Hd.
      assert (Hq : (n / 128 < 128 ^ N.of_nat (S k))%N).
      { apply N.div_lt_upper_bound; [lia|]. rewrite <- N.pow_succ_r'. by rewrite <- Nat2N.inj_succ. }
      remember (n mod 128)%N as r. remember (n / 128)%N as q.
      rewrite <- app_comm_cons, read_varint_S, byte_N_of by lia.
      rewrite (proj2 (N.ltb_ge _ _)) by lia.
      rewrite IH by done. cbn [mbind option_bind]. replace (r + 128 - 128 + 128 * q)%N with n by lia. done.
Qed.

Lemma unzigzag_zigzag x : unzigzag (zigzag x) = x.
Proof.
  unfold unzigzag, zigzag. destruct (x <? 0)%Z eqn:E.
  - apply Z.ltb_lt in E. set (k := Z.to_N (- x - 1)).
    assert (Z.to_N (-2 * x - 1) = 2 * k + 1)%N as -> by lia.
    rewrite N.even_add_mul_2 || idtac.
    replace (N.even (2 * k + 1)) with false by (rewrite N.even_add, N.even_mul; done).
    replace ((2 * k + 1) / 2)%N with k; [lia|]. apply N.div_unique with (r := 1%N); lia.
  - apply Z.ltb_ge in E. set (k := Z.to_N x).
    assert (Z.to_N (2 * x) = 2 * k)%N as -> by lia.
    replace (N.even (2 * k)) with true by (rewrite N.even_mul; done).
    replace ((2 * k) / 2)%N with k; [lia|]. apply N.div_unique with (r := 0%N); lia.
Qed.
Lemma zigzag_64 x : in_int64 x → (zigzag x < 2 ^ 64)%N.
Proof.
  unfold in_int64, zigzag. intros H. destruct (x <? 0)%Z eqn:E.
  - apply Z.ltb_lt in E. lia.
  - apply Z.ltb_ge in E. lia.
Qed.
Lemma zigzag_32 x : in_int32 x → (zigzag x < 2 ^ 32)%N.
Proof.
  unfold in_int32, zigzag. intros H. destruct (x <? 0)%Z eqn:E.
  - apply Z.ltb_lt in E. lia.
  - apply Z.ltb_ge in E. lia.
Qed.

Lemma read_long_ok x l : in_int64 x → read_long (write_long x ++ l) = Some (x, l).
Proof.
  intros H. apply zigzag_64 in H. unfold read_long, write_long. rewrite read_varint_ok.
  - cbn [mbind option_bind]. by rewrite N.mod_small, unzigzag_zigzag.
  - eapply N.lt_trans; [exact H|]. vm_compute. done.
Qed.
Lemma read_int_ok x l : in_int32 x → read_int (write_int x ++ l) = Some (x, l).
Proof.
  intros H. apply zigzag_32 in H. unfold read_int, write_int. rewrite read_varint_ok.
  - cbn [mbind option_bind]. by rewrite N.mod_small, unzigzag_zigzag.
  - eapply N.lt_trans; [exact H|]. vm_compute. done.
Qed.
Lemma int32_range x : in_int32 (int32 x).
Proof.
  unfold in_int32, int32, to_signed. pose proof (Z.mod_pos_bound (x + 2 ^ (32 - 1)) (2 ^ 32) ltac:(lia)). lia.
Qed.
Lemma int32_id x : in_int32 x → int32 x = x.
Proof. unfold in_int32, int32, to_signed. intros H. rewrite Z.mod_small; lia. Qed.
Lemma int32_mod x : (int32 x mod 2 ^ 32 = x mod 2 ^ 32)%Z.
Proof.
  unfold int32, to_signed.
  rewrite Zminus_mod, Z.mod_mod, <- Zminus_mod by lia. f_equal. lia.
Qed.

Lemma read_bool_ok b l : read_bool (write_bool b ++ l) = Some (b, l).
Proof. by destruct b. Qed.
Lemma read_fixed_ok n b l : length b = n → read_fixed n (b ++ l) = Some (b, l).
Proof.
  intros <-. unfold read_fixed. rewrite bool_decide_eq_true_2 by (rewrite app_length; lia).
  by rewrite take_app, drop_app.
Qed.
Lemma sized_le n m : n ≤ m → sized m → sized n.
Proof. unfold sized. lia. Qed.
Lemma sized_64 n : sized n → in_int64 (Z.of_nat n).
Proof. unfold sized, in_int64. lia. Qed.
Lemma sized_64' n : sized n → in_int64 (- Z.of_nat n).
Proof. unfold sized, in_int64. lia. Qed.

Lemma read_bytes_ok b l : sized (length b) → read_bytes (write_bytes b ++ l) = Some (b, l).
Proof.
  intros H. unfold read_bytes, write_bytes. rewrite <- app_assoc, read_long_ok by (by apply sized_64).
  cbn [mbind option_bind]. rewrite bool_decide_eq_true_2 by (rewrite app_length; lia).
  apply read_fixed_ok. lia.
Qed.

Lemma write_long_pos x : 0 < length (write_long x).
Proof. unfold write_long. rewrite varint_S. destruct (_ <? _)%N; cbn; lia. Qed.
Lemma write_bytes_len b : length b < length (write_bytes b).
Proof. unfold write_bytes. rewrite app_length. pose proof (write_long_pos (Z.of_nat (length b))). lia. Qed.

Section blocks.
  Context {A : Type} (enc : A → bytes) (dec : bytes → option (A * bytes)) (P : A → Prop).
  Context (Hrt : ∀ x l, P x → dec (enc x ++ l) = Some (x, l)) (Hpos : ∀ x, 0 < length (enc x)).

  Lemma read_n_ok xs l : Forall P xs → read_n dec (length xs) (concat (map enc xs) ++ l) = Some (xs, l).
  Proof.
    induction 1 as [|x xs Hx _ IH]; cbn [length read_n map concat]; [done|].
    rewrite <- app_assoc, Hrt by done. cbn [mbind option_bind]. by rewrite IH.
  Qed.
  Lemma concat_len xs : length xs ≤ length (concat (map enc xs)).
  Proof. induction xs as [|x xs IH]; cbn; [lia|]. rewrite app_length. specialize (Hpos x). lia. Qed.

  Lemma read_block_ok xs k l :
    Forall P xs → xs ≠ [] → sized (length (write_block enc xs)) →
    read_blocks_aux dec (S k) (write_block enc xs ++ l) =
      ('(ys, r) ← read_blocks_aux dec k l; Some (xs ++ ys, r)).
  Proof.
    intros HP Hne Hs. unfold write_block in *. set (d := concat (map enc xs)) in *.
    assert (Hlen : length xs ≤ length d) by apply concat_len.
    assert (0 < length xs) by (destruct xs; [done|cbn; lia]).
    assert (Hd : sized (length d)) by (eapply sized_le; [|exact Hs]; rewrite app_length; lia).
    cbn [read_blocks_aux]. unfold write_block_header. rewrite bool_decide_eq_true_2 by lia.
    unfold read_block_header. rewrite <- !app_assoc.
    rewrite read_long_ok by (apply sized_64'; by eapply sized_le). cbn [mbind option_bind].
    rewrite bool_decide_eq_true_2 by lia.
    rewrite read_long_ok by (by apply sized_64). cbn [mbind option_bind].
    rewrite bool_decide_eq_false_2 by lia.
    rewrite bool_decide_eq_false_2 by (rewrite app_length; lia).
    replace (Z.to_nat (- - Z.of_nat (length xs))) with (length xs) by lia.
    unfold d. rewrite read_n_ok by done. done.
  Qed.

  Lemma chunks_concat k (xs : list A) : length xs ≤ k → concat (chunks k xs) = xs.
  Proof.
    revert xs; induction k as [|k IH]; intros xs Hk; cbn [chunks].
    - by destruct xs; [|cbn in Hk; lia].
    - destruct xs as [|x xs]; [done|]. cbn [concat]. rewrite IH; [apply take_drop|].
      rewrite drop_length. unfold block_length. cbn [length] in *. lia.
  Qed.
  Lemma chunks_ne k (xs : list A) : Forall (λ c, c ≠ []) (chunks k xs).
  Proof.
    revert xs; induction k as [|k IH]; intros xs; cbn [chunks]; [constructor|].
    destruct xs as [|x xs]; constructor; [done|apply IH].
  Qed.

  Lemma read_chunks_ok cs k l :
    Forall (Forall P) cs → Forall (λ c, c ≠ []) cs → length cs < k →
    sized (length (concat (map (write_block enc) cs))) →
    read_blocks_aux dec k (concat (map (write_block enc) cs) ++ write_block_header 0 0 ++ l) = Some (concat cs, l).
  Proof.
    intros HP. revert k; induction HP as [|c cs Hc _ IH]; intros k Hne Hk Hs.
    - destruct k as [|k]; [cbn in Hk; lia|]. cbn [map concat app read_blocks_aux].
      unfold write_block_header. rewrite bool_decide_eq_false_2 by lia.
      unfold read_block_header. rewrite read_long_ok by (unfold in_int64; lia). done.
    - destruct k as [|k]; [cbn in Hk; lia|]. apply Forall_cons in Hne as [Hn Hne].
      cbn [map concat] in *. rewrite app_length in Hs. rewrite <- app_assoc, read_block_ok; [|done|done|eapply sized_le; [|exact Hs]; lia].
      rewrite IH; [done|done|cbn in Hk; lia|eapply sized_le; [|exact Hs]; lia].
  Qed.

  Lemma write_block_len c : c ≠ [] → 0 < length (write_block enc c).
  Proof.
    intros Hc. unfold write_block. rewrite app_length. pose proof (concat_len c). destruct c; [done|]. cbn [length] in *. lia.
  Qed.

  Lemma read_blocks_ok xs l :
    Forall P xs → sized (length (write_blocks enc xs)) →
    read_blocks dec (write_blocks enc xs ++ l) = Some (xs, l).
  Proof.
    intros HP Hs. unfold read_blocks, write_blocks in *. rewrite <- app_assoc.
    rewrite app_length in Hs.
    rewrite read_chunks_ok.
    - by rewrite chunks_concat.
    - rewrite Forall_forall. intros c Hc. rewrite Forall_forall. intros x Hx.
      rewrite Forall_forall in HP. apply HP. rewrite <- (chunks_concat (length xs) xs) by lia.
      apply elem_of_list_In, in_concat. exists c. by rewrite <- !elem_of_list_In.
    - apply chunks_ne.
    - rewrite !app_length.
      assert (0 < length (write_block_header 0 0)) by (vm_compute; lia).
      assert (length (chunks (length xs) xs) ≤ length (concat (map (write_block enc) (chunks (length xs) xs)))); [|lia].
      generalize (chunks_ne (length xs) xs). generalize (chunks (length xs) xs).
      induction 1 as [|c cs Hc _ IH]; cbn; [lia|]. rewrite app_length. pose proof (write_block_len c Hc). lia.
    - eapply sized_le; [|exact Hs]. lia.
  Qed.

  Lemma blocks_elem_len xs x : x ∈ xs → length (enc x) ≤ length (write_blocks enc xs).
  Proof.
    intros Hx. unfold write_blocks. rewrite app_length.
    assert (Hc : ∃ c, c ∈ chunks (length xs) xs ∧ x ∈ c).
    { rewrite <- (chunks_concat (length xs) xs) in Hx by lia. apply elem_of_list_In, in_concat in Hx as (c & H1 & H2).
      exists c. by rewrite !elem_of_list_In. }
    destruct Hc as (c & Hc & Hxc).
    assert (length (enc x) ≤ length (write_block enc c)).
    { unfold write_block. rewrite app_length.
      apply elem_of_list_split in Hxc as (l1 & l2 & ->). rewrite map_app, concat_app. cbn.
      rewrite !app_length. lia. }
    apply elem_of_list_split in Hc as (l1 & l2 & ->). rewrite map_app, concat_app. cbn. rewrite !app_length. lia.
  Qed.
End blocks.

Lemma read_entry_ok {V} (enc : V → bytes) dec (P : V → Prop) (Hrt : ∀ x l, P x → dec (enc x ++ l) = Some (x, l)) e l :
  sized (length e.1) → P e.2 → read_entry dec (write_entry enc e ++ l) = Some (e, l).
Proof.
  intros Hk Hv. unfold read_entry, write_entry. rewrite <- app_assoc, read_bytes_ok by done.
  cbn [mbind option_bind]. rewrite Hrt by done. by destruct e.
Qed.

Lemma map_of_entries_ok {V} (l : list (bytes * V)) (m : gmap bytes V) : l ≡ₚ map_to_list m → map_of_entries l = m.
Proof.
  intros Hl. assert (Hn : NoDup l.*1) by (rewrite Hl; apply NoDup_fst_map_to_list).
  assert (Hg : ∀ (l : list (bytes * V)) (m0 : gmap bytes V), NoDup l.*1 → (∀ k, k ∈ l.*1 → m0 !! k = None) →
    foldl (λ m e, <[e.1 := e.2]> m) m0 l = (list_to_map l : gmap bytes V) ∪ m0).
  { clear. induction l as [|[k v] l IH]; intros m0 Hn Hk; cbn.
    - by rewrite (left_id_L ∅ (∪)).
    - cbn in Hn. apply NoDup_cons in Hn as [Hk' Hn]. rewrite IH; [|done|].
      + rewrite <- insert_union_r by (by apply not_elem_of_list_to_map). by rewrite insert_union_l.
      + intros k' Hin. rewrite lookup_insert_ne by (intros ->; done). apply Hk. by right. }
  unfold map_of_entries. rewrite Hg; [|done|intros; apply lookup_empty].
  rewrite (right_id_L ∅ (∪)). rewrite <- (list_to_map_to_list m). by apply list_to_map_proper.
Qed.

(** Big-endian numbers. *)
Lemma le_fixed_length k n : length (le_fixed k n) = k.
Proof. revert n; induction k; intros n; cbn; auto. Qed.
Lemma le_N_fixed k n : (n < 256 ^ N.of_nat k)%N → le_N (le_fixed k n) = n.
Proof.
  revert n; induction k as [|k IH]; intros n Hn; cbn [le_fixed le_N].
  - change (256 ^ N.of_nat 0)%N with 1%N in Hn. lia.
  - pose proof (N.mod_lt n 256 ltac:(lia)). pose proof (N.div_mod n 256 ltac:(lia)).
    assert (Hq : (n / 256 < 256 ^ N.of_nat k)%N).
    { apply N.div_lt_upper_bound; [lia|]. rewrite <- N.pow_succ_r'. by rewrite <- Nat2N.inj_succ. }
    remember (n mod 256)%N as r. remember (n / 256)%N as q.
    rewrite byte_N_of by lia. rewrite IH by done. lia.
Qed.
Lemma le_fixed_N l : le_fixed (length l) (le_N l) = l.
Proof.
  induction l as [|b l IH]; cbn [length le_fixed le_N]; [done|].
  pose proof (byte_N_lt b). f_equal.
  - rewrite <- (byte_of_N b) at 2. f_equal. symmetry. apply N.mod_unique with (q := le_N l); lia.
  - replace ((byte_N b + 256 * le_N l) / 256)%N with (le_N l); [done|].
    apply N.div_unique with (r := byte_N b); lia.
Qed.
Lemma le_N_bound l : (le_N l < 256 ^ N.of_nat (length l))%N.
Proof.
  induction l as [|b l IH]; cbn [length le_N]; [done|].
  rewrite Nat2N.inj_succ, N.pow_succ_r'. pose proof (byte_N_lt b). lia.
Qed.
Lemma le_min_N k n : (n < 2 ^ N.of_nat k)%N → le_N (le_min k n) = n.
Proof.
  revert n; induction k as [|k IH]; intros n Hn; cbn [le_min].
  - change (2 ^ N.of_nat 0)%N with 1%N in Hn. cbn. lia.
  - destruct (n =? 0)%N eqn:E; [apply N.eqb_eq in E; by subst|]. cbn [le_N].
    pose proof (N.mod_lt n 256 ltac:(lia)). pose proof (N.div_mod n 256 ltac:(lia)).
    rewrite Nat2N.inj_succ, N.pow_succ_r' in Hn.
    assert (Hq : (n / 256 < 2 ^ N.of_nat k)%N) by (apply N.div_lt_upper_bound; lia).
    remember (n mod 256)%N as r. remember (n / 256)%N as q.
    rewrite byte_N_of by lia. rewrite IH by done. lia.
Qed.

Lemma hash_bytes_length h : length (hash_bytes h) = 32.
Proof. unfold hash_bytes. by rewrite rev_length, le_fixed_length. Qed.
Lemma bytes_hash_bytes h : hash_ok h → bytes_hash (hash_bytes h) = h.
Proof.
  intros H. unfold bytes_hash, hash_bytes. rewrite rev_involutive, firstn_all2 by (rewrite le_fixed_length; lia).
  apply le_N_fixed. unfold hash_ok in H. replace (256 ^ N.of_nat 32)%N with (2 ^ 256)%N by (vm_compute; done). done.
Qed.
Lemma hash_bytes_hash b : length b = 32 → hash_bytes (bytes_hash b) = b.
Proof.
  intros H. unfold bytes_hash, hash_bytes. rewrite firstn_all2 by (rewrite rev_length; lia).
  rewrite <- H at 1. rewrite <- rev_length, le_fixed_N. apply rev_involutive.
Qed.
Lemma bytes_hash_ok b : hash_ok (bytes_hash b).
Proof.
  unfold bytes_hash, hash_ok. eapply N.lt_le_trans; [apply le_N_bound|].
  replace (2 ^ 256)%N with (256 ^ 32)%N by (vm_compute; done).
  apply N.pow_le_mono_r; [lia|]. rewrite take_length. lia.
Qed.
Lemma hash_bytes_inj h h' : hash_ok h → hash_ok h' → hash_bytes h = hash_bytes h' → h = h'.
Proof. intros H H' E. apply (f_equal bytes_hash) in E. by rewrite !bytes_hash_bytes in E. Qed.
Lemma bigint_roundtrip n : bytes_bigint (bigint_bytes n) = n.
Proof.
  unfold bytes_bigint, bigint_bytes. rewrite rev_involutive. apply le_min_N.
  destruct n as [|p]; [done|]. apply N.size_gt || idtac.
  replace (N.of_nat (N.size_nat (N.pos p))) with (N.size (N.pos p)).
  - apply N.size_gt.
  - cbn [N.size N.size_nat]. induction p as [p IH|p IH|]; cbn [Pos.size Pos.size_nat]; lia.
Qed.
