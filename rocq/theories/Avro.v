(** The part of github.com/hamba/avro v1.6.6 (pinned in go.mod) used by delivery/types.go:
    writers as functions to bytes, readers as functions from bytes to a value and the rest.
    This is third-party code that is not in /repo: the definitions follow its documented wire
    format and are part of the trusted base (DESIGN.md).
    Simplification: a reader that runs out of input fails ([None]); the library reports
    io.EOF internally and Unmarshal then silently returns the partly filled value. *)
From Verif Require Import Base.

(** byte <-> number *)
Definition byte_of (n : N) : byte := default x00 (Byte.of_N n).
Definition byte_N (b : byte) : N := Byte.to_N b.

(** Variable-length encoding, 7 bits per byte, least significant group first. *)
Fixpoint varint (k : nat) (n : N) : bytes :=
  match k with
  | O => []
  | S k' => if (n <? 128)%N then [byte_of n]
            else byte_of (n mod 128 + 128)%N :: varint k' (n / 128)%N
  end.
Fixpoint read_varint (k : nat) (l : bytes) : option (N * bytes) :=
  match k, l with
  | S k', b :: l' =>
    if (byte_N b <? 128)%N then Some (byte_N b, l')
    else '(v, r) ← read_varint k' l'; Some (byte_N b - 128 + 128 * v, r)%N
  | _, _ => None
  end.

Definition zigzag (x : Z) : N := if (x <? 0)%Z then Z.to_N (-2 * x - 1) else Z.to_N (2 * x).
Definition unzigzag (n : N) : Z :=
  if N.even n then Z.of_N (n / 2) else (- Z.of_N (n / 2) - 1)%Z.

(** Go's conversions int64(x), int32(x): reduction modulo 2^64, 2^32 to the signed range. *)
Definition to_signed (bits : Z) (x : Z) : Z :=
  ((x + 2 ^ (bits - 1)) mod 2 ^ bits - 2 ^ (bits - 1))%Z.
Definition int32 (x : Z) : Z := to_signed 32 x.
Definition in_int32 (x : Z) : Prop := (- 2 ^ 31 <= x < 2 ^ 31)%Z.
Definition in_int64 (x : Z) : Prop := (- 2 ^ 63 <= x < 2 ^ 63)%Z.
(** Lengths of Go objects are far below 2^63; encodings are assumed shorter than 2^62 bytes. *)
Definition sized (n : nat) : Prop := (Z.of_nat n < 2 ^ 62)%Z.

(** Writer.WriteLong (int64), Writer.WriteInt (int32) *)
Definition write_long (x : Z) : bytes := varint 10 (zigzag x).
Definition write_int (x : Z) : bytes := varint 5 (zigzag x).
(** Reader.ReadLong, Reader.ReadInt: at most 10 / 5 bytes, else an error. *)
Definition read_long (l : bytes) : option (Z * bytes) :=
  '(n, r) ← read_varint 10 l; Some (unzigzag (n mod 2 ^ 64), r).
Definition read_int (l : bytes) : option (Z * bytes) :=
  '(n, r) ← read_varint 5 l; Some (unzigzag (n mod 2 ^ 32), r).

(** Writer.WriteBool, Reader.ReadBool *)
Definition write_bool (b : bool) : bytes := [if b then x01 else x00].
Definition read_bool (l : bytes) : option (bool * bytes) :=
  match l with x00 :: r => Some (false, r) | x01 :: r => Some (true, r) | _ => None end.

(** Writer.WriteBytes / WriteString, Reader.ReadBytes / ReadString *)
Definition write_bytes (b : bytes) : bytes := write_long (Z.of_nat (length b)) ++ b.
Definition read_fixed (n : nat) (l : bytes) : option (bytes * bytes) :=
  if bool_decide (n ≤ length l) then Some (take n l, drop n l) else None.
Definition read_bytes (l : bytes) : option (bytes * bytes) :=
  '(n, r) ← read_long l;
  if bool_decide (0 <= n <= Z.of_nat (length r))%Z then read_fixed (Z.to_nat n) r else None.

(** Writer.WriteBlockHeader, Reader.ReadBlockHeader *)
Definition write_block_header (count size : Z) : bytes :=
  if bool_decide (0 < size)%Z then write_long (- count) ++ write_long size else write_long count.
Definition read_block_header (l : bytes) : option (Z * bytes) :=
  '(n, r) ← read_long l;
  if bool_decide (n < 0)%Z then '(_, r) ← read_long r; Some ((- n)%Z, r) else Some (n, r).

(** Arrays and maps are written as blocks of at most 100 (Config.BlockLength) items, each
    preceded by the negated count and the size in bytes, and closed by an empty block. *)
Definition block_length : nat := 100.
Fixpoint chunks {A} (k : nat) (l : list A) : list (list A) :=
  match k, l with
  | S k', _ :: _ => take block_length l :: chunks k' (drop block_length l)
  | _, _ => []
  end.
Section blocks.
  Context {A : Type} (enc : A → bytes) (dec : bytes → option (A * bytes)).
  Definition write_block (l : list A) : bytes :=
    let d := concat (map enc l) in
    write_block_header (Z.of_nat (length l)) (Z.of_nat (length d)) ++ d.
  Definition write_blocks (l : list A) : bytes :=
    concat (map write_block (chunks (length l) l)) ++ write_block_header 0 0.
  Fixpoint read_n (n : nat) (l : bytes) : option (list A * bytes) :=
    match n with
    | O => Some ([], l)
    | S n' => '(x, r) ← dec l; '(xs, r) ← read_n n' r; Some (x :: xs, r)
    end.
  (** Every item takes at least one byte, so a count larger than the input cannot be met. *)
  Fixpoint read_blocks_aux (k : nat) (l : bytes) : option (list A * bytes) :=
    match k with
    | O => None
    | S k' =>
      '(n, r) ← read_block_header l;
      if bool_decide (n = 0)%Z then Some ([], r)
      else if bool_decide (Z.of_nat (length r) < n)%Z then None
      else '(xs, r) ← read_n (Z.to_nat n) r;
           '(ys, r) ← read_blocks_aux k' r;
           Some (xs ++ ys, r)
    end.
  Definition read_blocks (l : bytes) : option (list A * bytes) := read_blocks_aux (length l) l.
End blocks.

(** Map entries: the key as a string, then the value. *)
Definition write_entry {V} (enc : V → bytes) (e : bytes * V) : bytes := write_bytes e.1 ++ enc e.2.
Definition read_entry {V} (dec : bytes → option (V * bytes)) (l : bytes) : option ((bytes * V) * bytes) :=
  '(k, r) ← read_bytes l; '(v, r) ← dec r; Some ((k, v), r).
(** The map decoder assigns the entries in the order in which they were written. *)
Definition map_of_entries {V} (l : list (bytes * V)) : gmap bytes V :=
  foldl (λ m e, <[e.1 := e.2]> m) ∅ l.

(** Big-endian numbers: types.Hash.Bytes, types.BytesToHash (cardinal-types: keeps the last
    32 bytes, pads on the left), big.Int.Bytes and big.Int.SetBytes. *)
Fixpoint le_fixed (k : nat) (n : N) : bytes :=
  match k with O => [] | S k' => byte_of (n mod 256) :: le_fixed k' (n / 256)%N end.
Fixpoint le_min (k : nat) (n : N) : bytes :=
  match k with
  | O => []
  | S k' => if (n =? 0)%N then [] else byte_of (n mod 256) :: le_min k' (n / 256)%N
  end.
Fixpoint le_N (l : bytes) : N :=
  match l with [] => 0%N | b :: r => (byte_N b + 256 * le_N r)%N end.

Definition hash_ok (h : hash) : Prop := (h < 2 ^ 256)%N.
Definition hash_bytes (h : hash) : bytes := rev (le_fixed 32 h).
Definition bytes_hash (b : bytes) : hash := le_N (take 32 (rev b)).
Definition bigint_bytes (n : N) : bytes := rev (le_min (N.size_nat n) n).
Definition bytes_bigint (b : bytes) : N := le_N (rev b).
