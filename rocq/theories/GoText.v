(** Go text functions used around resumption tokens and broker URLs: strings.Split with a one-byte
    separator, strings.Join, strings.TrimPrefix, fmt's %v for integers and strconv.Atoi (standard
    library, as documented; [int] has 64 bits). *)
From Verif Require Import Base Types Avro.
From Coq Require Decimal.

Fixpoint split_byte (c : byte) (s : bytes) : list bytes :=
  match s with
  | [] => [[]]
  | b :: r =>
    if bool_decide (b = c) then [] :: split_byte c r
    else match split_byte c r with x :: xs => (b :: x) :: xs | [] => [[b]] end
  end.
Fixpoint join_byte (c : byte) (l : list bytes) : bytes :=
  match l with
  | [] => []
  | x :: r => match r with [] => x | _ => x ++ c :: join_byte c r end
  end.
Definition trim_prefix (s p : bytes) : bytes := if bool_decide (p `prefix_of` s) then drop (length p) s else s.

Fixpoint digits_text (d : Decimal.uint) : bytes :=
  match d with
  | Decimal.Nil => [] | Decimal.D0 r => x30 :: digits_text r | Decimal.D1 r => x31 :: digits_text r | Decimal.D2 r => x32 :: digits_text r
  | Decimal.D3 r => x33 :: digits_text r | Decimal.D4 r => x34 :: digits_text r | Decimal.D5 r => x35 :: digits_text r
  | Decimal.D6 r => x36 :: digits_text r | Decimal.D7 r => x37 :: digits_text r | Decimal.D8 r => x38 :: digits_text r
  | Decimal.D9 r => x39 :: digits_text r
  end.
Definition int_text (z : Z) : bytes :=
  match z with
  | Z0 => [x30]
  | Zpos p => digits_text (Pos.to_uint p)
  | Zneg p => x2d :: digits_text (Pos.to_uint p)
  end.
Fixpoint read_digits (acc : N) (s : bytes) : option N :=
  match s with
  | [] => Some acc
  | b :: r =>
    let d := byte_N b in
    if ((48 <=? d) && (d <=? 57))%N then read_digits (acc * 10 + (d - 48)) r else None
  end.
(** strconv.Atoi; [None] for an error. *)
Definition atoi (s : bytes) : option Z :=
  let '(neg, ds) := match s with
    | b :: r => if bool_decide (b = x2d) then (true, r) else if bool_decide (b = x2b) then (false, r) else (false, s)
    | [] => (false, [])
    end in
  match ds with
  | [] => None
  | _ => v ← read_digits 0 ds; let z := if neg then (- Z.of_N v)%Z else Z.of_N v in
         if bool_decide (in_int64 z) then Some z else None
  end.
