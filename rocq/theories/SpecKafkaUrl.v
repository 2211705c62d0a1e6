(** Specification for C68: how a broker URL is written. *)
From Coq Require Import Strings.String.
From Verif Require Import Base Types Avro GoText.

(** Letters, digits and - . _ ~ stand for themselves everywhere. *)
Definition plain (b : byte) : Prop :=
  (48 <= byte_N b <= 57 ∨ 65 <= byte_N b <= 90 ∨ 97 <= byte_N b <= 122)%N ∨ b ∈ [x2d; x2e; x5f; x7e].
Definition digit (b : byte) : Prop := (48 <= byte_N b <= 57)%N.
(** One hexadecimal digit, in either case. *)
Definition hex (b : byte) (n : N) : Prop :=
  (n < 10 ∧ byte_N b = 48 + n ∨ 10 <= n < 16 ∧ byte_N b = 87 + n ∨ 10 <= n < 16 ∧ byte_N b = 55 + n)%N.
(** [escaped t v]: the text [t] stands for [v]; any byte may be written as % and two hexadecimal digits. *)
Inductive escaped : bytes → bytes → Prop :=
| esc_nil : escaped [] []
| esc_plain b t v : plain b → escaped t v → escaped (b :: t) (b :: v)
| esc_hex h l x y b t v : hex h x → hex l y → byte_N b = (16 * x + y)%N → escaped t v → escaped (x25 :: h :: l :: t) (b :: v).

(** A host without and with a port. *)
Definition bare_host (h : bytes) : Prop := Forall plain h.
Definition port_host (h : bytes) : Prop := ∃ n p, h = n ++ x3a :: p ∧ Forall plain n ∧ Forall digit p.
(** user@, user:password@ or nothing *)
Inductive user_text : bytes → option (bytes * option bytes) → Prop :=
| ut_none : user_text [] None
| ut_name t n : escaped t n → user_text (t ++ [x40]) (Some (n, None))
| ut_pass t n t' p : escaped t n → escaped t' p → user_text (t ++ x3a :: t' ++ [x40]) (Some (n, Some p)).
(** key=value *)
Definition option_text (t : bytes) (o : bytes * bytes) : Prop :=
  ∃ k v, t = k ++ x3d :: v ∧ escaped k o.1 ∧ escaped v o.2.
Definition options_text (q : bytes) (opts : list (bytes * bytes)) : Prop :=
  opts = [] ∧ q = [] ∨ ∃ ts, Forall2 option_text ts opts ∧ q = x3f :: join_byte x26 ts.
Definition scheme : bytes := str "kafka://"%string.
(** The whole: [user@]host,host,...[?key=value&key=value...], with or without the scheme.  If a host has a port, the last one has. *)
Definition written (url : bytes) (hosts : list bytes) (user : option (bytes * option bytes)) (opts : list (bytes * bytes)) : Prop :=
  ∃ pre u q, (pre = [] ∨ pre = scheme) ∧ hosts ≠ [] ∧ Forall (λ h, bare_host h ∨ port_host h) hosts ∧
    (Forall bare_host hosts ∨ ∃ h, last hosts = Some h ∧ port_host h) ∧
    user_text u user ∧ options_text q opts ∧ url = pre ++ u ++ join_byte x2c hosts ++ q.

(** [v] is the first value given for the key [k]; none is given. *)
Definition given (opts : list (bytes * bytes)) (k : string) (v : bytes) : Prop :=
  ∃ l1 l2, opts = l1 ++ (str k, v) :: l2 ∧ str k ∉ map fst l1.
Definition absent (opts : list (bytes * bytes)) (k : string) : Prop := str k ∉ map fst opts.
(** Something other than signs and digits. *)
Definition garbage (v : bytes) : Prop := ∃ b, b ∈ v ∧ ¬ digit b ∧ b ≠ x2d ∧ b ≠ x2b.
Definition in_int16 (x : Z) : Prop := (- 2 ^ 15 <= x < 2 ^ 15)%Z.
(** Nothing usable as a number is given for [k]. *)
Definition unusable (opts : list (bytes * bytes)) (k : string) : Prop := absent opts k ∨ ∃ v, given opts k v ∧ garbage v.
