(** What multiplexing and URL resolution have to do. *)
From Coq Require Import Strings.String.
From Verif Require Import Base Types Avro GoText Mux.

(** The URL without an optional "cardinal://" in front. *)
Definition stripped (url u : bytes) : Prop := url = cardinal_prefix ++ u ∨ (¬ cardinal_prefix `prefix_of` url) ∧ u = url.
(** The URL has the given scheme. *)
Definition has_scheme (url s : bytes) : Prop := ∃ u, stripped url u ∧ (u = s ∨ ∃ r, u = s ++ scheme_sep ++ r).

(** The first failure in a list of results. *)
Definition first_error {E} (rs : list (option E)) (r : option E) : Prop :=
  match r with
  | None => ∀ x, x ∈ rs → x = None
  | Some e => ∃ pre post, rs = pre ++ Some e :: post ∧ ∀ x, x ∈ pre → x = None
  end.
