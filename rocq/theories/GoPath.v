(** Go's path.Clean and path.Dir (standard library, lexical processing as documented), and the
    prefix lookup of delivery/consumer.go:152-173. *)
From Verif Require Import Base.

Definition slash : byte := x2f.
Definition dot : byte := x2e.

(** strings.Split(p, "/") *)
Fixpoint split_slash (p : bytes) : list bytes :=
  match p with
  | [] => [[]]
  | b :: r =>
    if bool_decide (b = slash) then [] :: split_slash r
    else match split_slash r with c :: cs => (b :: c) :: cs | [] => [[b]] end
  end.
(** strings.Join(cs, "/") *)
Fixpoint join_slash (cs : list bytes) : bytes :=
  match cs with
  | [] => []
  | c :: r => match r with [] => c | _ => c ++ slash :: join_slash r end
  end.

(** path.Clean: empty and "." elements are dropped, ".." removes the element before it;
    [st] holds the elements kept so far, last one first. *)
Definition clean_step (rooted : bool) (st : list bytes) (c : bytes) : list bytes :=
  if bool_decide (c = [] ∨ c = [dot]) then st
  else if bool_decide (c = [dot; dot]) then
    match st with
    | t :: st' => if bool_decide (t = [dot; dot]) then c :: st else st'
    | [] => if rooted then [] else [c]
    end
  else c :: st.
Definition rooted (p : bytes) : bool := bool_decide (head p = Some slash).
Definition clean (p : bytes) : bytes :=
  let st := foldl (clean_step (rooted p)) [] (split_slash p) in
  if rooted p then slash :: join_slash (rev st)
  else match st with [] => [dot] | _ => join_slash (rev st) end.

(** path.Dir: everything up to and including the last slash, cleaned. *)
Fixpoint drop_nonslash (l : bytes) : bytes :=
  match l with [] => [] | b :: r => if bool_decide (b = slash) then l else drop_nonslash r end.
Definition dir_part (p : bytes) : bytes := rev (drop_nonslash (rev p)).
Definition dir (p : bytes) : bytes := clean (dir_part p).

(** strings.TrimPrefix(d, "/") + "/" (consumer.go:159) *)
Definition dir_key (d : bytes) : bytes :=
  (if rooted d then tail d else d) ++ [slash].

(** consumer.go:158-171: the loop over the ancestor directories.  [None]: no prefix found. *)
Fixpoint dec_loop (fuel : nat) (prefixes : gmap bytes Z) (frp : bool) (d : bytes) : outcome (option (gmap bytes Z)) :=
  match fuel with
  | O => Hang
  | S f =>
    if bool_decide (d = [dot]) then Ok None                              (* 158 *)
    else
      let k := dir_key d in
      match prefixes !! k with
      | Some v =>
        if bool_decide (0 < v)%Z then Ok (Some (<[k := (v - 1)%Z]> prefixes))  (* 160-162 *)
        else if bool_decide (v = 0)%Z && frp then Panic                  (* 163-168 *)
        else dec_loop f prefixes frp (dir d)                             (* 169 *)
      | None => dec_loop f prefixes frp (dir d)
      end
  end.
(** consumer.go:152-173 [DecPrefixCounter]: the updated counters, or [None] for false. *)
Definition dec_prefix (prefixes : gmap bytes Z) (frp : bool) (p : bytes) : outcome (option (gmap bytes Z)) :=
  match prefixes !! p with
  | Some v =>
    if bool_decide (0 < v)%Z then Ok (Some (<[p := (v - 1)%Z]> prefixes))      (* 153-157 *)
    else dec_loop (S (S (length p))) prefixes frp p
  | None => dec_loop (S (S (length p))) prefixes frp p
  end.

(** The prefixes under which a path is looked up, in order: the path itself, then its
    ancestor directories (consumer.go:153,158-159). *)
Fixpoint dir_keys (fuel : nat) (d : bytes) : list bytes :=
  match fuel with
  | O => []
  | S f => if bool_decide (d = [dot]) then [] else dir_key d :: dir_keys f (dir d)
  end.
Definition lookup_keys (p : bytes) : list bytes := p :: dir_keys (S (S (length p))) p.
