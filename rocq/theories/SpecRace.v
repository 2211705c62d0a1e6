(** What C67 speaks about: blocks and notices of a run with interference, and where the blocks of an update fail to be a chain. *)
From Verif Require Import Base Types Ordering SpecChain Race.

(** The blocks received. *)
Definition blocks_of (l : list (order * noise * omp_input)) : list pending_batch :=
  omap (λ i, match i.2 with InBatch pb => Some pb | InReorg _ _ => None end) l.
(** The notices given, oldest first: those that interfere with an input, then the input itself. *)
Definition notices_of (l : list (order * noise * omp_input)) : list (Z * hash) :=
  concat (map (λ i, concat i.1.2 ++ match i.2 with InBatch _ => [] | InReorg n h => [(n, h)] end) l).
(** The notices published. *)
Definition published_notices (l : list omp_event) : list (Z * hash) :=
  omap (λ e, match e with EvReorg n h => Some (n, h) | _ => None end) l.

(** The parents at which a list of blocks, oldest first, is not a chain. *)
Fixpoint breaks (l : list pending_batch) : list hash :=
  match l with
  | x :: r =>
    match r with
    | y :: _ => if decide (pb_parent y = pb_hash x) then [] else [pb_parent y]
    | [] => []
    end ++ breaks r
  | [] => []
  end.
Definition all_breaks (l : list omp_event) : list hash := concat (map (λ u, breaks u.1) (updates_of l)).
