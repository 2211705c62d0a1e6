(** The ordering layer when HandleReorg (delivery/ordering.go:241-245) is called from another goroutine.  A websocket connection calls it
    from its own goroutine (transports/websockets.go:407-408) while the goroutine of the ordering layer may be inside
    HandlePendingBatch; there is no lock.  HandleReorg writes lastHash and sends a notice; the functions of Ordering.v are repeated here with
    a point of interference before every access of lastHash and before the update is sent.  [noise] lists, for the consecutive points
    of one call, the notices that come in there; what is left when the call returns comes in then.

    Simplifications: the write of lastHash (32 bytes) and the reads are atomic; between points of interference the two goroutines share
    nothing else.  HandleReorg's own write and send are one step. *)
From Verif Require Import Base Lru Types Ordering.

Definition noise := list (list (Z * hash)).
Definition poke (s : omp) (x : noise) : omp * noise :=
  match x with
  | [] => (s, [])
  | l :: r => (foldl (λ s (n : Z * hash), handle_reorg s n.1 n.2) s l, r)
  end.

(** ordering.go:255-265, cf. [emit_loop] *)
Fixpoint emit_loop_x (fuel : nat) (o : order) (s : omp) (x : noise) (new : list pending_batch)
  : outcome (omp * noise * list pending_batch) :=
  match fuel with
  | O => Hang
  | S f =>
    let '(s, x) := poke s x in                                         (* 255 *)
    c ← get_child f o s (o_last s);
    match c with
    | None => Ok (s, x, new)
    | Some h =>
      match o_pending s !! h with
      | None => Panic
      | Some pb =>
        s ← finish_siblings o s pb;
        let '(s, x) := poke s x in                                     (* 262 *)
        let s := set_last s (pb_hash pb) (pb_weight pb) in
        s ← fin_add o s (pb_hash pb);
        emit_loop_x f o s x (new ++ [pb])
      end
    end
  end.

(** ordering.go:247-276, cf. [prepare_emit] *)
Definition prepare_emit_x (o : order) (s : omp) (x : noise) (new old : list pending_batch) : outcome (omp * noise) :=
  sx ← match last new with
      | None => Ok (s, x)
      | Some newest =>
        let '(s, x) := poke s x in                                     (* 250 *)
        let s := set_last s (pb_hash newest) (pb_weight newest) in
        s ← finish_siblings o s newest;
        s ← fin_add o s (pb_hash newest);
        Ok (s, x)
      end;
  r ← emit_loop_x (S (qfuel sx.1) * S (length sx.2)) o sx.1 sx.2 new;
  let '(s, x) := poke r.1.1 r.1.2 in                                   (* 275 *)
  Ok (send s (EvUpdate r.2 old), x).

(** ordering.go:164-234, cf. [handle] *)
Fixpoint handle_x (fuel : nat) (o : order) (s : omp) (x : noise) (pb : pending_batch) (reorg : bool)
  : outcome (omp * noise) :=
  match fuel with
  | O => Hang
  | S f =>
    if excluded (o_wl s) pb then Ok (set_bl s ({[ pb_hash pb ]} ∪ o_bl s), x)
    else if bool_decide (pb_parent pb ∈ o_bl s) then Ok (set_bl s ({[ pb_hash pb ]} ∪ o_bl s), x)
    else
    let s := set_pending s (<[pb_hash pb := pb]> (o_pending s)) in
    if finished s (pb_hash pb) && negb reorg then Ok (s, x)
    else
    let '(s, x) := poke s x in                                         (* 183 *)
    if bool_decide (pb_parent pb = o_last s) then prepare_emit_x o s x [pb] []
    else if o_empty s && bool_decide (lru_len (o_fin s) < 10) && negb (finished s (pb_parent pb)) then
      prepare_emit_x o s x [pb] []
    else if finished s (pb_parent pb) then
      let light (s : omp) (x : noise) :=
        s ← fin_add o s (pb_hash pb);
        c ← get_child 0 o s (pb_hash pb);
        match c with
        | Some child =>
          r ← match o_pending s !! child with
              | Some cpb => handle_x f o s x cpb true
              | None => Ok (s, x)
              end;
          Ok (queue r.1 pb, r.2)
        | None => Ok (queue s pb, x)
        end in
      let '(s, x) := poke s x in                                       (* 194 *)
      match o_pending s !! o_last s with
      | Some lastBlock =>
        if (o_lastw s <? pb_weight pb)%N then
          r ← prepare_reorg s pb lastBlock;
          match r with
          | RgOk removed added => prepare_emit_x o s x added removed
          | RgMissing => Ok (queue s pb, x)
          | RgGenesis => Ok (s, x)
          end
        else light s x
      | None => light s x
      end
    else if (pb_weight pb <? o_lastw s)%N then
      let '(s, x) := poke s x in                                       (* 224 *)
      if match o_pending s !! o_last s with
         | Some lb => bool_decide (o_thr s < pb_num lb - pb_num pb)%Z
         | None => false
         end
      then Ok (set_pending s (delete (pb_hash pb) (o_pending s)), x)
      else
        s ← fin_add o s (pb_hash pb);
        Ok (queue s pb, x)
    else Ok (queue s pb, x)
  end.

(** The notices that come after the last point of the call. *)
Definition flush (r : omp * noise) : omp := (poke r.1 [concat r.2]).1.

(** Inputs of the ordering goroutine with what interferes while each is handled; a notice between two inputs is [InReorg]. *)
Definition omp_step_x (s : omp) (i : order * noise * omp_input) : outcome omp :=
  match i.2 with
  | InBatch pb => r ← handle_x (S (qfuel s)) i.1.1 s i.1.2 pb false; Ok (flush r)
  | InReorg num h => Ok (handle_reorg (flush (s, i.1.2)) num h)
  end.
Definition omp_run_x (s : omp) (l : list (order * noise * omp_input)) : outcome omp := foldM omp_step_x l s.
