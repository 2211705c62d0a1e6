(** Model of delivery/ordering.go (OrderedMessageProcessor). *)
From Coq Require Import Strings.String.
From Verif Require Import Base Lru Types.

(** What subscribers observe, in order.
    [EvUpdate added removed]: updateFeed.Send(&ChainUpdate{...}) (ordering.go:275);
    [EvReorg num hash]: reorgFeed.Send (ordering.go:244);
    [EvEvict n]: mp.evictOlderThan(n) handed to the message processor (ordering.go:107). *)
Inductive omp_event :=
| EvUpdate (added removed : list pending_batch)
| EvReorg (num : Z) (h : hash)
| EvEvict (n : Z).

(** ordering.go:23-37.  [o_out] is the trace of everything sent so far (not a field of the Go
    struct).  [lastWeight] is assumed non-nil (cfg.LastWeight nil would panic in Cmp).
    [whitelist] is keyed by uint64. *)
Record omp := Omp {
  o_last : hash;                         (* lastHash *)
  o_lastw : N;                           (* lastWeight *)
  o_thr : Z;                             (* reorgThreshold *)
  o_pending : gmap hash pending_batch;   (* pending *)
  o_queued : gmap hash (gset hash);      (* queued: parent -> children *)
  o_fin : lru hash;                      (* finished *)
  o_wl : gmap Z hash;                    (* whitelist *)
  o_bl : gset hash;                      (* blacklist *)
  o_empty : bool;                        (* initEmpty *)
  o_out : list omp_event
}.

Definition set_last (s : omp) (h : hash) (w : N) : omp :=
  Omp h w (o_thr s) (o_pending s) (o_queued s) (o_fin s) (o_wl s) (o_bl s) (o_empty s) (o_out s).
Definition set_last_hash (s : omp) (h : hash) : omp := set_last s h (o_lastw s).
Definition set_pending (s : omp) (p : gmap hash pending_batch) : omp :=
  Omp (o_last s) (o_lastw s) (o_thr s) p (o_queued s) (o_fin s) (o_wl s) (o_bl s) (o_empty s) (o_out s).
Definition set_queued (s : omp) (q : gmap hash (gset hash)) : omp :=
  Omp (o_last s) (o_lastw s) (o_thr s) (o_pending s) q (o_fin s) (o_wl s) (o_bl s) (o_empty s) (o_out s).
Definition set_fin (s : omp) (f : lru hash) : omp :=
  Omp (o_last s) (o_lastw s) (o_thr s) (o_pending s) (o_queued s) f (o_wl s) (o_bl s) (o_empty s) (o_out s).
Definition set_bl (s : omp) (b : gset hash) : omp :=
  Omp (o_last s) (o_lastw s) (o_thr s) (o_pending s) (o_queued s) (o_fin s) (o_wl s) b (o_empty s) (o_out s).
Definition send (s : omp) (e : omp_event) : omp :=
  Omp (o_last s) (o_lastw s) (o_thr s) (o_pending s) (o_queued s) (o_fin s) (o_wl s) (o_bl s) (o_empty s)
      (o_out s ++ [e]).

Definition finished (s : omp) (h : hash) : bool := lru_contains (o_fin s) h.

(** ordering.go:104-119 [evict].  Terminates because every productive call removes an
    entry of [pending]; [fuel] = S (size pending) always suffices.  The loop at 110-115 iterates over
    the child set fetched at 109 (the inner sets are not modified by evict). *)
Fixpoint evict (fuel : nat) (o : order) (s : omp) (h : hash) : outcome omp :=
  match fuel with
  | O => Hang
  | S f =>
    match o_pending s !! h with
    | None => Ok s
    | Some pb =>
      let s := set_pending s (delete (pb_hash pb) (o_pending s)) in   (* 106 *)
      let s := send s (EvEvict (pb_num pb)) in                        (* 107 *)
      s ← evict f o s (pb_parent pb);                                 (* 108 *)
      match o_queued s !! pb_hash pb with                             (* 109 *)
      | None => Ok s
      | Some children =>
        s ← foldM (λ s c, if finished s c then Ok s else evict f o s c)
                  (o SEvict f (pb_hash pb) (elements children)) s;    (* 110-115 *)
        Ok (set_queued s (delete (pb_hash pb) (o_queued s)))          (* 116 *)
      end
    end
  end.

(** omp.finished.Add(h, struct{}{}) with the eviction callback of ordering.go:57-60. *)
Definition fin_add (o : order) (s : omp) (h : hash) : outcome omp :=
  let '(l, ev) := lru_add (o_fin s) h in
  let s := set_fin s l in
  match ev with
  | None => Ok s
  | Some k => evict (S (size (o_pending s))) o s k
  end.

(** ordering.go:286-291 [finishPendingChildren]; recursion follows parent->child links
    of [queued], so [fuel] = S (size queued) suffices when they are acyclic. *)
Fixpoint finish_children (fuel : nat) (o : order) (s : omp) (h : hash) : outcome omp :=
  match fuel with
  | O => Hang
  | S f =>
    let children := o_queued s !! h in                                 (* 287 *)
    s ← fin_add o s h;                                                 (* 288 *)
    match children with
    | None => Ok s                                                     (* 289 *)
    | Some cs => foldM (finish_children f o) (o SFinish f h (elements cs)) s (* 290 *)
    end
  end.

(** Recursion budget for walks along [queued]. *)
Definition qfuel (s : omp) : nat := S (size (o_queued s)).

(** ordering.go:278-284 [finishSiblings] *)
Definition finish_siblings (o : order) (s : omp) (pb : pending_batch) : outcome omp :=
  match o_queued s !! pb_parent pb with
  | None => Ok s
  | Some sibs =>
    let fuel := qfuel s in
    foldM (λ s h, if bool_decide (h ≠ pb_hash pb) then finish_children fuel o s h else Ok s)
          (o SSiblings 0 (pb_parent pb) (elements sibs)) s
  end.

(** ordering.go:314-332 [getPendingChainDifficulty] *)
Fixpoint difficulty (fuel : nat) (o : order) (s : omp) (h : hash) : outcome N :=
  match fuel with
  | O => Hang
  | S f =>
    match o_queued s !! h with
    | None =>                                                          (* 317-322 *)
      match o_pending s !! h with
      | Some pb => Ok (pb_weight pb)
      | None => Ok 0%N
      end
    | Some children =>
      foldM (λ max c, w ← difficulty f o s c;
                      Ok (if (max <? w)%N then w else max))
            (o SDiff f h (elements children)) 0%N                      (* 324-331 *)
    end
  end.

(** ordering.go:295-310 [getPendingChild]: [None] is the Go result (_, false); [Some c] is (c, true),
    where [c] is the zero hash if no child has positive difficulty. *)
Definition get_child (n : nat) (o : order) (s : omp) (h : hash) : outcome (option hash) :=
  match o_queued s !! h with
  | None => Ok None
  | Some children =>
    let fuel := qfuel s in
    r ← foldM (λ (acc : N * hash) c,
                 td ← difficulty fuel o s c;
                 Ok (if (acc.1 <? td)%N then (td, c) else acc))
              (o SChild n h (elements children)) (0%N, zero_hash);
    Ok (Some r.2)
  end.

(** ordering.go:255-265: the loop of [prepareEmit]; returns the state and [new]. *)
Fixpoint emit_loop (fuel : nat) (o : order) (s : omp) (new : list pending_batch)
  : outcome (omp * list pending_batch) :=
  match fuel with
  | O => Hang
  | S f =>
    c ← get_child f o s (o_last s);
    match c with
    | None => Ok (s, new)
    | Some h =>
      match o_pending s !! h with
      | None => Panic                                                  (* 257-259 *)
      | Some pb =>
        s ← finish_siblings o s pb;                                    (* 261 *)
        let s := set_last s (pb_hash pb) (pb_weight pb) in             (* 262-263 *)
        s ← fin_add o s (pb_hash pb);                                  (* 264 *)
        emit_loop f o s (new ++ [pb])
      end
    end
  end.

(** ordering.go:247-276 [prepareEmit] (metrics and logging omitted) *)
Definition prepare_emit (o : order) (s : omp) (new old : list pending_batch) : outcome omp :=
  s ← match last new with                                              (* 248-254 *)
      | None => Ok s
      | Some newest =>
        let s := set_last s (pb_hash newest) (pb_weight newest) in
        s ← finish_siblings o s newest;
        fin_add o s (pb_hash newest)
      end;
  r ← emit_loop (S (qfuel s)) o s new;
  Ok (send r.1 (EvUpdate r.2 old)).                                    (* 275 *)

(** ordering.go:236-239 [queue] *)
Definition queue (s : omp) (pb : pending_batch) : omp :=
  set_queued s (<[pb_parent pb := {[ pb_hash pb ]} ∪ default ∅ (o_queued s !! pb_parent pb)]> (o_queued s)).

(** Result of [prepareReorg]: success, or one of its two errors.
    In the first error case the most recent new block is queued (ordering.go:345). *)
Inductive reorg_result :=
| RgOk (removed added : list pending_batch)
| RgMissing                (* "Block %#x missing from history" *)
| RgGenesis.               (* "Reached genesis without finding common ancestor" *)

(** ordering.go:334-359 [prepareReorg]: both loops as one recursion; every step moves one of the
    two cursors to its parent.  [newb]/[rev] are newBlocks and reverted.
    Numbers are unbounded here (the Go code computes oldHead.Number+1 in int64). *)
Fixpoint reorg_walk (fuel : nat) (p : gmap hash pending_batch) (nh oh : pending_batch)
    (newb rev : list pending_batch) : outcome reorg_result :=
  match fuel with
  | O => Hang
  | S f =>
    if bool_decide (pb_num oh + 1 < pb_num nh)%Z then                  (* 341 *)
      match p !! pb_parent nh with
      | None => Ok RgMissing                                           (* 344-347 *)
      | Some nh' => reorg_walk f p nh' oh (nh' :: newb) rev            (* 348 *)
      end
    else if bool_decide (pb_hash oh = pb_parent nh) then Ok (RgOk rev newb)   (* 350-352 *)
    else
      match p !! pb_parent oh with                                     (* 353-357 *)
      | None => Ok RgGenesis
      | Some oh' => reorg_walk f p nh oh' newb (oh :: rev)
      end
  end.

Definition prepare_reorg (s : omp) (nh oh : pending_batch) : outcome reorg_result :=
  reorg_walk (S (2 * size (o_pending s))) (o_pending s) nh oh [nh] [].

(** ordering.go:165: whitelist lookup key uint64(pb.Number). *)
Definition uint64 (z : Z) : Z := (z mod 2 ^ 64)%Z.

(** ordering.go:165: the block's number is whitelisted under another hash. *)
Definition excluded (wl : gmap Z hash) (pb : pending_batch) : bool :=
  match wl !! uint64 (pb_num pb) with
  | Some h => bool_decide (h ≠ pb_hash pb)
  | None => false
  end.

(** ordering.go:164-234 [HandlePendingBatch]; [fuel] bounds the recursion at 212. *)
Fixpoint handle (fuel : nat) (o : order) (s : omp) (pb : pending_batch) (reorg : bool) : outcome omp :=
  match fuel with
  | O => Hang
  | S f =>
    if excluded (o_wl s) pb
    then Ok (set_bl s ({[ pb_hash pb ]} ∪ o_bl s))                     (* 165-169 *)
    else if bool_decide (pb_parent pb ∈ o_bl s)
    then Ok (set_bl s ({[ pb_hash pb ]} ∪ o_bl s))                     (* 170-176 *)
    else
    let s := set_pending s (<[pb_hash pb := pb]> (o_pending s)) in     (* 177 *)
    if finished s (pb_hash pb) && negb reorg then Ok s                 (* 178-182 *)
    else if bool_decide (pb_parent pb = o_last s) then
      prepare_emit o s [pb] []                                         (* 183-187 *)
    else if o_empty s && bool_decide (lru_len (o_fin s) < 10) && negb (finished s (pb_parent pb)) then
      prepare_emit o s [pb] []                                         (* 188-192 *)
    else if finished s (pb_parent pb) then                             (* 193 *)
      let light (s : omp) :=                                           (* 207-218 *)
        s ← fin_add o s (pb_hash pb);
        c ← get_child 0 o s (pb_hash pb);
        match c with
        | Some child =>
          s ← match o_pending s !! child with
              | Some cpb => handle f o s cpb true                      (* 211-213 *)
              | None => Ok s
              end;
          Ok (queue s pb)                                              (* 214 *)
        | None => Ok (queue s pb)                                      (* 218 *)
        end in
      match o_pending s !! o_last s with
      | Some lastBlock =>
        if (o_lastw s <? pb_weight pb)%N then
          r ← prepare_reorg s pb lastBlock;                            (* 197 *)
          match r with
          | RgOk removed added => prepare_emit o s added removed       (* 203 *)
          | RgMissing => Ok (queue s pb)                               (* 345, 198-201 *)
          | RgGenesis => Ok s                                          (* 198-201 *)
          end
        else light s
      | None => light s
      end
    else if (pb_weight pb <? o_lastw s)%N then                         (* 220 *)
      if match o_pending s !! o_last s with
         | Some lb => bool_decide (o_thr s < pb_num lb - pb_num pb)%Z
         | None => false
         end
      then Ok (set_pending s (delete (pb_hash pb) (o_pending s)))      (* 224-228 *)
      else
        s ← fin_add o s (pb_hash pb);                                  (* 229 *)
        Ok (queue s pb)
    else Ok (queue s pb)                                               (* 232 *)
  end.

(** ordering.go:77: one batch received from the message processor's feed.
    The recursion of [handle] follows [queued] links. *)
Definition handle_batch (o : order) (s : omp) (pb : pending_batch) : outcome omp :=
  handle (S (qfuel s)) o s pb false.

(** ordering.go:241-245 [HandleReorg] *)
Definition handle_reorg (s : omp) (num : Z) (h : hash) : omp :=
  send (set_last_hash s h) (EvReorg num h).

(** delivery/types.go:11-19 (fields used here) *)
Record config := Config {
  cfg_last_num : Z;
  cfg_last_hash : hash;
  cfg_last_weight : N;
  cfg_threshold : Z;
  cfg_whitelist : gmap Z hash
}.

(** ordering.go:40-61 [NewOrderedMessageProcessor].  For ReorgThreshold <= 0,
    NewMessageProcessor already panics (consumer.go:209-210). *)
Definition new_omp (cfg : config) : outcome omp :=
  if bool_decide (cfg_threshold cfg <= 0)%Z then Panic
  else
    let c := lru_new (Z.to_nat (cfg_threshold cfg * 2)) in
    Ok (Omp (cfg_last_hash cfg) (cfg_last_weight cfg) (cfg_threshold cfg) ∅ ∅
            (fst (lru_add c (cfg_last_hash cfg))) (cfg_whitelist cfg) ∅
            (bool_decide (cfg_last_hash cfg = zero_hash)) []).

(** ordering.go:66-100: the processing goroutine serves batches and reorg notifications one
    at a time, in the order its [select] picks them; a run is an arbitrary list of inputs,
    each with its own iteration orders. *)
Inductive omp_input :=
| InBatch (pb : pending_batch)
| InReorg (num : Z) (h : hash).

Definition omp_step (s : omp) (i : order * omp_input) : outcome omp :=
  match i.2 with
  | InBatch pb => handle_batch i.1 s pb
  | InReorg num h => Ok (handle_reorg s num h)
  end.

Definition omp_run (s : omp) (l : list (order * omp_input)) : outcome omp := foldM omp_step l s.

(** ordering.go:374-378 [WhyNotReady], first two cases; the third delegates to the message
    processor ([Consumer.mp_why_not_ready]). *)
Definition omp_why (s : omp) (h : hash) : option bytes :=
  if finished s h then Some (str "done, not evicted"%string)
  else match o_pending s !! h with
       | Some _ => Some (str "pending parent"%string)
       | None => None
       end.
