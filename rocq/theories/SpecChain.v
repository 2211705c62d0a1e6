(** Specifications for the ordering layer that do not mention its implementation:
    block trees, and a client that replays what the consumer publishes. *)
From Verif Require Import Base Types Ordering.

(** What a block hash stands for: its parent, number and weight.  Blocks are content
    addressed, so each delivered block must agree with one such assignment. *)
Record tree := Tree { t_par : hash → hash; t_num : hash → Z; t_wt : hash → N }.

Definition agree (T : tree) (b : pending_batch) : Prop :=
  pb_hash b ≠ zero_hash ∧
  pb_parent b = t_par T (pb_hash b) ∧
  pb_num b = t_num T (pb_hash b) ∧
  pb_weight b = t_wt T (pb_hash b).

(** Numbers go up by one and (total) weights increase from the parent of [h] to [h]. *)
Definition growing (T : tree) (h : hash) : Prop :=
  t_num T h = (t_num T (t_par T h) + 1)%Z ∧ (t_wt T (t_par T h) < t_wt T h)%N.

(** Ancestry: [ancestor T a h] holds when [a] is reached from [h] by zero or more
    parent steps; [descends] is the same relation seen from the other end. *)
Inductive ancestor (T : tree) : hash → hash → Prop :=
| anc_refl h : ancestor T h h
| anc_step a h : ancestor T a (t_par T h) → ancestor T a h.

(** Blocks contained in a list of inputs. *)
Definition batches_of (l : list (order * omp_input)) : list pending_batch :=
  omap (λ i, match i.2 with InBatch pb => Some pb | InReorg _ _ => None end) l.
Definition reorgs_of (l : list (order * omp_input)) : list hash :=
  omap (λ i, match i.2 with InBatch _ => None | InReorg _ h => Some h end) l.
Definition orders_ok (l : list (order * omp_input)) : Prop := Forall (λ i, order_ok i.1) l.
Definition no_reorgs (l : list (order * omp_input)) : Prop := reorgs_of l = [].

(** The client: the blocks it applied since its starting point, newest first. *)
Record client := Client { cl_base : hash; cl_chain : list pending_batch }.

Definition tip (c : client) : hash :=
  match cl_chain c with [] => cl_base c | b :: _ => pb_hash b end.

(** Undo [b]: it must be the current tip.  A block older than the starting point may be
    undone too, provided it is the block the client stands on. *)
Definition undo (c : client) (b : pending_batch) : option client :=
  if decide (pb_hash b = tip c) then
    match cl_chain c with
    | [] => Some (Client (pb_parent b) [])
    | _ :: r => Some (Client (cl_base c) r)
    end
  else None.

(** Apply [b]: its parent must be the current tip. *)
Definition apply (c : client) (b : pending_batch) : option client :=
  if decide (pb_parent b = tip c) then Some (Client (cl_base c) (b :: cl_chain c)) else None.

Fixpoint undo_all (c : client) (l : list pending_batch) : option client :=
  match l with [] => Some c | b :: l' => c' ← undo c b; undo_all c' l' end.
Fixpoint apply_all (c : client) (l : list pending_batch) : option client :=
  match l with [] => Some c | b :: l' => c' ← apply c b; apply_all c' l' end.

(** One published event: an update undoes [removed] (last to first), then applies
    [added]; a large reorg restarts the client at the announced hash; the internal
    discard hints are not visible to the client. *)
Definition client_step (c : client) (e : omp_event) : option client :=
  match e with
  | EvUpdate added removed => c' ← undo_all c (rev removed); apply_all c' added
  | EvReorg _ h => Some (Client h [])
  | EvEvict _ => Some c
  end.

Fixpoint client_run (c : client) (l : list omp_event) : option client :=
  match l with [] => Some c | e :: l' => c' ← client_step c e; client_run c' l' end.

(** A lenient client: an update it cannot digest makes it jump to the end of the
    update's added blocks; the second component counts these jumps. *)
Definition lenient_step (a : client * nat) (e : omp_event) : client * nat :=
  match client_step a.1 e with
  | Some c => (c, a.2)
  | None =>
    match e with
    | EvUpdate added _ =>
      (Client (match last added with Some b => pb_hash b | None => tip a.1 end) [], S a.2)
    | _ => a
    end
  end.
Definition lenient_run (a : client * nat) (l : list omp_event) : client * nat := foldl lenient_step a l.

(** Updates published. *)
Definition updates_of (l : list omp_event) : list (list pending_batch * list pending_batch) :=
  omap (λ e, match e with EvUpdate a r => Some (a, r) | _ => None end) l.
Definition all_added (l : list omp_event) : list pending_batch := concat (map fst (updates_of l)).
Definition all_removed (l : list omp_event) : list pending_batch := concat (map snd (updates_of l)).

(** [chain_up base l]: [l] is a path of blocks, oldest first, growing out of [base]. *)
Fixpoint chain_up (base : hash) (l : list pending_batch) : Prop :=
  match l with
  | [] => True
  | b :: r => pb_parent b = base ∧ chain_up (pb_hash b) r
  end.

(** Where the path ends. *)
Definition top (base : hash) (l : list pending_batch) : hash :=
  match last l with None => base | Some b => pb_hash b end.

(** A minimal update: both lists grow out of one block [base], share no block, and
    [base] is the most recent common ancestor of the old head [top base removed] and the new head
    [top base added]. *)
Definition minimal_update (T : tree) (added removed : list pending_batch) : Prop :=
  ∃ base, added ≠ [] ∧ chain_up base added ∧ chain_up base removed ∧
    (∀ x y, x ∈ added → y ∈ removed → pb_hash x ≠ pb_hash y) ∧
    (∀ x, ancestor T x (top base removed) → ancestor T x (top base added) → ancestor T x base).

(** Weight of the block on which the last update ended ([w] if there was none). *)
Fixpoint top_weight (w : N) (l : list omp_event) : N :=
  match l with
  | [] => w
  | EvUpdate added _ :: l' =>
    top_weight (match last added with Some b => pb_weight b | None => w end) l'
  | _ :: l' => top_weight w l'
  end.

(** Every update ends on a strictly heavier block than the one before. *)
Fixpoint rising (w : N) (l : list omp_event) : Prop :=
  match l with
  | [] => True
  | EvUpdate added _ :: l' =>
    match last added with
    | Some b => (w < pb_weight b)%N ∧ rising (pb_weight b) l'
    | None => False
    end
  | _ :: l' => rising w l'
  end.

(** Whitelist: the number of [h] is whitelisted for another hash. *)
Definition barred (wl : gmap Z hash) (T : tree) (h : hash) : Prop :=
  (0 <= t_num T h < 2 ^ 63)%Z ∧ ∃ w, wl !! t_num T h = Some w ∧ w ≠ h.
(** [h] is barred or descends from a barred block. *)
Definition tainted (wl : gmap Z hash) (T : tree) (h : hash) : Prop :=
  ∃ a, ancestor T a h ∧ barred wl T a.

(** [late wl T l h]: [h] is barred, or a descendant of a barred block such that on the path
    between them every block only ever arrived (in [l]) after its parent had arrived. *)
Inductive late (wl : gmap Z hash) (T : tree) (l : list pending_batch) : hash → Prop :=
| late_barred h : barred wl T h → late wl T l h
| late_child h : late wl T l (t_par T h) →
    (∀ l1 b l2, l = l1 ++ b :: l2 → pb_hash b = h → t_par T h ∈ map pb_hash l1) →
    late wl T l h.

(** [stored_path p h a]: [a] is [h] or reached from [h] through stored blocks. *)
Inductive stored_path (p : gmap hash pending_batch) : hash → hash → Prop :=
| sp_here h : stored_path p h h
| sp_parent h b a : p !! h = Some b → stored_path p (pb_parent b) a → stored_path p h a.

(** No block comes back after having been released: each delivery is the first one of
    its hash or finds the block still stored. *)
Definition no_late_repeats (s0 : omp) (l : list (order * omp_input)) : Prop :=
  ∀ l1 o b l2 s1, l = l1 ++ (o, InBatch b) :: l2 → omp_run s0 l1 = Ok s1 →
    pb_hash b ∈ map pb_hash (batches_of l1) → is_Some (o_pending s1 !! pb_hash b).

(** One chain without forks, oldest block first: [ch i] is the parent of [ch (S i)]. *)
Definition single_chain (T : tree) (ch : nat → hash) : Prop :=
  ∀ i, t_par T (ch (S i)) = ch i ∧ growing T (ch (S i)).
