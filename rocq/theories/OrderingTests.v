(** Sanity tests of the ordering model: the scenarios of delivery/ordering_test.go
    (TestReorg), executed on the model.  These are tests, not proofs. *)
From Verif Require Import Base Lru Types Ordering SpecChain.

Definition mk (n : Z) (h : hash) (parent : pending_batch) : pending_batch :=
  bare_batch n (pb_weight parent + 1)%N (pb_hash parent) h.
Definition a := bare_batch 0 0 0%N 1.
Definition b := mk 1 2 a.
Definition c := mk 1 3 a.
Definition d := mk 2 4 c.
Definition e := mk 2 5 b.
Definition f := mk 3 6 e.
Definition g := mk 2 7 b.
Definition h := mk 3 8 g.
Definition i := mk 4 9 h.
Definition j := mk 4 10 f.
Definition k := mk 5 11 i.

Fixpoint chain_from (nonce : N) (n : nat) (num : Z) (p : pending_batch) : list pending_batch :=
  match n with
  | O => []
  | S n' => let x := mk num (nonce * 1000 + Z.to_N num)%N p in x :: chain_from nonce n' (num + 1) x
  end.
Definition chain1 := a :: chain_from 1 99 1 a.
Definition chain2 := a :: chain_from 2 99 1 a.
Definition slice (lo hi : nat) (l : list pending_batch) := take (hi - lo) (drop lo l).
Definition hs (l : list pending_batch) := map pb_hash l.

Definition rev_order : order := λ _ _ _ l, rev l.

Definition run_test (o : order) (last : pending_batch) (l : list pending_batch)
  : outcome (list (list hash * list hash)) :=
  s ← new_omp (Config (pb_num last) (pb_hash last) (pb_weight last) 128 ∅);
  s ← omp_run s (map (λ b, (o, InBatch b)) l);
  Ok (map (λ u, (hs u.1, hs u.2)) (updates_of (o_out s))).

Definition check (last : pending_batch) (l : list pending_batch)
  (expected : list (list pending_batch * list pending_batch)) : bool :=
  let exp := Ok (map (λ u, (hs u.1, hs u.2)) expected) in
  let same (x : outcome (list (list hash * list hash))) :=
    match x, exp with Ok p, Ok q => bool_decide (p = q) | _, _ => false end in
  same (run_test id_order last l) && same (run_test rev_order last l).

Definition singles (l : list pending_batch) : list (list pending_batch * list pending_batch) :=
  map (λ x, ([x], [])) l.

Example test_all : forallb (λ t, t) [
  check a [a;b;c;d] [([b],[]); ([c;d],[b])];
  check a [a;b;d;c] [([b],[]); ([c;d],[b])];
  check a [a;c;d;b] [([c],[]); ([d],[])];
  check a [a;b;c;d;e;f] [([b],[]); ([c;d],[b]); ([b;e;f],[c;d])];
  check a [a;e;g;f;b;h;i] [([b;e;f],[]); ([g;h;i],[e;f])];
  check a [a;e;g;f;h;i;b] [([b;g;h;i],[])];
  check a [a;e;f;h;i;g;b] [([b;g;h;i],[])];
  check a [a;b;e;f;j;h;i;k;g] (singles [b;e;f;j] ++ [([g;h;i;k],[e;f;j])]);
  check a [a;b;e;f;j;g;i;k;h] (singles [b;e;f;j] ++ [([g;h;i;k],[e;f;j])]);
  check a [a;b;e;f;j;g;h;i;k] (singles [b;e;f;j] ++ [([g;h;i;k],[e;f;j])]);
  check a [a;b;e;f;j;i;k;h;g] (singles [b;e;f;j] ++ [([g;h;i;k],[e;f;j])]);
  check a [a;b;e;f;j;g;h;k;i] (singles [b;e;f;j] ++ [([g;h;i;k],[e;f;j])]);
  check a [a;d;c] [([c;d],[])];
  check c [a;c;d;b;e;f] [([d],[]); ([b;e;f],[c;d])];
  check a (slice 0 50 chain1 ++ slice 0 25 chain2 ++ slice 30 53 chain2 ++ slice 25 29 chain2
             ++ slice 53 54 chain2 ++ slice 29 30 chain2)
        (singles (slice 1 50 chain1) ++ [(slice 1 54 chain2, slice 1 50 chain1)]);
  check a (slice 0 6 chain1 ++ slice 5 7 chain2 ++ slice 3 5 chain2 ++ slice 1 3 chain2)
        (singles (slice 1 6 chain1) ++ [(slice 1 7 chain2, slice 1 6 chain1)]);
  check (bare_batch 6 6 0%N 1006) (slice 0 7 chain1 ++ slice 0 8 chain2) [(slice 1 8 chain2, slice 1 7 chain1)];
  check (bare_batch 6 6 0%N 1006) (slice 0 6 chain1 ++ slice 0 8 chain2 ++ slice 6 7 chain1 ++ slice 8 9 chain2)
        [(slice 1 9 chain2, slice 1 7 chain1)]
  ] = true.
Proof. vm_compute. reflexivity. Qed.
