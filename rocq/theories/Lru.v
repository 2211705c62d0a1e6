(** Model of github.com/hashicorp/golang-lru (v0.5.5 pre-release pinned in go.mod), as used by
    delivery/ordering.go:57-61 (with eviction callback) and delivery/consumer.go:209,290
    and transports/kafka.go:301-302 (without).  Only keys matter: the cached value
    is always [struct{}{}].  Recency list, most recently added first.
    [Contains] does not touch recency; [Add] of a present key moves it to the front;
    [Add] beyond the capacity removes the oldest key and (for NewWithEvict) runs the callback
    on it after the cache has been updated and its lock released. *)
From Verif Require Import Base.

Record lru (K : Type) := Lru { lru_cap : nat; lru_keys : list K }.
Arguments Lru {K} _ _.
Arguments lru_cap {K} _.
Arguments lru_keys {K} _.

Section lru.
  Context {K : Type} `{EqDecision K}.

  (** lru.New(size): an error for size <= 0 (the callers' guards are in the callers' models). *)
  Definition lru_new (size : nat) : lru K := Lru size [].

  (** Cache.Contains *)
  Definition lru_contains (c : lru K) (k : K) : bool := bool_decide (k ∈ lru_keys c).

  (** Cache.Len *)
  Definition lru_len (c : lru K) : nat := length (lru_keys c).

  (** Cache.Add; the second component is the evicted key, if any. *)
  Definition lru_add (c : lru K) (k : K) : lru K * option K :=
    if bool_decide (k ∈ lru_keys c)
    then (Lru (lru_cap c) (k :: filter (λ x, x ≠ k) (lru_keys c)), None)
    else
      let l := k :: lru_keys c in
      if bool_decide (lru_cap c < length l)
      then (Lru (lru_cap c) (removelast l), last l)
      else (Lru (lru_cap c) l, None).

  (** Cache.Purge *)
  Definition lru_purge (c : lru K) : lru K := Lru (lru_cap c) [].
End lru.
