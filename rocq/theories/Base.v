(** Basic vocabulary shared by all model files. *)
From stdpp Require Export prelude gmap sorting.
From Coq Require Export Init.Byte.
From Coq Require Import Strings.Byte Strings.String.

Global Unset Program Cases.

(** Go [byte], [[]byte] and [string]: sequences of bytes. *)
#[global] Instance byte_eq_dec : EqDecision byte := Byte.byte_eq_dec.
#[global] Program Instance byte_countable : Countable byte :=
  inj_countable (λ b, Byte.to_N b) Byte.of_N _.
Next Obligation. intros x. apply Byte.of_to_N. Qed.

Definition bytes := list byte.

(** Literals: [str "foo/"] is the Go string literal "foo/". *)
Definition str (s : String.string) : bytes := list_byte_of_string s.

(** [types.Hash] (cardinal-types) is [[32]byte]; it is represented by the number it
    denotes in big-endian order.  The zero hash [types.Hash{}] is 0. *)
Definition hash := N.
Bind Scope N_scope with hash.
Definition zero_hash : hash := 0%N.

(** Result of running a piece of Go code: normal termination, a run-time panic,
    or the exhaustion of the model's recursion budget.  The theorems show where
    [Hang] cannot occur (the budget is never exhausted) or that it occurs for
    every budget (the Go code does not terminate / overflows its stack). *)
Inductive outcome (A : Type) : Type :=
| Ok (a : A)
| Panic
| Hang.
Arguments Ok {A} a.
Arguments Panic {A}.
Arguments Hang {A}.

#[global] Instance outcome_ret : MRet outcome := λ A a, Ok a.
#[global] Instance outcome_bind : MBind outcome := λ A B f o,
  match o with Ok a => f a | Panic => Panic | Hang => Hang end.

(** A [for _, x := range l { body }] loop with an accumulating state. *)
Fixpoint foldM {A S} (f : S → A → outcome S) (l : list A) (s : S) : outcome S :=
  match l with
  | [] => Ok s
  | x :: l' => s' ← f s x; foldM f l' s'
  end.

(** Order oracles.  [for k := range m] over a Go map visits the keys in an
    unspecified order that may differ between any two executions of the loop.
    A model function containing such loops receives an oracle [o]; the keys are
    visited in the order [o site depth key keys], where [site] identifies the loop
    in the source, [depth] and [key] identify the dynamic instance.
    [order_ok o] says that [o] only permutes. *)
Inductive site := SEvict | SSiblings | SFinish | SChild | SDiff.
Definition order := site → nat → hash → list hash → list hash.
Definition order_ok (o : order) : Prop := ∀ s n h l, o s n h l ≡ₚ l.

(** One particular oracle, used in executable examples. *)
Definition id_order : order := λ _ _ _ l, l.
Lemma id_order_ok : order_ok id_order.
Proof. intros s n h l. reflexivity. Qed.

Lemma foldM_app {A S} (f : S → A → outcome S) l1 l2 s :
  foldM f (l1 ++ l2) s = (s' ← foldM f l1 s; foldM f l2 s').
Proof.
  revert s; induction l1 as [|x l1 IH]; intros s; cbn [foldM app]; [reflexivity|].
  destruct (f s x) as [s'| |]; cbn; [apply IH|reflexivity|reflexivity].
Qed.

Lemma foldM_inv {A S} (P : S → Prop) (f : S → A → outcome S) l s s' :
  (∀ s x s', x ∈ l → P s → f s x = Ok s' → P s') →
  P s → foldM f l s = Ok s' → P s'.
Proof.
  revert s; induction l as [|x l IH]; intros s Hf HP; cbn [foldM].
  - intros [= <-]; exact HP.
  - destruct (f s x) as [s1| |] eqn:E; cbn; [|discriminate|discriminate].
    intros H. eapply IH; [| |exact H].
    + intros s2 y s3 Hy. apply Hf. by apply elem_of_list_further.
    + eapply Hf; [apply elem_of_list_here|exact HP|exact E].
Qed.

Lemma foldM_ok {A S} (P : S → Prop) (f : S → A → outcome S) l s :
  (∀ s x, x ∈ l → P s → ∃ s', f s x = Ok s' ∧ P s') →
  P s → ∃ s', foldM f l s = Ok s' ∧ P s'.
Proof.
  revert s; induction l as [|x l IH]; intros s Hf HP; cbn [foldM].
  - by exists s.
  - destruct (Hf s x) as (s1 & E & H1); [apply elem_of_list_here|exact HP|].
    rewrite E; cbn. apply IH; [|exact H1].
    intros s2 y Hy. apply Hf. by apply elem_of_list_further.
Qed.

(** Reduce monadic binds only. *)
Ltac ob := cbn [mbind outcome_bind].
