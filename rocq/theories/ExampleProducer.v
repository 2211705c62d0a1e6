(** A concrete producer, used to show that the hypotheses of the theorems about producers can be met,
    and the counterexamples. *)
From Coq Require Import Strings.String.
From Verif Require Import Base Types Avro Wire SpecWire GoPath Producer SpecBlock SpecProducer ProducerFacts ProducerFacts2 ProducerFacts3 ProducerFacts4
  SpecCollect ExampleBlock.
Local Open Scope string_scope.

(** Expressions without special characters. *)
Definition find_text (i : bytes) : finder := λ k, if has_prefix k i then i else [].
Definition ex_compile (e : bytes) : option finder :=
  match e with
  | [] => None
  | c :: i => if bool_decide (c = caret) then Some (find_text i) else Some (λ _, [])
  end.
Definition ex_schema : gmap bytes topic := <[(str "s/" : bytes) := str "states"]> {[(str "c/" : bytes) := str "code"]}.
Definition ex_prod : producer := Prod [(find_text (str "s/"), str "states"); (find_text (str "c/"), str "code")] (str "blocks") ∅.
Definition ex_prod2 : producer := Prod [(find_text (str "c/"), str "code"); (find_text (str "s/"), str "states")] (str "blocks") ∅.
Definition rev_aorder : aorder := AO reverse reverse reverse reverse reverse.
Lemma rev_aorder_ok : aorder_ok rev_aorder.
Proof. repeat split; intros l; apply reverse_Permutation. Qed.
Lemma id_aorder_ok : aorder_ok id_aorder.
Proof. done. Qed.

Lemma ex_schema_dom i : i ∈ dom ex_schema → i = str "s/" ∨ i = str "c/".
Proof. unfold ex_schema. rewrite dom_insert_L, dom_singleton_L. intros [?%elem_of_singleton|?%elem_of_singleton]%elem_of_union; auto. Qed.
Lemma ex_plain i : i ∈ dom ex_schema → plain_text ex_compile i ∧ directory i.
Proof.
  intros [->| ->]%ex_schema_dom; (split; [|first [by exists (str "s")|by exists (str "c")]]).
  all: (split; [done|]; split; [done|]; split; [by eexists|]).
  all: eexists; split; [reflexivity|done].
Qed.
Lemma ex_new : new_producer ex_compile (str "blocks") ex_schema (map_to_list ex_schema) = inr ex_prod ∨
               new_producer ex_compile (str "blocks") ex_schema (map_to_list ex_schema) = inr ex_prod2.
Proof. vm_compute. auto. Qed.
Lemma ex_route k : route (p_schema ex_prod) k = route (p_schema ex_prod2) k.
Proof.
  eapply (route_order ex_compile (str "blocks") ex_schema [(str "s/", str "states"); (str "c/", str "code")]
    [(str "c/", str "code"); (str "s/", str "states")]).
  - apply (bool_decide_unpack _). by vm_compute.
  - apply (bool_decide_unpack _). by vm_compute.
  - intros i Hi. by apply ex_plain.
  - by vm_compute.
  - by vm_compute.
Qed.
(** The prefix of a key for this producer. *)
Lemma ex_prefix k : prefix_of_key ex_prod k = if has_prefix k (str "s/") then Some (str "s/") else if has_prefix k (str "c/") then Some (str "c/") else None.
Proof. unfold prefix_of_key, ex_prod, find_text. cbn. destruct (has_prefix k _); [done|]. by destruct (has_prefix k _). Qed.

Definition ex_args : block_args := bk_args ex_block.
Lemma ex_not_refused : ¬ refused (prefix_of_key ex_prod) ex_args.
Proof.
  destruct (add_cases ex_prod id_aorder ex_args id_aorder_ok) as [(q & tm & _ & H)|(q & e & E & _)]; [done|].
  exfalso. cut (match snd (add_block ex_prod id_aorder ex_args) with inr _ => True | inl _ => False end); [by rewrite E|]. by vm_compute.
Qed.
Lemma ex_count2 x : in_int32 (Z.of_nat (count_of (prefix_of_key ex_prod) (Block ex_args (λ _, [])) x)).
Proof.
  assert (H : count_of (prefix_of_key ex_prod) (Block ex_args (λ _, [])) x ≤ 3).
  { unfold count_of. change (ba_updates (bk_args (Block ex_args (λ _, [])))) with ex_updates.
    transitivity (size (dom ex_updates) + size (ba_deletes ex_args)); [|by vm_compute; lia].
    apply Nat.add_le_mono; apply subseteq_size; set_solver. }
  unfold in_int32. lia.
Qed.
Lemma ex_args_ok : args_ok (prefix_of_key ex_prod) ex_args.
Proof.
  split; [by vm_compute|]. split; [done|]. split; [|apply ex_count2].
  intros id ->%ex_ann. done.
Qed.
Definition ex_history : list call := [CAdd rev_aorder ex_args].
Lemma ex_awaiting : awaiting (prefix_of_key ex_prod) ex_history 9%N ex_args.
Proof.
  exists [], rev_aorder, []. split; [done|]. split; [exists (str "x/"); by vm_compute|]. split; [apply ex_not_refused|].
  split; [by intros ? ? ? ?%elem_of_nil|by intros ? ? ?%elem_of_nil].
Qed.
Lemma ex_mention : no_refused_mention (prefix_of_key ex_prod) ex_history 9%N.
Proof. intros o a Hin%elem_of_list_singleton. injection Hin as -> ->. intros H. by apply ex_not_refused in H. Qed.

(** C16: a refused block announcing sub-batch 9, after which SendBatch for 9 is accepted. *)
Definition bad_args : block_args :=
  BA 7 1 2 5 ∅ ∅ (<[(str "x/" : bytes) := 9%N]> {[(str "y/" : bytes) := zero_hash]}).
Lemma failed_add_leaves : ∃ p o a id q e, aorder_ok o ∧ p_pending p = ∅ ∧ add_block p o a = (q, inl e) ∧ q ≠ p ∧
  snd (send_batch p (λ l, l) id [] ∅) = None ∧ snd (send_batch q (λ l, l) id [] ∅) ≠ None.
Proof.
  assert (H : ∀ o, match add_block ex_prod o bad_args with
    | (q, inl _) => match snd (send_batch q (λ l, l) 9%N [] ∅) with Some _ => True | None => False end
    | _ => False end → aorder_ok o → ∃ p o a id q e, aorder_ok o ∧ p_pending p = ∅ ∧ add_block p o a = (q, inl e) ∧ q ≠ p ∧
      snd (send_batch p (λ l, l) id [] ∅) = None ∧ snd (send_batch q (λ l, l) id [] ∅) ≠ None).
  { intros o H Ho. destruct (add_block ex_prod o bad_args) as [q [e|tm]] eqn:E; [|done].
    assert (N : snd (send_batch ex_prod (λ l, l) 9%N [] ∅) = None) by (by vm_compute).
    exists ex_prod, o, bad_args, 9%N, q, e. split; [done|]. split; [done|]. split; [done|].
    split; [|split; [done|]]; [intros ->; by rewrite N in H|]. intros E2. by rewrite E2 in H. }
  first [apply (H id_aorder); [by vm_compute|done] | apply (H rev_aorder); [by vm_compute|apply rev_aorder_ok]].
Qed.

(** Expressions: "a" and "[ab]" do not overlap as texts, but both match "a". *)
Definition find_ab : finder := λ k, match k with c :: _ => if bool_decide (c = x61 ∨ c = x62) then [c] else [] | [] => [] end.
Definition re_compile (e : bytes) : option finder :=
  if bool_decide (e = str "^[ab]" ∨ e = str "[ab]") then Some find_ab else Some (find_text (str "a")).
Definition re_schema : gmap bytes topic := <[(str "a" : bytes) := str "one"]> {[(str "[ab]" : bytes) := str "two"]}.
Lemma expressions_overlap : ∃ compile dflt schema es1 es2 p1 p2 k,
  es1 ≡ₚ map_to_list schema ∧ es2 ≡ₚ map_to_list schema ∧
  new_producer compile dflt schema es1 = inr p1 ∧ new_producer compile dflt schema es2 = inr p2 ∧
  route (p_schema p1) k ≠ route (p_schema p2) k.
Proof.
  exists re_compile, (str "blocks"), re_schema, [(str "a", str "one"); (str "[ab]", str "two")], [(str "[ab]", str "two"); (str "a", str "one")].
  do 2 eexists. exists (str "a/x"). split; [apply (bool_decide_unpack _); by vm_compute|]. split; [apply (bool_decide_unpack _); by vm_compute|].
  split; [by vm_compute|]. split; [by vm_compute|]. by vm_compute.
Qed.

(** One sub-batch id under two keys: the topic depends on the order. *)
Definition shared_args : block_args :=
  BA 7 1 2 5 ∅ ∅ (<[(str "s/x" : bytes) := 9%N]> {[(str "y/" : bytes) := 9%N]}).
Lemma shared_topics : ∃ p o1 o2 a id, aorder_ok o1 ∧ aorder_ok o2 ∧ p_pending p = ∅ ∧ ¬ refused (prefix_of_key p) a ∧
  snd (send_batch (calls p [CAdd o1 a]) (λ l, l) id [] ∅) ≠ snd (send_batch (calls p [CAdd o2 a]) (λ l, l) id [] ∅).
Proof.
  exists ex_prod, id_aorder, rev_aorder, shared_args, 9%N. split; [done|]. split; [apply rev_aorder_ok|]. split; [done|]. split.
  - destruct (add_cases ex_prod id_aorder shared_args id_aorder_ok) as [(q & tm & _ & H)|(q & e & E & _)]; [done|].
    exfalso. cut (match snd (add_block ex_prod id_aorder shared_args) with inr _ => True | inl _ => False end); [by rewrite E|]. by vm_compute.
  - intros E. apply (f_equal (λ r, (λ tm, (map_to_list (tm : topics)).*1) <$> r)) in E. revert E. vm_compute. discriminate.
Qed.
