(** C31: restart at an announced ancestor. *)
From Coq Require Import Strings.String.
From Verif Require Import Base Lru LruFacts Types Ordering SpecChain OrderingBase OrderingPanic.

Lemma emit_loop_prefix f o s new s' new' : emit_loop f o s new = Ok (s', new') → ∃ more, new' = new ++ more.
Proof.
  revert s new; induction f as [|f IH]; intros s new; cbn [emit_loop]; [discriminate|].
  destruct (get_child _ _ _ _) as [[h|]| |]; ob; [| |discriminate|discriminate].
  - destruct (o_pending s !! h) as [b|]; [|discriminate].
    destruct (finish_siblings _ _ _) as [s1| |]; ob; [|discriminate|discriminate].
    destruct (fin_add _ _ _) as [s2| |]; ob; [|discriminate|discriminate].
    intros H. apply IH in H as [more ->]. exists (b :: more). by rewrite <- app_assoc.
  - intros [= <- <-]. exists []. by rewrite app_nil_r.
Qed.

Lemma prepare_emit_one o s pb s' : prepare_emit o s [pb] [] = Ok s' →
  ∃ more, updates_of (o_out s') = updates_of (o_out s) ++ [(pb :: more, [])].
Proof.
  intros H. pose proof (prepare_emit_out _ _ _ _ _ H) as (evs & new' & Ho & He).
  unfold prepare_emit in H. cbn [last] in H.
  destruct (finish_siblings _ _ _) as [s1| |]; ob; [|discriminate|discriminate].
  unfold mbind in H. cbn [outcome_bind] in H.
  destruct (fin_add _ _ _) as [s2| |]; cbn [mbind outcome_bind] in H; [|discriminate|discriminate].
  destruct (emit_loop _ _ _ _) as [[s3 n]| |] eqn:E; cbn [mbind outcome_bind] in H; [|discriminate|discriminate].
  injection H as <-. apply emit_loop_prefix in E as [more ->]. exists more.
  cbn [o_out send fst snd] in *. rewrite (app_assoc _ evs) in Ho. apply app_inj_tail in Ho as [Ho [= <-]].
  rewrite updates_of_app, Ho, updates_of_app, (updates_of_evicts evs) by done. by rewrite app_nil_r.
Qed.

Lemma restart_announced s o n h :
  ∃ s', omp_step s (o, InReorg n h) = Ok s' ∧ o_out s' = o_out s ++ [EvReorg n h] ∧ o_last s' = h.
Proof. eexists. split; [done|]. done. Qed.

Lemma restart_child s o n h o' pb s' s'' :
  omp_step s (o, InReorg n h) = Ok s' → omp_step s' (o', InBatch pb) = Ok s'' →
  pb_parent pb = h → omp_why s (pb_hash pb) ≠ Some (str "done, not evicted"%string) →
  excluded (o_wl s) pb = false → h ∉ o_bl s →
  ∃ more, updates_of (o_out s'') = updates_of (o_out s) ++ [(pb :: more, [])].
Proof.
  intros [= <-] H Hp Hf Hx Hb. unfold omp_step, handle_batch in H. cbn [fst snd handle] in H.
  change (o_wl (handle_reorg s n h)) with (o_wl s) in H. rewrite Hx in H.
  rewrite bool_decide_eq_false_2 in H by (by rewrite Hp).
  set (s1 := set_pending _ _) in H.
  replace (finished s1 (pb_hash pb)) with false in H.
  2: { unfold omp_why in Hf. change (finished s1 (pb_hash pb)) with (finished s (pb_hash pb)).
       by destruct (finished s (pb_hash pb)). }
  cbn [andb] in H. rewrite bool_decide_eq_true_2 in H by done.
  apply prepare_emit_one in H as [more ->]. exists more. f_equal.
  cbn. rewrite updates_of_app. cbn. by rewrite app_nil_r.
Qed.
