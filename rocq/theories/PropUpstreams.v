(** Property C69: upstreams of one consumer that deliver at the same moment (delivery/consumer.go:254-268, transports/websockets.go:380-467,
    transports/resolver.go:94-107). *)
From Coq Require Import Strings.String.
From Verif Require Import Base Lru Types Wire Producer Consumer SpecToken Websocket SpecWebsocket PropWebsocket
  Ordering SpecChain System WsSystem SpecWsSystem PropWsSystem PropMemory Upstreams SpecUpstreams UpstreamsFacts.

(** C69.  As C57_end_to_end, with the statements of simultaneous calls interleaved in any way. *)
Theorem C69_end_to_end : ∀ c cfg s0 l s, fstart c cfg s0 → frun c s0 l s → Forall fact_ws l →
  ∀ (css : list (list wcall)) base num w old new,
  (∀ cs, cs ∈ css → publishes (old ++ new) cs) →
  started cfg base num w (map args_hdr old) (map args_hdr new) →
  (∀ k, k ∈ upstreams s → ∃ cs rest, cs ∈ css ∧ delivers cs k rest) →
  all_removed (o_out (f_omp s)) = [] ∧
  (∃ n, Forall2 (λ a pb, ∃ cs, cs ∈ css ∧ submitted cs a pb) (take n new) (all_added (o_out (f_omp s)))) ∧
  ((∀ a, a ∈ new → ∃ k cs, k ∈ upstreams s ∧ cs ∈ css ∧ delivers cs k [] ∧ all_answered cs a) →
   all_idle s → all_taken s →
   Forall2 (λ a pb, ∃ cs, cs ∈ css ∧ submitted cs a pb) new (all_added (o_out (f_omp s)))) ∧
  (∀ o, order_ok o → fstep c (FTake o) s ≠ Some None).
Proof. exact fine_end_to_end. Qed.
Print Assumptions C69_end_to_end.

(** C69.  As C57_reconnect. *)
Theorem C69_reconnect : ∀ c cfg s0 l s, fstart c cfg s0 → frun c s0 l s → Forall fact_ws l →
  ∀ num chain,
  started cfg (cfg_last_hash cfg) num (cfg_last_weight cfg) [] (map wb_hdr chain) →
  (∀ k, k ∈ upstreams s → no_reorg_item k) →
  (∀ k, k ∈ upstreams s → sessions_ok chain (cfg_last_num cfg) (cfg_last_hash cfg) (wsc_new (cfg_last_num cfg) (cfg_last_hash cfg)) (life k)) →
  all_removed (o_out (f_omp s)) = [] ∧
  (∃ m, Forall2 block_done (take m chain) (all_added (o_out (f_omp s)))) ∧
  (all_idle s → all_taken s → ∀ k, k ∈ upstreams s →
   ∃ n m, resume_at chain (cfg_last_num cfg) (cfg_last_hash cfg) (k_c k) n ∧ n ≤ m ∧ n ≤ length chain ∧
     Forall2 block_done (take m chain) (all_added (o_out (f_omp s)))) ∧
  (all_idle s → all_taken s →
   (∃ k n, k ∈ upstreams s ∧
      resume_at chain (cfg_last_num cfg) (cfg_last_hash cfg) (wsc_sessions (wsc_new (cfg_last_num cfg) (cfg_last_hash cfg)) (k_done k)) n ∧
      caught_up chain n (items (k_cur k))) →
   Forall2 block_done chain (all_added (o_out (f_omp s)))).
Proof. exact fine_reconnect. Qed.
Print Assumptions C69_reconnect.

(** C69.  Whatever the websocket upstreams send and however their calls overlap: a block is announced to the waiters before it is
    handed over, with the channel its Done closes, and no channel is announced twice. *)
Theorem C69_announced_first : ∀ c cfg s0 l s, fstart c cfg s0 → frun c s0 l s → Forall fact_ws l →
  (∀ pb, EBatch pb ∈ mp_out (f_mp s) → ∃ ch, pb_wait pb = Some ch ∧
     before (mp_out (f_mp s)) (EWaiter (pb_hash pb) (pb_parent pb) (pb_num pb) ch) (EBatch pb)) ∧
  NoDup (omap channel (mp_out (f_mp s))).
Proof. exact fine_announced. Qed.
Print Assumptions C69_announced_first.

(** C69.  The blocks of each upstream are handed over once each and in the order in which they were completed; at most the last is
    still on its way. *)
Theorem C69_in_order : ∀ c cfg s0 l s, fstart c cfg s0 → frun c s0 l s → Forall fact_ws l →
  ∀ i k, f_conns s !! i = Some k →
  ∃ done rest, blocks_out (k_c (fc_conn k)) = done ++ rest ∧ length rest ≤ 1 ∧ (fc_call k = CIdle → rest = []) ∧ handed_over s done.
Proof. exact fine_order. Qed.
Print Assumptions C69_in_order.

(** C69.  With websocket upstreams only, no overlap of calls ends the process. *)
Theorem C69_no_crash_partial : ∀ c cfg s0 l s, fstart c cfg s0 → frun c s0 l s → Forall fact_ws l →
  ∀ a, fact_ok a → fact_ws a → (∀ o, a ≠ FTake o) → fstep c a s ≠ Some None.
Proof. exact fine_no_crash. Qed.
Print Assumptions C69_no_crash_partial.

(** C69.  A call that nothing overlaps does what the models with whole calls say. *)
Theorem C69_whole : ∀ c s i k pb, f_conns s !! i = Some (FC k (CAnnounce pb)) → mp_pend (f_mp s) = ∅ →
  frun c s (replicate 5 (FCall i)) (FS (<[i := FC k CIdle]> (f_conns s)) (process_complete (f_mp s) pb) (f_omp s) (f_taken s) (f_msg s)).
Proof. exact undisturbed. Qed.
Print Assumptions C69_whole.

(** * Runs of the model *)
Fixpoint fgo (c : mp_config) (s : fsys) (l : list fact) : option (option fsys) :=
  match l with
  | [] => Some (Some s)
  | a :: l => match fstep c a s with Some (Some s') => fgo c s' l | r => match l with [] => r | _ => None end end
  end.
Lemma frun_cons c s a s1 l s2 : fact_ok a → fstep c a s = Some (Some s1) → frun c s1 l s2 → frun c s (a :: l) s2.
Proof.
  intros Ha E Hr. induction Hr as [s1|s1 l s2 b s3 Hr IH Hb E']; [by apply (frun_snoc c s [] s a s1); [constructor| |]|].
  change (a :: l ++ [b]) with ((a :: l) ++ [b]). eapply frun_snoc; [by apply IH|done|done].
Qed.
Lemma fgo_run c l : ∀ s s', Forall fact_ok l → fgo c s l = Some (Some s') → frun c s l s'.
Proof.
  induction l as [|a l IH]; intros s s' Ho E; cbn in E; [injection E as <-; constructor|].
  apply Forall_cons in Ho as [Ha Ho].
  destruct (fstep c a s) as [[s1|]|] eqn:E1; [|destruct l; discriminate E|destruct l; discriminate E].
  eapply frun_cons; [done|exact E1|]. by apply IH.
Qed.
Definition fbegin (n : nat) (c : mp_config) (cfg : config) : option fsys :=
  match mp_new c (cfg_last_num cfg), new_omp cfg with
  | Ok st, Ok s => Some (FS (replicate n (FC (conn_new cfg) CIdle)) st s [] None)
  | _, _ => None
  end.
Lemma fbegin_start n c cfg s : mc_thr c = cfg_threshold cfg → fbegin n c cfg = Some s → fstart c cfg s.
Proof.
  intros Ht Hb. unfold fbegin in Hb. destruct (mp_new c (cfg_last_num cfg)) as [st| |] eqn:E1; [|done|done].
  destruct (new_omp cfg) as [om| |] eqn:E2; [|done|done]. injection Hb as <-. split_and!; try done.
  cbn. apply Forall_forall. intros k [-> _]%elem_of_replicate. done.
Qed.

(** Two upstreams complete different blocks; both calls are under way at the same time and overtake one another. *)
Definition up_frame (i : nat) (x : item) : fact := FFrame i keep (FNote x).
Definition up_run : list fact :=
  [up_frame 0 (IBatch wb1); up_frame 1 (IBatch wb2); up_frame 0 (ISub ws12); up_frame 0 (ISub ws11);
   FCall 0; FCall 1; FCall 1; FCall 1; FCall 0; FCall 1; FTake id_order; FCall 0; FCall 1; FCall 0; FCall 0;
   up_frame 0 (IBatch wb2); FCall 0; FTake id_order; FCall 0; FCall 0; FCall 0; FCall 0; FTake id_order].
Definition up_marks (o : list mp_event) : list (bool * hash) :=
  map (λ ev, match ev with EWaiter h _ _ _ => (true, h) | EBatch pb => (false, pb_hash pb) | EReorg _ h => (true, h) end) o.
Definition up_seen (s : fsys) := (map (λ k, (items (k_cur (fc_conn k)), match fc_call k with CIdle => true | _ => false end)) (f_conns s),
  up_marks (mp_out (f_mp s)), pb_hash <$> all_added (o_out (f_omp s)), length (batches_of (f_taken s))).
Lemma up_ok : Forall fact_ok up_run ∧ Forall fact_ws up_run.
Proof.
  split; unfold up_run; repeat (apply Forall_cons_2; [first [exact I|exact id_order_ok|by intros x]|]); apply Forall_nil_2.
Qed.
Lemma up_exec : ∃ s0 s, fstart mc57 cfg57 s0 ∧ frun mc57 s0 up_run s ∧
  up_seen s = ([([IBatch wb1; ISub ws12; ISub ws11; IBatch wb2], true); ([IBatch wb2], true)],
    [(true, 101%N); (true, 102%N); (false, 102%N); (false, 101%N); (true, 102%N); (false, 102%N)], [101%N; 102%N], 3) ∧
  map k_done (upstreams s) = [[]; []].
Proof.
  assert (H : (s ← fbegin 2 mc57 cfg57; x ← fgo mc57 s up_run; (λ s, (up_seen s, map k_done (upstreams s))) <$> x) =
    Some (([([IBatch wb1; ISub ws12; ISub ws11; IBatch wb2], true); ([IBatch wb2], true)],
      [(true, 101%N); (true, 102%N); (false, 102%N); (false, 101%N); (true, 102%N); (false, 102%N)], [101%N; 102%N], 3), [[]; []]))
    by (vm_compute; reflexivity).
  destruct (fbegin 2 mc57 cfg57) as [s0|] eqn:E0; [|discriminate H]. cbn [mbind option_bind] in H.
  destruct (fgo mc57 s0 up_run) as [[s|]|] eqn:E1; [|discriminate H|discriminate H]. cbn [mbind option_bind fmap option_fmap option_map] in H.
  apply (inj Some) in H. apply pair_eq in H as [H1 H2].
  exists s0, s. split; [by eapply fbegin_start|]. split; [|by split]. apply fgo_run; [apply up_ok|done].
Qed.
Example C69_case : ∃ s0 s,
  fstart mc57 cfg57 s0 ∧ frun mc57 s0 up_run s ∧ Forall fact_ws up_run ∧
  (∀ cs, cs ∈ [wcs57] → publishes ([] ++ [wa1; wa2]) cs) ∧
  started cfg57 100 0 4 (map args_hdr []) (map args_hdr [wa1; wa2]) ∧
  (∀ k, k ∈ upstreams s → ∃ cs rest, cs ∈ [wcs57] ∧ delivers cs k rest) ∧
  (∀ a, a ∈ [wa1; wa2] → ∃ k cs, k ∈ upstreams s ∧ cs ∈ [wcs57] ∧ delivers cs k [] ∧ all_answered cs a) ∧
  all_idle s ∧ length (batches_of (f_taken s)) = length (sent_batches (mp_out (f_mp s))) ∧
  pb_hash <$> all_added (o_out (f_omp s)) = [101%N; 102%N].
Proof.
  destruct up_exec as (s0 & s & H0 & Hr & Hs & Hd). exists s0, s.
  assert (P1 : [IBatch wb1; ISub ws12; ISub ws11; IBatch wb2] ++ [] ≡ₚ json_item <$> p_sent (wsp_run wcs57)).
  { rewrite sent57, app_nil_r. apply perm_skip. symmetry. apply (Permutation_middle [ISub ws12; ISub ws11] [] (IBatch wb2)). }
  assert (P2 : [IBatch wb2] ++ [IBatch wb1; ISub ws12; ISub ws11] ≡ₚ json_item <$> p_sent (wsp_run wcs57)).
  { rewrite sent57. apply perm_swap. }
  unfold up_seen in Hs. apply pair_eq in Hs as [Hs H3]. apply pair_eq in Hs as [Hs H4]. apply pair_eq in Hs as [H1 H2].
  destruct (f_conns s) as [|k1 [|k2 [|]]] eqn:Ek; try discriminate H1. cbn [map] in H1.
  injection H1 as E1 E2 E3 E4. unfold upstreams in *. rewrite Ek in *. cbn [map] in Hd. injection Hd as D1 D2.
  assert (D : delivers wcs57 (fc_conn k1) []) by (split; [done|]; by rewrite E1).
  split; [done|]. split; [done|]. split; [apply up_ok|].
  split; [intros cs ->%elem_of_list_singleton; exact wcs57_publishes|]. split; [exact started57|].
  split; [|split; [|split; [|split]]].
  - cbn. intros k [->|[->|[]%elem_of_nil]%elem_of_cons]%elem_of_cons.
    + exists wcs57, []. split; [apply elem_of_list_here|done].
    + exists wcs57, [IBatch wb1; ISub ws12; ISub ws11]. split; [apply elem_of_list_here|]. split; [done|]. by rewrite E3.
  - intros a Ha. exists (fc_conn k1), wcs57. split; [apply elem_of_list_here|]. split; [apply elem_of_list_here|]. split; [done|by apply answered57].
  - intros k Hk. rewrite Ek in Hk. apply elem_of_cons in Hk as [->|Hk]; [by destruct (fc_call k1)|].
    apply elem_of_list_singleton in Hk as ->. by destruct (fc_call k2).
  - rewrite H3. assert (Hl : length (sent_batches (mp_out (f_mp s))) = length (filter (λ x : bool * hash, x.1 = false) (up_marks (mp_out (f_mp s))))).
    { clear. induction (mp_out (f_mp s)) as [|[] l IH]; [done|..]; first [exact IH|exact (f_equal S IH)]. }
    by rewrite Hl, H2.
  - done.
Qed.

(** C69, refuted: the announcements do not come in the order of the blocks. *)
Theorem C69_order_refuted : ∃ c cfg s0 l s, fstart c cfg s0 ∧ frun c s0 l s ∧ Forall fact_ws l ∧
  up_marks (mp_out (f_mp s)) = [(true, 101%N); (true, 102%N); (false, 102%N); (false, 101%N); (true, 102%N); (false, 102%N)].
Proof.
  destruct up_exec as (s0 & s & H0 & Hr & Hs & _). exists mc57, cfg57, s0, up_run, s. split; [done|]. split; [done|].
  split; [apply up_ok|]. unfold up_seen in Hs. apply pair_eq in Hs as [Hs _]. apply pair_eq in Hs as [Hs _]. by apply pair_eq in Hs as [_ Hs].
Qed.
Print Assumptions C69_order_refuted.

(** C69, refuted: with a websocket and a Kafka upstream the process may end.  Block 7 is being collected from Kafka; the websocket
    upstream is removing its block from the map when the header of block 8 arrives, or the other way round. *)
Definition up_mixed : list fact :=
  [FMsg (mem_open 7 1) id_env; FMsgEnd; up_frame 0 (IBatch wb2); FCall 0; FCall 0; FCall 0; FCall 0; FCall 0].
Definition up_mixed2 : list fact :=
  [FMsg (mem_open 7 1) id_env; FMsgEnd; up_frame 0 (IBatch wb2); FCall 0; FCall 0; FCall 0; FCall 0; FMsg (mem_open 8 2) id_env].
Theorem C69_mixed_refuted : ∃ c cfg s0, fstart c cfg s0 ∧
  (∃ l s m e r, frun c s0 l s ∧ process c e (f_mp s) m = Ok r ∧ fstep c (FMsg m e) s = Some None) ∧
  (∃ l s i m e, frun c s0 l s ∧ f_msg s = Some (m, e) ∧ fstep c (FCall i) s = Some None).
Proof.
  assert (H : (s ← fbegin 2 mc57 cfg57; x ← fgo mc57 s up_mixed;
      (λ s, match process mc57 id_env (f_mp s) (mem_open 8 2), fstep mc57 (FMsg (mem_open 8 2) id_env) s with Ok _, Some None => true | _, _ => false end) <$> x) =
    Some true) by (vm_compute; reflexivity).
  assert (H' : (s ← fbegin 2 mc57 cfg57; x ← fgo mc57 s up_mixed2;
      (λ s, match f_msg s, fstep mc57 (FCall 0) s with Some _, Some None => true | _, _ => false end) <$> x) =
    Some true) by (vm_compute; reflexivity).
  destruct (fbegin 2 mc57 cfg57) as [s0|] eqn:E0; [|discriminate H]. cbn [mbind option_bind] in H, H'.
  destruct (fgo mc57 s0 up_mixed) as [[s|]|] eqn:E1; [|discriminate H|discriminate H]. cbn [mbind option_bind fmap option_fmap option_map] in H.
  destruct (fgo mc57 s0 up_mixed2) as [[s'|]|] eqn:E1'; [|discriminate H'|discriminate H']. cbn [mbind option_bind fmap option_fmap option_map] in H'.
  apply (inj Some) in H. apply (inj Some) in H'.
  exists mc57, cfg57, s0. split; [by eapply fbegin_start|]. split.
  - destruct (process mc57 id_env (f_mp s) (mem_open 8 2)) as [r| |] eqn:E2; [|discriminate H|discriminate H].
    destruct (fstep mc57 (FMsg (mem_open 8 2) id_env) s) as [[?|]|] eqn:E3; [discriminate H| |discriminate H].
    exists up_mixed, s, (mem_open 8 2), id_env, r. split; [|by split].
    apply fgo_run; [|done]. unfold up_mixed; repeat (apply Forall_cons_2; [first [exact I|by intros x]|]); apply Forall_nil_2.
  - destruct (f_msg s') as [[m e]|] eqn:E2; [|discriminate H'].
    destruct (fstep mc57 (FCall 0) s') as [[?|]|] eqn:E3; [discriminate H'| |discriminate H'].
    exists up_mixed2, s', 0, m, e. split; [|by split].
    apply fgo_run; [|done]. unfold up_mixed2; repeat (apply Forall_cons_2; [first [exact I|by intros x]|]); apply Forall_nil_2.
Qed.
Print Assumptions C69_mixed_refuted.
