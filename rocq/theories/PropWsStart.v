(** C77: subscribing to a websocket upstream. *)
From Verif Require Import Base Types Producer Consumer Websocket SpecWebsocket WsSystem WsStart SpecWsStart WsStartFacts.

(** C77.  Whatever the server sends and whenever connections fail, the goroutine does not use a subscription identifier it does
    not have (a nil pointer). *)
Theorem C77_safe : ∀ n h ls, h_run (wst_new n h) ls ≠ Some Panic ∧ h_run (wst_new n h) ls ≠ Some Hang.
Proof. exact start_safe. Qed.
Print Assumptions C77_safe.

(** C77.  In every execution the consumer has processed, connection by connection, exactly the notifications of the subscription
    the server confirmed on that connection that came after the confirmation. *)
Theorem C77_exactly : ∀ n h ls y, h_run (wst_new n h) ls = Some (Ok y) →
  k_c (h_conn y) = wsc_sessions (wsc_new n h) (map expected (rev (links ls))).
Proof. exact start_exactly. Qed.
Print Assumptions C77_exactly.

(** C77.  Of a connection whose server confirms first and then sends notifications, that is everything sent for the subscription. *)
Theorem C77_delivered : ∀ n h ls y, h_run (wst_new n h) ls = Some (Ok y) →
  ∃ dss, k_c (h_conn y) = wsc_sessions (wsc_new n h) dss ∧
    Forall2 (λ ds k, ∀ s, orderly s k → items ds = sent_for s k) dss (rev (links ls)).
Proof. exact start_delivered. Qed.
Print Assumptions C77_delivered.

(** C77.  On every connection the consumer subscribes once, from the last block completed on the connections before. *)
Theorem C77_asked : ∀ n h ls y, h_run (wst_new n h) ls = Some (Ok y) →
  length (h_asked y) = length (links ls) ∧
  ∀ i x, h_asked y !! i = Some x → x = reached n h (wsc_sessions (wsc_new n h) (map expected (take i (rev (links ls))))).
Proof. exact start_asked. Qed.
Print Assumptions C77_asked.

(** C77.  Start has returned, or can return, exactly if a subscription was confirmed or a connection failed. *)
Theorem C77_start : ∀ n h ls y, h_run (wst_new n h) ls = Some (Ok y) →
  (h_back y = true ∨ is_Some (h_step LBack y) ↔ ∃ k, k ∈ links ls ∧ (is_Some (confirmed (n_id k) (n_msgs k)) ∨ n_broke k = true)).
Proof. exact start_back. Qed.
Print Assumptions C77_start.

(** C77.  However often the connection is made again, the channel returned by Ready is closed at most once. *)
Theorem C77_ready : ∀ n h ls y, h_run (wst_new n h) ls = Some (Ok y) → told_ready (k_c (h_conn y)) ≤ 1.
Proof. exact start_ready. Qed.
Print Assumptions C77_ready.

(** * Counterexamples *)
Definition sb1 : tbatch := TB 1 2 101 100 {[ [x61] := [x62] ]} [] ∅.
Definition sb2 : tbatch := TB 2 3 102 101 {[ [x61] := [x63] ]} [] ∅.
Definition fr (f : gframe) : wlabel := LFrame (λ l, l) f.

(** What an execution came to. *)
Definition seen (x : option (outcome wst)) : option (list (Z * hash) * list hash * nat * bool) :=
  match x with
  | Some (Ok y) => Some (h_asked y, pb_hash <$> blocks_out (k_c (h_conn y)), told_ready (k_c (h_conn y)), h_back y)
  | _ => None
  end.
Lemma seen_ok x a b c d : seen x = Some (a, b, c, d) →
  ∃ y, x = Some (Ok y) ∧ h_asked y = a ∧ pb_hash <$> blocks_out (k_c (h_conn y)) = b ∧ told_ready (k_c (h_conn y)) = c ∧ h_back y = d.
Proof. destruct x as [[y| |]|]; intros H; try discriminate H. injection H as <- <- <- <-. by exists y. Qed.

(** C77, refuted: when Start has returned the consumer is subscribed.  The connection broke before the server answered. *)
Theorem C77_start_refuted : ∃ ls y, h_run (wst_new 0 100) ls = Some (Ok y) ∧ h_back y = true ∧
  Forall (λ k, confirmed (n_id k) (n_msgs k) = None) (links ls).
Proof. exists [LDialed 7; LBreak; LBack]. eexists. split; [by vm_compute|]. split; [done|]. by repeat constructor. Qed.
Print Assumptions C77_start_refuted.

(** C77, refuted: every notification of the subscription is processed.  The one sent before the confirmation is not. *)
Theorem C77_lost_refuted : ∃ ls y k, h_run (wst_new 0 100) ls = Some (Ok y) ∧ links ls = [k] ∧ n_broke k = false ∧
  is_Some (confirmed (n_id k) (n_msgs k)) ∧ sent_for 5 k = [IBatch sb1; IBatch sb2] ∧ pb_hash <$> blocks_out (k_c (h_conn y)) = [102%N].
Proof.
  exists [LDialed 7; fr (GNote 5 (IBatch sb1)); fr (GResp 7 (RId 5)); fr (GNote 5 (IBatch sb2))].
  destruct (seen_ok (h_run (wst_new 0 100) [LDialed 7; fr (GNote 5 (IBatch sb1)); fr (GResp 7 (RId 5)); fr (GNote 5 (IBatch sb2))])
    [(0%Z, 100%N)] [102%N] 0 false) as (y & E & _ & Eb & _); [vm_compute; reflexivity|].
  exists y. eexists. split; [exact E|]. split; [reflexivity|]. split; [done|]. split; [by eexists|]. split; [reflexivity|exact Eb].
Qed.
Print Assumptions C77_lost_refuted.

(** C77, refuted: a subscription the server refuses is reported or asked for again.  After an answer without an identifier the
    consumer goes on waiting, whatever comes that is not an identifier; Start does not return. *)
Theorem C77_refused_refuted : ∃ ls y, h_run (wst_new 0 100) ls = Some (Ok y) ∧ length (h_asked y) = 1 ∧
  (∃ k, links ls = [k] ∧ (λ x, x.2) <$> n_msgs k = [GResp (n_id k) RNone]) ∧
  ∀ ms, Forall (λ x : (list hash → list hash) * gframe, ∀ id s, x.2 ≠ GResp id (RId s)) ms →
    ∃ y', h_run y (map (λ x, LFrame x.1 x.2) ms) = Some (Ok y') ∧ length (h_asked y') = 1 ∧ h_back y' = false ∧ h_step LBack y' = None.
Proof.
  exists [LDialed 7; fr (GResp 7 RNone)]. eexists. split; [by vm_compute|]. split; [done|]. split; [eexists; by split|].
  intros ms Hms. eexists. split.
  - apply (refused_stays _ 7); [done|done|]. eapply (Forall_impl _ _ _ Hms). intros [o f] H.
    destruct f as [| |id []| |]; try done. by destruct (H id s).
  - split; [done|]. by split.
Qed.
Print Assumptions C77_refused_refuted.

(** C77.  While the server cannot be reached Start waits, and reports nothing. *)
Theorem C77_unreachable : ∀ m, ∃ y, h_run (wst_new 0 100) (replicate m LRefused) = Some (Ok y) ∧ h_back y = false ∧ h_step LBack y = None.
Proof. intros m. exists (wst_new 0 100). split; [|done]. induction m as [|m IH]; [done|exact IH]. Qed.
Print Assumptions C77_unreachable.

(** * A run of the model *)
Definition two_links : list wlabel :=
  [LRefused; LDialed 7; fr (GResp 3 (RId 9)); fr GJunk; fr (GResp 7 (RId 5)); LBack; fr GEmpty; fr (GNote 5 IReady); fr (GNote 6 (IBatch sb2));
   fr (GNote 5 (IBatch sb1)); LBreak; LRefused; LDialed 8; LBreak; LBreak; LDialed 9; fr (GResp 9 (RId 1)); fr (GNote 1 IReady); fr GOther; fr (GNote 1 (IBatch sb2))].
(** C77: three connections, the second breaks before the answer; the third continues after block 1. *)
Example C77_case : ∃ y, h_run (wst_new 0 100) two_links = Some (Ok y) ∧ h_asked y = [(0%Z, 100%N); (1%Z, 101%N); (1%Z, 101%N)] ∧
  pb_hash <$> blocks_out (k_c (h_conn y)) = [101%N; 102%N] ∧ told_ready (k_c (h_conn y)) = 1 ∧ h_back y = true ∧
  (items <$> map expected (rev (links two_links))) = [[IReady; IBatch sb1]; []; [IReady; IBatch sb2]] ∧
  (∃ k, last (rev (links two_links)) = Some k ∧ orderly 1 k ∧ sent_for 1 k = [IReady; IBatch sb2]).
Proof.
  destruct (seen_ok (h_run (wst_new 0 100) two_links) [(0%Z, 100%N); (1%Z, 101%N); (1%Z, 101%N)] [101%N; 102%N] 1 true)
    as (y & E & Ea & Eb & Ec & Ed); [vm_compute; reflexivity|].
  exists y. split; [exact E|]. split; [exact Ea|]. split; [exact Eb|]. split; [exact Ec|]. split; [exact Ed|]. split; [reflexivity|].
  eexists. split; [reflexivity|]. split; [|reflexivity]. eexists _, _. split; [reflexivity|]. by repeat constructor.
Qed.
(** C77: what C77_safe excludes.  If a connection could deliver another message after a failed read, a notification would end the process. *)
Example C77_safe_case : ∀ k, h_step (fr (GNote 5 IReady)) (WSt (PRead None) true k 1 false [(0%Z, 100%N)]) = Some Panic.
Proof. done. Qed.
