(** Specification for C63: a consumer with its waiter. *)
From Verif Require Import Base Lru Types Consumer Ordering SpecChain System WsSystem Waiter SpecWaiter WaitSystem.

(** A consumer of messages (System.v) and a consumer of websocket notifications (WsSystem.v), each
    with a waiter and an application. *)
Definition sys_out (y : sys) : list mp_event := mp_out (y_mp y).
Definition sys_upd (y : sys) : list omp_event := o_out (y_omp y).
Definition sys_joint (c : mp_config) (cfg : config) : joint sys → Prop := joint_run (sys_step c) sys_out sys_upd (sys_run c cfg).
Definition ws_out (y : wsys) : list mp_event := mp_out (w_mp y).
Definition ws_upd (y : wsys) : list omp_event := o_out (w_omp y).
Definition ws_joint (c : mp_config) (cfg : config) : joint wsys → Prop := joint_run ws_step ws_out ws_upd (ws_run c cfg).

(** What a wait for the block [pb] gives from now on. *)
Definition settled_wait (tr : list waction) (d : list pending_batch) (w : wst) (pb : pending_batch) : Prop :=
  (∀ q c dl, w_qs w !! q ≠ Some (QParked (KHash (pb_hash pb)) c dl)) ∧
  ∀ q t b w', (∀ x, ALookup q x.1 x.2 ∉ tr) → (0 < t)%Z →
    wrun (tr ++ [ALookup q (KHash (pb_hash pb)) t; ASelect q b]) w_init = Ok w' →
    w_qs w' !! q = Some (QDone (KHash (pb_hash pb)) Success) ∨
    w_qs w' !! q = Some (QDone (KHash (pb_hash pb)) NotFound) ∧
    ((∀ n ch, (pb_hash pb, n, ch) ∉ received tr) ∨
     ∃ pb' ch pre post, pb' ∈ d ∧ pb_num pb' = pb_num pb ∧ pb_wait pb' = Some ch ∧
       tr = pre ++ ADone ch :: post ∧ (clock pre + sixty ≤ clock tr)%N).

(** Between two announcements of a block at least [n] other blocks were handed over. *)
Definition apart (n : nat) (o : list mp_event) : Prop :=
  ∀ pre h p k ch mid p' k' ch' post, o = pre ++ EWaiter h p k ch :: mid ++ EWaiter h p' k' ch' :: post →
  ∃ hs, NoDup hs ∧ length hs = n ∧ h ∉ hs ∧ ∀ x, x ∈ hs → ∃ pb, EBatch pb ∈ mid ∧ pb_hash pb = x.
