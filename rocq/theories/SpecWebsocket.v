(** What the websocket transport should do: vocabulary of the statements in PropWebsocket.v.
    Independent of the consumer's state and of the way it merges. *)
From Verif Require Import Base Types Producer Websocket.

(** ** Well-formed UTF-8: The Unicode Standard, table 3-7, row by row. *)
Definition between (lo hi : N) (b : byte) : Prop := (lo <= Byte.to_N b <= hi)%N.

Inductive utf8 : bytes → Prop :=
| utf8_nil : utf8 []
| utf8_ascii b0 l : between 0 127 b0 → utf8 l → utf8 (b0 :: l)
| utf8_c2_df b0 b1 l : between 194 223 b0 → between 128 191 b1 → utf8 l → utf8 (b0 :: b1 :: l)
| utf8_e0 b0 b1 b2 l :
    between 224 224 b0 → between 160 191 b1 → between 128 191 b2 → utf8 l → utf8 (b0 :: b1 :: b2 :: l)
| utf8_e1_ec b0 b1 b2 l :
    between 225 236 b0 → between 128 191 b1 → between 128 191 b2 → utf8 l → utf8 (b0 :: b1 :: b2 :: l)
| utf8_ed b0 b1 b2 l :
    between 237 237 b0 → between 128 159 b1 → between 128 191 b2 → utf8 l → utf8 (b0 :: b1 :: b2 :: l)
| utf8_ee_ef b0 b1 b2 l :
    between 238 239 b0 → between 128 191 b1 → between 128 191 b2 → utf8 l → utf8 (b0 :: b1 :: b2 :: l)
| utf8_f0 b0 b1 b2 b3 l :
    between 240 240 b0 → between 144 191 b1 → between 128 191 b2 → between 128 191 b3 →
    utf8 l → utf8 (b0 :: b1 :: b2 :: b3 :: l)
| utf8_f1_f3 b0 b1 b2 b3 l :
    between 241 243 b0 → between 128 191 b1 → between 128 191 b2 → between 128 191 b3 →
    utf8 l → utf8 (b0 :: b1 :: b2 :: b3 :: l)
| utf8_f4 b0 b1 b2 b3 l :
    between 244 244 b0 → between 128 143 b1 → between 128 191 b2 → between 128 191 b3 →
    utf8 l → utf8 (b0 :: b1 :: b2 :: b3 :: l).

(** All strings of a message are well-formed. *)
Definition utf8_keys {V} (m : gmap bytes V) : Prop := ∀ k, is_Some (m !! k) → utf8 k.
Definition utf8_item (i : item) : Prop :=
  match i with
  | IBatch b => utf8_keys (tb_values b) ∧ utf8_keys (tb_batches b) ∧ Forall utf8 (tb_deletes b)
  | ISub s => utf8_keys (ts_values s) ∧ Forall utf8 (ts_deletes s)
  | _ => True
  end.

(** ** Deliveries *)
Definition ids_of (b : tbatch) : list hash := snd <$> map_to_list (tb_batches b).
Definition announces (b : tbatch) (id : hash) : Prop := ∃ prefix, tb_batches b !! prefix = Some id.

Definition batches_in (l : list item) : list tbatch :=
  omap (λ i, match i with IBatch b => Some b | _ => None end) l.
Definition subs_in (l : list item) : list tsub :=
  omap (λ i, match i with ISub s => Some s | _ => None end) l.

(** What a sequence of messages must satisfy for blocks to be assembled from it: every block is
    announced once, every identifier is announced by one block under one prefix and is answered at
    most once, in the name of the block that announced it. *)
Record clean (l : list item) : Prop := Clean {
  clean_hashes : NoDup (tb_hash <$> batches_in l);
  clean_subs : NoDup (ts_id <$> subs_in l);
  clean_ids : NoDup (b ← batches_in l; ids_of b);
  clean_owner : ∀ b s, IBatch b ∈ l → ISub s ∈ l → announces b (ts_id s) → ts_hash s = tb_hash b;
  clean_member : ∀ b s, IBatch b ∈ l → ISub s ∈ l → ts_hash s = tb_hash b →
                 announces b (ts_id s) ∨ tb_batches b = ∅
}.

(** The sub-batches of [b] among [l]; all of them have arrived. *)
Definition part_of (l : list item) (b : tbatch) (s : tsub) : Prop :=
  ISub s ∈ l ∧ announces b (ts_id s).
Definition all_arrived (l : list item) (b : tbatch) : Prop :=
  IBatch b ∈ l ∧ ∀ id, announces b id → ∃ s, ISub s ∈ l ∧ ts_id s = id.

(** [pb] is the block [b] together with the sub-batches of [l]: a key set by a sub-batch has a
    value one of them gives it, a key set by the batch message only has the value given there. *)
Record assembled (l : list item) (b : tbatch) (pb : pending_batch) : Prop := Assembled {
  as_num : pb_num pb = tb_num b;
  as_weight : pb_weight pb = tb_weight b;
  as_hash : pb_hash pb = tb_hash b;
  as_parent : pb_parent pb = tb_parent b;
  as_deletes : ∀ k, k ∈ pb_deletes pb ↔
    k ∈ tb_deletes b ∨ ∃ s, part_of l b s ∧ k ∈ ts_deletes s;
  as_values : ∀ k v, pb_values pb !! k = Some v →
    (∃ s, part_of l b s ∧ ts_values s !! k = Some v) ∨
    (tb_values b !! k = Some v ∧ ∀ s, part_of l b s → ts_values s !! k = None);
  as_keys : ∀ k, is_Some (pb_values pb !! k) ↔
    is_Some (tb_values b !! k) ∨ ∃ s, part_of l b s ∧ is_Some (ts_values s !! k)
}.

(** The blocks handed to the ordered processor, in order; those with a given hash. *)
Definition blocks_out (st : wsc) : list pending_batch :=
  omap (λ e, match e with WComplete pb => Some pb | _ => None end) (c_out st).
Definition outs (st : wsc) (h : hash) : list pending_batch :=
  filter (λ pb, pb_hash pb = h) (blocks_out st).

Definition orders_ok (ds : list delivery) : Prop := Forall (λ d : delivery, ∀ l, fst d l ≡ₚ l) ds.
Definition items (ds : list delivery) : list item := snd <$> ds.

(** ** Producer calls *)
Definition call_args (c : wcall) : option block_args :=
  match c with WAdd _ a => Some a | _ => None end.
(** Hashes are not reused and identifiers are not reused, neither by another block nor under
    another prefix of the same block. *)
Record calls_wf (cs : list wcall) : Prop := CallsWf {
  cw_hashes : NoDup (ba_hash <$> omap call_args cs);
  cw_ids : NoDup (a ← omap call_args cs; snd <$> map_to_list (ba_batches a));
  cw_orders : ∀ od a, WAdd od a ∈ cs → ∀ l, od l ≡ₚ l
}.
Definition has_id (a : block_args) (id : hash) : Prop := ∃ prefix, ba_batches a !! prefix = Some id.

(** The sub-batch answering identifier [id] of block [a]: the first SendBatch with that
    identifier after the AddBlock. *)
Definition answered (cs : list wcall) (a : block_args) (id : hash) (dels : list bytes) (ups : gmap bytes bytes) : Prop :=
  has_id a id ∧ ∃ l0 od l1 l2, cs = l0 ++ WAdd od a :: l1 ++ WSend id dels ups :: l2 ∧
    ∀ dels' ups', WSend id dels' ups' ∉ l1.
Definition added (cs : list wcall) (a : block_args) : Prop := ∃ od, WAdd od a ∈ cs.

(** The message of an AddBlock, whatever the order of its deletes. *)
Record tells (a : block_args) (b : tbatch) : Prop := Tells {
  te_num : tb_num b = ba_num a;
  te_weight : tb_weight b = ba_weight a;
  te_hash : tb_hash b = ba_hash a;
  te_parent : tb_parent b = ba_parent a;
  te_values : tb_values b = ba_updates a;
  te_deletes : ∀ k, k ∈ tb_deletes b ↔ k ∈ ba_deletes a;
  te_batches : tb_batches b = ba_batches a
}.

(** [pb] is block [a] with the sub-batches submitted for it. *)
Record submitted (cs : list wcall) (a : block_args) (pb : pending_batch) : Prop := Submitted {
  su_num : pb_num pb = ba_num a;
  su_weight : pb_weight pb = ba_weight a;
  su_hash : pb_hash pb = ba_hash a;
  su_parent : pb_parent pb = ba_parent a;
  su_deletes : ∀ k, k ∈ pb_deletes pb ↔
    k ∈ ba_deletes a ∨ ∃ id dels ups, answered cs a id dels ups ∧ k ∈ dels;
  su_values : ∀ k v, pb_values pb !! k = Some v →
    (∃ id dels ups, answered cs a id dels ups ∧ ups !! k = Some v) ∨
    (ba_updates a !! k = Some v ∧ ∀ id dels ups, answered cs a id dels ups → ups !! k = None);
  su_keys : ∀ k, is_Some (pb_values pb !! k) ↔
    is_Some (ba_updates a !! k) ∨ ∃ id dels ups, answered cs a id dels ups ∧ is_Some (ups !! k)
}.
(** Every sub-batch of [a] has been submitted. *)
Definition all_answered (cs : list wcall) (a : block_args) : Prop :=
  added cs a ∧ ∀ id, has_id a id → ∃ dels ups, answered cs a id dels ups.

(** All strings submitted are valid UTF-8. *)
Definition utf8_call (c : wcall) : Prop :=
  match c with
  | WAdd _ a => utf8_keys (ba_updates a) ∧ utf8_keys (ba_batches a) ∧ ∀ k, k ∈ ba_deletes a → utf8 k
  | WSend _ dels ups => utf8_keys ups ∧ Forall utf8 dels
  | WReorgCall _ _ => True
  end.

(** ** One connection after the other, with contiguous blocks

    A block as the producer sends it: the batch message, then exactly one sub-batch for each
    identifier, in any order. *)
Record block_msgs (b : tbatch) (subs : list tsub) : Prop := BlockMsgs {
  bm_ids : (ts_id <$> subs) ≡ₚ ids_of b;
  bm_nodup : NoDup (ids_of b);
  bm_hash : Forall (λ s, ts_hash s = tb_hash b) subs
}.
(** A block: its batch message and its sub-batches; all its messages. *)
Record wblock := WB { wb_head : tbatch; wb_subs : list tsub }.
Definition wb_hash (x : wblock) : hash := tb_hash (wb_head x).
Definition wb_num (x : wblock) : Z := tb_num (wb_head x).
Definition wb_items (x : wblock) : list item := IBatch (wb_head x) :: (ISub <$> wb_subs x).
(** [pb] is the block [x]. *)
Definition block_done (x : wblock) (pb : pending_batch) : Prop := assembled (wb_items x) (wb_head x) pb.
(** One message without sub-batches that carries all of [x] (stored earlier as [pb]). *)
Definition whole (x : wblock) (b : tbatch) : Prop :=
  tb_batches b = ∅ ∧ ∃ pb, block_done x pb ∧
    tb_num b = pb_num pb ∧ tb_weight b = pb_weight pb ∧ tb_hash b = pb_hash pb ∧ tb_parent b = pb_parent pb ∧
    tb_values b = pb_values pb ∧ ∀ k, k ∈ tb_deletes b ↔ k ∈ pb_deletes pb.
(** [group x l]: [l] are the messages of [x] as the feed forwards them or as the catch-up forwards
    them.  Messages of other kinds may come before. *)
Definition other (i : item) : Prop := match i with IBatch _ | ISub _ => False | _ => True end.
Inductive group (x : wblock) : list item → Prop :=
| group_live subs pre : Forall other pre → subs ≡ₚ wb_subs x → block_msgs (wb_head x) subs →
    group x (pre ++ IBatch (wb_head x) :: (ISub <$> subs))
| group_catch b pre : Forall other pre → whole x b → group x (pre ++ [IBatch b]).
(** A connection that resumes at the [n]-th block of [chain] and is cut anywhere. *)
Definition connection (chain : list wblock) (n : nat) (l : list item) : Prop :=
  ∃ groups rest, Forall2 group (drop n chain) groups ∧ l ++ rest = concat groups.
(** It was not cut before the end. *)
Definition caught_up (chain : list wblock) (n : nat) (l : list item) : Prop :=
  ∃ groups, Forall2 group (drop n chain) groups ∧ l = concat groups.

(** The position behind the remembered block. *)
Definition resume_at (chain : list wblock) (n0 : Z) (h0 : hash) (st : wsc) (n : nat) : Prop :=
  (n = 0 ∧ (c_num st, c_hash st) = (n0, h0)) ∨
  (∃ b, 0 < n ∧ chain !! (pred n) = Some b ∧ (c_num st, c_hash st) = (wb_num b, wb_hash b)).
Inductive sessions_ok (chain : list wblock) (n0 : Z) (h0 : hash) : wsc → list (list delivery) → Prop :=
| sessions_nil st : sessions_ok chain n0 h0 st []
| sessions_cons st ds l n :
    resume_at chain n0 h0 st n → connection chain n (items ds) → orders_ok ds →
    sessions_ok chain n0 h0 (wsc_run (wsc_connect st) ds) l → sessions_ok chain n0 h0 st (ds :: l).

(** ** Catch-up *)
Definition stores (l : list sact) : list pending_batch :=
  omap (λ a, match a with AStore pb => Some pb | _ => None end) l.
Definition sends (l : list sact) : list item :=
  omap (λ a, match a with ASend i => Some i | _ => None end) l.
(** The application stores the block that a message announces before it sends the message. *)
Definition stored_first (db : list pending_batch) (blk : item → option pending_batch) (l : list sact) : Prop :=
  ∀ l1 i l2 pb, l = l1 ++ ASend i :: l2 → blk i = Some pb → pb ∈ db ∨ AStore pb ∈ l1.
(** Nothing is sent between the end of the catch-up and the subscription. *)
Definition no_gap (l : list sact) : Prop :=
  ∀ l1 l2 l3, l = l1 ++ AEnd :: l2 ++ ASubscribe :: l3 → ∀ i, ASend i ∉ l2.
