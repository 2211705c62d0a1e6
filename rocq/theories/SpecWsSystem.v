(** Specification for C57: chains of blocks seen through their headers. *)
From Verif Require Import Base Types Producer Ordering Websocket SpecWebsocket WsSystem.

Record hdr := Hdr { hd_num : Z; hd_hash : hash; hd_parent : hash; hd_weight : N }.
Definition args_hdr (a : block_args) : hdr := Hdr (ba_num a) (ba_hash a) (ba_parent a) (ba_weight a).
Definition wb_hdr (x : wblock) : hdr :=
  Hdr (tb_num (wb_head x)) (tb_hash (wb_head x)) (tb_parent (wb_head x)) (tb_weight (wb_head x)).

(** [l] is a chain on top of block [parent] with number [num] and weight [w]. *)
Fixpoint linked (parent : hash) (num : Z) (w : N) (l : list hdr) : Prop :=
  match l with
  | [] => True
  | x :: r => hd_parent x = parent ∧ hd_num x = (num + 1)%Z ∧ (w < hd_weight x)%N ∧ hd_hash x ≠ zero_hash ∧
              linked (hd_hash x) (hd_num x) (hd_weight x) r
  end.
Definition last_hash (base : hash) (l : list hdr) : hash := match last l with Some x => hd_hash x | None => base end.
Definition last_weight (w : N) (l : list hdr) : N := match last l with Some x => hd_weight x | None => w end.

(** The consumer is started at the end of [old], a part of the chain [old ++ new], and the
    whitelist does not exclude a block of the chain. *)
Record started (cfg : config) (base : hash) (num : Z) (w : N) (old new : list hdr) : Prop := Started {
  sd_linked : linked base num w (old ++ new);
  sd_nodup : NoDup (base :: map hd_hash (old ++ new));
  sd_hash : cfg_last_hash cfg = last_hash base old;
  sd_weight : cfg_last_weight cfg = last_weight w old;
  sd_nonzero : cfg_last_hash cfg ≠ zero_hash;
  sd_allowed : ∀ x, x ∈ old ++ new → (0 ≤ hd_num x < 2 ^ 63)%Z ∧ ∀ h, cfg_whitelist cfg !! hd_num x = Some h → h = hd_hash x
}.

(** Nothing but blocks was announced on a connection. *)
Definition no_reorg_item (k : conn) : Prop := ∀ ds n h, ds ∈ life k → IReorg n h ∉ items ds.

(** A producer used with valid strings for some blocks of a chain, without reorg calls. *)
Record publishes (l : list block_args) (cs : list wcall) : Prop := Publishes {
  pu_wf : calls_wf cs;
  pu_utf8 : Forall utf8_call cs;
  pu_quiet : ∀ n h, WReorgCall n h ∉ cs;
  pu_from : ∀ a, added cs a → a ∈ l
}.
(** A connection on which the messages of the producer arrive at most once, in any order; those in
    [rest] have not arrived. *)
Definition delivers (cs : list wcall) (k : conn) (rest : list item) : Prop :=
  k_done k = [] ∧ items (k_cur k) ++ rest ≡ₚ json_item <$> p_sent (wsp_run cs).

(** The message a frame stands for: that of the last frame that could be read, if it was of this subscription. *)
Definition readable (f : frame) : option (option item) :=
  match f with FNote i => Some (Some i) | FForeign => Some None | FPing | FGarbled => None end.
Definition meant (fs : list frame) : option item := mjoin (last (omap readable fs)).
(** The messages processed on a new connection: one for each notification, and one for each frame that cannot be read. *)
Definition processed (fs : list frame) : list item :=
  omap (λ n, match fs !! n with Some (FNote _) | Some FGarbled => meant (take (S n) fs) | _ => None end) (seq 0 (length fs)).
(** A connection after some frames, each with the order in which a map is read. *)
Definition after_frames (k : conn) (l : list ((list hash → list hash) * frame)) : conn :=
  foldl (λ k x, conn_frame x.1 k x.2) k l.
