(** Starting a websocket consumer and subscribing: transports/websockets.go:321-400, 468-471.

    A step is the outcome of one Dial, one message, one failed read, or Start receiving from
    [connected].

    Simplifications.
    - The goroutine runs without interruption between two of its reads; sleeping (331, 341, 350,
      356) is not a step.  The flag [quit] and Close (479-482) are in Shutdown.v.
    - rpc.NewCall (337) succeeds; the identifier it chooses is an input of the model.  A failed
      WriteMessage (345) shows itself as a failed read.
    - github.com/gorilla/websocket documents that after an error of ReadMessage every further
      call returns the same error.
    - rpc.Response and rpc.SubscriptionResponseRaw are not in the repository; of encoding/json
      the model assumes that a field that is not in the message stays as it was.
    - What a message does once it has been accepted is [conn_frame] (WsSystem.v). *)
From Verif Require Import Base Types Producer Consumer Websocket WsSystem.

(** websockets.go:360-368: the result of a response. *)
Inductive wresult :=
| RId (s : N)   (* a string hexutil.DecodeUint64 accepts *)
| RText         (* another string (364-367) *)
| RNone.        (* no string: an error, an object (361) *)

(** The messages of a connection. *)
Inductive gframe :=
| GEmpty                          (* no bytes *)
| GJunk                           (* not JSON *)
| GResp (id : N) (r : wresult)    (* a response to the call [id] *)
| GNote (s : N) (i : item)        (* a notification of the subscription [s] *)
| GOther.                         (* a notification with another method *)

(** Where the goroutine is: before Dial (327), in the loop 347-374 having called [id], or in the
    loop 380-467 with the value of [subid]. *)
Inductive wphase := PDial | PShake (id : N) | PRead (sub : option N).

Record wst := WSt {
  h_phase : wphase;
  h_up : bool;                  (* no read of the current connection has failed *)
  h_conn : conn;
  h_tokens : nat;               (* in the channel [connected] *)
  h_back : bool;                (* Start has returned *)
  h_asked : list (Z * hash)     (* what cardinal_subscribe was called with *)
}.

(** websockets.go:313-315, 322-324 *)
Definition wst_new (n : Z) (h : hash) : wst := WSt PDial false (Conn (wsc_new n h) None [] []) 0 false [].

Inductive wlabel :=
| LRefused                                      (* 328-333 *)
| LDialed (id : N)                              (* 327, 334-346 *)
| LFrame (o : list hash → list hash) (f : gframe)
| LBreak                                        (* 349-352, 382-385 *)
| LBack.                                        (* 470-471 *)

(** websockets.go:376-379, 323: the capacity is 8 and the sender does not wait. *)
Definition offer (n : nat) : nat := if bool_decide (n < 8) then S n else n.

(** websockets.go:359-373: the value of [subid] after a message of the first loop. *)
Definition answered (id : N) (f : gframe) : option N :=
  match f with
  | GResp id' (RId s) => if bool_decide (id' = id) then Some s else None
  | _ => None
  end.

(** websockets.go:386-398: what a message of the second loop is taken for.  Panic: [*subid] with
    [subid] nil (395). *)
Definition taken_for (sub : option N) (f : gframe) : outcome frame :=
  match f with
  | GEmpty => Ok FPing
  | GJunk | GResp _ _ => Ok FGarbled
  | GOther => Ok FForeign
  | GNote s i =>
    match sub with
    | None => Panic
    | Some x => Ok (if bool_decide (s = x) then FNote i else FForeign)
    end
  end.

(** None: impossible in this state. *)
Definition h_step (l : wlabel) (y : wst) : option (outcome wst) :=
  match l with
  | LRefused => match h_phase y with PDial => Some (Ok y) | _ => None end
  | LDialed id =>
    match h_phase y with
    | PDial => Some (Ok (WSt (PShake id) true (conn_again (h_conn y)) (h_tokens y) (h_back y)
                             (h_asked y ++ [(c_num (k_c (h_conn y)), c_hash (k_c (h_conn y)))])))
    | _ => None
    end
  | LFrame o f =>
    if h_up y then
      match h_phase y with
      | PDial => None
      | PShake id =>
        match answered id f with
        | Some s => Some (Ok (WSt (PRead (Some s)) true (h_conn y) (offer (h_tokens y)) (h_back y) (h_asked y)))
        | None => Some (Ok y)
        end
      | PRead sub =>
        match taken_for sub f with
        | Ok f => Some (Ok (WSt (PRead sub) true (conn_frame o (h_conn y) f) (h_tokens y) (h_back y) (h_asked y)))
        | Panic => Some Panic
        | Hang => Some Hang
        end
      end
    else None
  | LBreak =>
    match h_phase y with
    | PDial => None
    | PShake _ => Some (Ok (WSt (PRead None) false (h_conn y) (offer (h_tokens y)) (h_back y) (h_asked y)))
    | PRead _ => Some (Ok (WSt PDial false (h_conn y) (h_tokens y) (h_back y) (h_asked y)))
    end
  | LBack =>
    match h_tokens y, h_back y with
    | S n, false => Some (Ok (WSt (h_phase y) (h_up y) (h_conn y) n true (h_asked y)))
    | _, _ => None
    end
  end.

Fixpoint h_run (y : wst) (ls : list wlabel) : option (outcome wst) :=
  match ls with
  | [] => Some (Ok y)
  | l :: r =>
    match h_step l y with
    | Some (Ok y') => h_run y' r
    | x => match r with [] => x | _ => None end
    end
  end.
