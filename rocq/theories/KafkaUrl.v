(** Model of ParseKafkaURL and CreateTopicIfDoesNotExist (transports/kafka.go:68-213), with the part of Go's net/url they use.

    Simplifications: an option the code leaves alone is [None] (the default of sarama.NewConfig); TLS details, the SCRAM client and the
    log writer are represented by the choice made; between brackets (an IPv6 address) a zone is treated like the rest of
    the host; the requests to the broker succeed or fail as given. *)
From Coq Require Import Strings.String.
From Verif Require Import Base Types Avro GoText.

(** * net/url (standard library) *)
Definition is_digit (b : byte) : bool := ((48 <=? byte_N b) && (byte_N b <=? 57))%N.
Definition is_alnum (b : byte) : bool :=
  is_digit b || ((65 <=? byte_N b) && (byte_N b <=? 90))%N || ((97 <=? byte_N b) && (byte_N b <=? 122))%N.
(** - . _ ~ *)
Definition is_mark (b : byte) : bool := bool_decide (b ∈ [x2d; x2e; x5f; x7e]).
Definition is_control (b : byte) : bool := ((byte_N b <? 32) || (byte_N b =? 127))%N.
(** unhex, ishex *)
Definition hex_value (b : byte) : option N :=
  let n := byte_N b in
  if ((48 <=? n) && (n <=? 57))%N then Some (n - 48)%N
  else if ((97 <=? n) && (n <=? 102))%N then Some (n - 87)%N
  else if ((65 <=? n) && (n <=? 70))%N then Some (n - 55)%N
  else None.

(** Parts of a URL are escaped differently. *)
Inductive part := PUser | PHost | PPath | PQuery | PFragment.
#[global] Instance part_eq_dec : EqDecision part.
Proof. solve_decision. Defined.
(** shouldEscape for a host: ! $ & ' ( ) * + , ; = : [ ] < > and the double quote stand for themselves. *)
Definition host_byte (b : byte) : bool :=
  is_alnum b || is_mark b ||
  bool_decide (b ∈ [x21; x24; x26; x27; x28; x29; x2a; x2b; x2c; x3b; x3d; x3a; x5b; x5d; x3c; x3e; x22]).
(** unescape; [None] for an error. *)
Fixpoint unescape (m : part) (s : bytes) : option bytes :=
  match s with
  | [] => Some []
  | b :: r =>
    if bool_decide (b = x25) then
      match r with
      | h :: l :: r' =>
        match hex_value h, hex_value l with
        | Some x, Some y =>
          if bool_decide (m = PHost) && (x <? 8)%N && negb (bool_decide (h = x32 ∧ l = x35)) then None
          else cons (byte_of (16 * x + y)) <$> unescape m r'
        | _, _ => None
        end
      | _ => None
      end
    else if bool_decide (b = x2b) && bool_decide (m = PQuery) then cons x20 <$> unescape m r
    else if bool_decide (m = PHost) && (byte_N b <? 128)%N && negb (host_byte b) then None
    else cons b <$> unescape m r
  end.

(** strings.Cut: what comes before and after the first [c]; the second part is [None] if there is none. *)
Fixpoint cut (c : byte) (s : bytes) : bytes * option bytes :=
  match s with
  | [] => ([], None)
  | b :: r => if bool_decide (b = c) then ([], Some r) else let '(x, y) := cut c r in (b :: x, y)
  end.
(** Split at the last [c]. *)
Fixpoint cut_last (c : byte) (s : bytes) : option (bytes * bytes) :=
  match s with
  | [] => None
  | b :: r =>
    match cut_last c r with
    | Some (x, y) => Some (b :: x, y)
    | None => if bool_decide (b = c) then Some ([], r) else None
    end
  end.

(** validUserinfo *)
Definition user_byte (b : byte) : bool :=
  is_alnum b || is_mark b || bool_decide (b ∈ [x3a; x21; x24; x26; x27; x28; x29; x2a; x2b; x2c; x3b; x3d; x25; x40]).
(** parseHost *)
Definition parse_host (h : bytes) : option bytes :=
  let port_ok := match h with
    | b :: _ => if bool_decide (b = x5b)
                then match cut_last x5d h with
                     | Some (_, p) => match p with [] => true | c :: ds => bool_decide (c = x3a) && forallb is_digit ds end
                     | None => false
                     end
                else match cut_last x3a h with Some (_, ds) => forallb is_digit ds | None => true end
    | [] => true
    end in
  if port_ok then unescape PHost h else None.
(** parseAuthority: user, password and host *)
Definition parse_authority (a : bytes) : option (option (bytes * option bytes) * bytes) :=
  match cut_last x40 a with
  | None => h ← parse_host a; Some (None, h)
  | Some (u, h) =>
    h ← parse_host h;
    if forallb user_byte u then
      match cut x3a u with
      | (n, None) => n ← unescape PUser n; Some (Some (n, None), h)
      | (n, Some p) => n ← unescape PUser n; p ← unescape PUser p; Some (Some (n, Some p), h)
      end
    else None
  end.
(** Parse for a text that begins with "kafka://"; [s] is what follows.  User, host and query. *)
Definition parse_url (s : bytes) : option (option (bytes * option bytes) * bytes * bytes) :=
  let '(s, frag) := cut x23 s in
  if existsb is_control s then None
  else
    let '(s, query) := cut x3f s in
    let '(auth, path) := cut x2f s in
    a ← parse_authority auth;
    _ ← unescape PPath (default [] path);
    _ ← unescape PFragment (default [] frag);
    Some (a, default [] query).
(** Query (ParseQuery; what cannot be read is skipped): the pairs in the order of the text *)
Definition query_pair (s : bytes) : option (bytes * bytes) :=
  if bool_decide (x3b ∈ s) || bool_decide (s = []) then None
  else let '(k, v) := cut x3d s in
       k ← unescape PQuery k; v ← unescape PQuery (default [] v); Some (k, v).
Definition query_pairs (q : bytes) : list (bytes * bytes) := omap query_pair (split_byte x26 q).
(** Values.Get: the first value, or the empty text *)
Definition query_get (q : bytes) (k : string) : bytes :=
  match list_find (λ p : bytes * bytes, p.1 = str k) (query_pairs q) with Some (_, p) => p.2 | None => [] end.

(** * kafka.go:68-149 *)
Inductive codec := CGzip | CNone | CLz4 | CZstd | CSnappy.
Inductive mechanism := MSha256 | MSha512 | MGssapi.
Record kconfig := KConfig {
  k_tls : bool;                          (* Net.TLS.Enable *)
  k_fetch : option Z;                    (* Consumer.Fetch.Default, int32 *)
  k_wait : option Z;                     (* Consumer.MaxWaitTime in ns *)
  k_codec : codec;                       (* Producer.Compression *)
  k_retries : Z;                         (* Producer.Retry.Max *)
  k_acks : Z;                            (* Producer.RequiredAcks, int16 *)
  k_backoff : option Z;                  (* Producer.Retry.Backoff in ns *)
  k_open : option Z;                     (* Net.MaxOpenRequests *)
  k_idempotent : bool;                   (* Producer.Idempotent *)
  k_log : bool;                          (* sarama.Logger is set *)
  k_sasl : option (bytes * bytes);       (* Net.SASL.User and Password, if enabled *)
  k_mech : option mechanism              (* Net.SASL.Mechanism *)
}.
Definition int16 (x : Z) : Z := to_signed 16 x.
(** time.Duration(val) * time.Millisecond, in int64 *)
Definition millis (x : Z) : Z := to_signed 64 (x * 1000000).

Definition kafka_config (user : option (bytes * option bytes)) (q : bytes) : kconfig :=
  let get := query_get q in
  KConfig
    (bool_decide (get "tls"%string = str "1"))                                                 (* 73-75 *)
    (int32 <$> atoi (get "fetch.default"%string))                                              (* 76-83 *)
    (millis <$> atoi (get "max.waittime"%string))                                              (* 84-91 *)
    (let c := get "compression.codec"%string in                                                (* 92-106 *)
     if bool_decide (c = str "gzip") then CGzip else if bool_decide (c = str "none") then CNone
     else if bool_decide (c = str "lz4") then CLz4 else if bool_decide (c = str "zstd") then CZstd else CSnappy)
    (default 100%Z (atoi (get "message.send.max.retries"%string)))                             (* 108-112 *)
    (default (-1)%Z (int16 <$> atoi (get "request.required.acks"%string)))                     (* 113-117 *)
    (millis <$> atoi (get "retry.backoff.ms"%string))                                          (* 119-121 *)
    (atoi (get "net.maxopenrequests"%string))                                                  (* 122-124 *)
    (bool_decide (get "idempotent"%string = str "1"))                                          (* 125-127 *)
    (bool_decide (get "log"%string = str "1"))                                                 (* 128-130 *)
    (match user with Some (n, p) => Some (n, default [] p) | None => None end)                 (* 132-136 *)
    (let m := get "sasl.mechanism"%string in                                                   (* 137-147 *)
     if bool_decide (m = str "SCRAM-SHA-256") then Some MSha256
     else if bool_decide (m = str "SCRAM-SHA-512") then Some MSha512
     else if bool_decide (m = str "GSSAPI") then Some MGssapi else None).

(** The error of url.Parse is ignored (69) and the nil URL is used (73). *)
Definition parse_kafka_url (url : bytes) : outcome (list bytes * kconfig) :=
  match parse_url (trim_prefix url (str "kafka://"%string)) with
  | None => Panic
  | Some (user, host, q) => Ok (split_byte x2c host, kafka_config user q)
  end.

(** * kafka.go:152-213 *)
(** What the topic is created with. *)
Record topic_detail := TopicDetail { td_parts : Z; td_replicas : Z; td_entries : gmap bytes bytes }.
Inductive topic_result := TRError | TRDone (created : option topic_detail).
(** [reachable]: the requests before 178 succeed; [found]: numbers of partitions of the topics in the answer (178); [accepted]: the
    creation is accepted (197-209). *)
Definition create_topic (url topic : bytes) (parts : Z) (entries : gmap bytes bytes)
    (reachable : bool) (brokers : nat) (found : list nat) (accepted : bool) : outcome topic_result :=
  if bool_decide (topic = []) then Ok TRError                                                  (* 153-155 *)
  else
    _ ← parse_kafka_url url;                                                                   (* 159 *)
    if negb reachable then Ok TRError                                                          (* 160-177 *)
    else if bool_decide (match found with [] => 0 | n :: _ => n end = 0) then                  (* 178 *)
      let replicas := (let r := int16 (Z.of_nat brokers) in if bool_decide (3 < r)%Z then 3%Z else r) in   (* 184-188 *)
      let parts := if bool_decide (parts <= 0)%Z then int32 (int32 (Z.of_nat brokers) * 2) else parts in   (* 189-191 *)
      let d := TopicDetail parts replicas (<[str "max.message.bytes"%string := str "10000024"%string]> entries) in
      if accepted then Ok (TRDone (Some d)) else Ok TRError
    else Ok (TRDone None).
