(** Specification vocabulary for the PDU receiver (C12-C15, C46). *)
From Verif Require Import Base Types PduWire PduWireSpec PduHandler PduStream.

(** The queries a router may send, byte by byte (RFC 6810/8210 5.3, 5.4), and
    the request record they denote.  (The Reset Query's reserved field is not
    inspected.) *)
Inductive is_query : list Z -> request -> Prop :=
| q_serial v m1 m2 s1 s2 s3 s4 b :
    v = 0 \/ v = 1 -> b = [v; 1; m1; m2; 0; 0; 0; 12; s1; s2; s3; s4] ->
    is_query b {| rq_version := v; rq_type := 1; rq_session := be [m1; m2];
                  rq_serial := be [s1; s2; s3; s4]; rq_raw := b; rq_eos := false |}
| q_reset v m1 m2 b :
    v = 0 \/ v = 1 -> b = [v; 2; m1; m2; 0; 0; 0; 8] ->
    is_query b {| rq_version := v; rq_type := 2; rq_session := 0; rq_serial := 0;
                  rq_raw := b; rq_eos := false |}.

(** The bytes the events deliver. *)
Definition data (evs : list read_ev) : list Z :=
  concat (map (fun e => match e with RData b => b | _ => [] end) evs).

(** Streams as the program keeps them. *)
Definition pstream_ok (s : pstream) : Prop :=
  (ps_version s = -1 \/ ps_version s = 0 \/ ps_version s = 1) /\
  0 <= ps_off s /\ ps_off s + Z.of_nat (length (ps_buf s)) <= 1024 /\
  Forall is_byte (ps_buf s).
Definition evs_ok (evs : list read_ev) : Prop := Forall is_byte (data evs).

(** The last request of a batch. *)
Fixpoint last_req (req : option request) (qs : list request) : option request :=
  match qs with [] => req | q :: t => last_req (Some q) t end.

Definition set_eos (q : request) : request :=
  {| rq_version := rq_version q; rq_type := rq_type q; rq_session := rq_session q;
     rq_serial := rq_serial q; rq_raw := rq_raw q; rq_eos := true |}.

(** UTF-8 by structure (RFC 3629 octet patterns, without the overlong and
    surrogate exclusions, which the code does not check either). *)
Definition is_cont (b : Z) : Prop := 128 <= b < 192.
Inductive utf8_char : list Z -> Prop :=
| u1 a : 0 <= a < 128 -> utf8_char [a]
| u2 a b : 192 <= a < 224 -> is_cont b -> utf8_char [a; b]
| u3 a b c : 224 <= a < 240 -> is_cont b -> is_cont c -> utf8_char [a; b; c]
| u4 a b c d : 240 <= a < 248 -> is_cont b -> is_cont c -> is_cont d -> utf8_char [a; b; c; d].
Inductive utf8 : list Z -> Prop :=
| utf8_nil : utf8 []
| utf8_cons c l : utf8_char c -> utf8 l -> utf8 (c ++ l).

(** Why a PDU [v t .. len] is refused on a connection whose version is [ver]
    (-1: not negotiated), and the RFC 8210 section 12 code it is refused
    with: 3 Invalid Request, 4 Unsupported Protocol Version, 5 Unsupported PDU
    Type, 8 Unexpected Protocol Version. *)
Definition version_fits (ver v : Z) : Prop := (v = 0 \/ v = 1) /\ (ver = -1 \/ ver = v).
Inductive offence (ver v t len : Z) : Z -> Prop :=
| off_large : 1024 < len -> offence ver v t len 3
| off_unsupported : len <= 1024 -> v <> 0 -> v <> 1 -> offence ver v t len 4
| off_unexpected : len <= 1024 -> v = 0 \/ v = 1 -> ver <> -1 -> v <> ver -> offence ver v t len 8
| off_type : len <= 1024 -> version_fits ver v -> t <> 1 -> t <> 2 -> t <> 10 ->
    offence ver v t len 5
| off_length : len <= 1024 -> version_fits ver v ->
    (t = 1 /\ len <> 12) \/ (t = 2 /\ len <> 8) -> offence ver v t len 3.

(** The answer to an offending PDU of type [t]: nothing when it is an Error
    Report, else exactly one RTR Error Report with that code, quoting the
    beginning of the offending bytes. *)
Definition answered (sk sk' : socket) (t code : Z) (offending : list Z) : Prop :=
  (t = 10 /\ sk' = sk) \/
  (t <> 10 /\ exists bytes v q msg o r,
     rfc_decode bytes v (PErrorReport code q msg) /\ offending = q ++ r /\
     sk_log sk' = sk_log sk ++ [(bytes, o)]).

(** A header after which the receiver misbehaves, on a connection of version
    [ver]: a length field below 2, or an Error Report of the right version
    whose length exceeds the bytes received so far. *)
Definition bad_header (ver : Z) (buf : list Z) : Prop :=
  exists v t m1 m2 l1 l2 l3 l4 rest,
    buf = v :: t :: m1 :: m2 :: l1 :: l2 :: l3 :: l4 :: rest /\
    (be [l1; l2; l3; l4] < 2 \/
     (t = 10 /\ version_fits ver v /\ 16 <= be [l1; l2; l3; l4] <= 1024 /\
      Z.of_nat (length buf) < be [l1; l2; l3; l4])).

(** An incomplete PDU waiting for more bytes: less than a header, or a Serial
    Query or Error Report of the connection's version that is not all there. *)
Definition fragment (ver : Z) (l : list Z) : Prop :=
  (length l < 8)%nat \/
  exists v t m1 m2 l1 l2 l3 l4 rest,
    l = v :: t :: m1 :: m2 :: l1 :: l2 :: l3 :: l4 :: rest /\ (v = 0 \/ v = 1) /\ ver = v /\
    ((t = 1 /\ be [l1; l2; l3; l4] = 12 /\ (length l < 12)%nat) \/
     (t = 10 /\ (length l < 139)%nat)).

(** [parsed ver bs qs ver']: the byte strings [bs] are the queries [qs], and
    parsing them takes the negotiated version from [ver] to [ver']. *)
Inductive parsed : Z -> list (list Z) -> list request -> Z -> Prop :=
| parsed_nil ver : parsed ver [] [] ver
| parsed_cons ver b q bs qs ver' :
    is_query b q -> version_fits ver (rq_version q) -> parsed (rq_version q) bs qs ver' ->
    parsed ver (b :: bs) (q :: qs) ver'.

(** Nothing but data, then silence. *)
Inductive quiet : list read_ev -> Prop :=
| quiet_nil : quiet []
| quiet_block : quiet [RWouldBlock]
| quiet_data b evs : b <> [] -> quiet evs -> quiet (RData b :: evs).

(** The read events that end a connection. *)
Definition terminal (e : read_ev) : Prop := e = REos \/ e = RErr \/ e = RData [].

(** A query that has not been received completely (possibly nothing of it). *)
Definition query_prefix (ver : Z) (tail : list Z) : Prop :=
  exists b q x, is_query b q /\ version_fits ver (rq_version q) /\ b = tail ++ x /\ x <> [].

(** The life of a connection: its stream after any number of successful
    receive calls (any events, any socket), and the requests delivered. *)
Inductive conn : pstream -> list request -> Prop :=
| conn_new : conn pdustream_create []
| conn_next s rs sk evs out r :
    conn s rs -> evs_ok evs -> pdustream_next s sk evs = Ok out -> no_result out = Some r ->
    conn (no_stream out) (rs ++ match r with Some q => [q] | None => [] end).
