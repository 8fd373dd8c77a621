(** Model of src/rtr/pdu_handler.c, src/rtr/err_pdu.c and of send_response()
    (src/rtr/pdu_sender.c).  A client's socket is its wire (the bytes the
    kernel accepted), a log of what send_response() was asked to do, and an
    oracle deciding the outcome of each call. *)
From Coq Require Import String.
From Verif Require Import Base CString Types DArray DbTable Vrps PduWire.

(** What poll()+write() do: the whole PDU is accepted, only [n] bytes are
    accepted (a short write: write() returns n >= 0), or poll()/write() fail
    with a non-zero code. *)
Inductive send_outcome := WroteAll | WroteShort (n : nat) | SendFails (e : Z).

Record socket := {
  sk_wire : list Z;
  sk_log : list (list Z * send_outcome);
  sk_oracle : list send_outcome;   (* next outcomes; WroteAll once exhausted *)
}.

Definition next_outcome (o : list send_outcome) : send_outcome * list send_outcome :=
  match o with [] => (WroteAll, []) | x :: t => (x, t) end.

(** src/rtr/pdu_sender.c:51-83 [send_response].  Simplification: the poll()
    loop is part of the oracle's answer.  A short write returns 0 (line 75
    only tests for < 0). *)
Definition send_response (sk : socket) (data : list Z) : socket * Z :=
  let '(o, rest) := next_outcome (sk_oracle sk) in
  let log := sk_log sk ++ [(data, o)] in
  match o with
  | WroteAll => ({| sk_wire := sk_wire sk ++ data; sk_log := log; sk_oracle := rest |}, 0)
  | WroteShort n =>
      ({| sk_wire := sk_wire sk ++ firstn n data; sk_log := log; sk_oracle := rest |}, 0)
  | SendFails e =>
      ({| sk_wire := sk_wire sk; sk_log := log; sk_oracle := rest |},
       if e =? 0 then -22 else e)
  end.

(** src/rtr/err_pdu.c:8-18 [rtr_error_code_t]. *)
Definition ERR_PDU_CORRUPT_DATA := 0.
Definition ERR_PDU_INTERNAL_ERROR := 1.
Definition ERR_PDU_NO_DATA_AVAILABLE := 2.
Definition ERR_PDU_INVALID_REQUEST := 3.
Definition ERR_PDU_UNSUP_PROTO_VERSION := 4.
Definition ERR_PDU_UNSUP_PDU_TYPE := 5.
Definition ERR_PDU_UNEXPECTED_PROTO_VERSION := 8.

(** src/rtr/err_pdu.c:20-34 [err_pdu_send]: request->bytes[1] is read without
    checking bytes_len.  The result of the send is ignored. *)
Definition err_pdu_send (sk : socket) (version code : Z) (request : option (list Z))
  (msg : list Z) : res (socket * Z) :=
  let send := bind (ser_error_report version code request msg) (fun b =>
                Ok (fst (send_response sk b), -22)) in
  match request with
  | None => send
  | Some bytes =>
      match nth_error bytes 1 with
      | None => UB
      | Some b1 => if b1 =? PDU_TYPE_ERROR_REPORT then Ok (sk, -22) else send
      end
  end.

(** src/rtr/err_pdu.c:36-63 [err_pdu_send_corrupt_data],
    [err_pdu_send_internal_error], [err_pdu_send_no_data_available]. *)
Definition err_pdu_send_corrupt_data sk version request msg :=
  err_pdu_send sk version ERR_PDU_CORRUPT_DATA (Some request) msg.
Definition err_pdu_send_internal_error sk version :=
  err_pdu_send sk version ERR_PDU_INTERNAL_ERROR None [].
Definition err_pdu_send_no_data_available (sk : socket) (version : Z) : res (socket * Z) :=
  bind (err_pdu_send sk version ERR_PDU_NO_DATA_AVAILABLE None [])
    (fun '(sk', _) => Ok (sk', 0)).

(** Positive EAGAIN: rwlock_read_lock() failing (src/common.c:51-75), or
    write() failing with errno EAGAIN. *)
Definition EAGAIN_pos : Z := 11.

(** src/rtr/pdu_handler.c:10-14, 131-135 [struct send_delta_args],
    [struct base_roa_args]: both hold the descriptor, the version and whether
    the Cache Response was sent. *)
Record send_args := { a_sk : socket; a_sent : bool }.

Section Handlers.
  Context (iv : intervals).       (* configured intervals *)

  (** src/rtr/pdu_sender.c:112-122 [send_cache_response_pdu]. *)
  Definition send_cache_response_pdu (s : state) (sk : socket) (version : Z) : socket * Z :=
    send_response sk (ser_cache_response version (get_current_session_id s version)).
  (** src/rtr/pdu_sender.c:201-225 [send_end_of_data_pdu]. *)
  Definition send_end_of_data_pdu (s : state) (sk : socket) (version serial : Z) : socket * Z :=
    send_response sk (ser_end_of_data version (get_current_session_id s version) serial iv).
  (** src/rtr/pdu_sender.c:164-175 [send_prefix_pdu]. *)
  Definition send_prefix_pdu (sk : socket) (version : Z) (v : vrp) (f : flag) : socket * Z :=
    send_response sk (ser_prefix version v (flag_byte f)).
  (** src/rtr/pdu_sender.c:177-197 [send_router_key_pdu]. *)
  Definition send_router_key_pdu (sk : socket) (version : Z) (k : router_key) (f : flag)
    : socket * Z :=
    match ser_router_key version k (flag_byte f) with
    | None => (sk, 0)
    | Some b => send_response sk b
    end.

  (** src/rtr/pdu_handler.c:16-29 [send_cache_response_maybe] (also inlined in
      lines 143-148 and 159-164). *)
  Definition send_cache_response_maybe (s : state) (version : Z) (a : send_args)
    : send_args * Z :=
    if a_sent a then (a, 0)
    else
      let '(sk, e) := send_cache_response_pdu s (a_sk a) version in
      if e =? 0 then ({| a_sk := sk; a_sent := true |}, 0)
      else ({| a_sk := sk; a_sent := false |}, e).

  (** src/rtr/pdu_handler.c:31-43 [send_delta_vrp]. *)
  Definition send_delta_vrp (s : state) (version : Z) (a : send_args) (d : flag * vrp)
    : send_args * Z :=
    let '(a, e) := send_cache_response_maybe s version a in
    if e =? 0 then
      let '(sk, e) := send_prefix_pdu (a_sk a) version (snd d) (fst d) in
      ({| a_sk := sk; a_sent := a_sent a |}, e)
    else (a, e).

  (** src/rtr/pdu_handler.c:45-57 [send_delta_rk]. *)
  Definition send_delta_rk (s : state) (version : Z) (a : send_args) (d : flag * router_key)
    : send_args * Z :=
    let '(a, e) := send_cache_response_maybe s version a in
    if e =? 0 then
      let '(sk, e) := send_router_key_pdu (a_sk a) version (snd d) (fst d) in
      ({| a_sk := sk; a_sent := a_sent a |}, e)
    else (a, e).

  (** src/rtr/pdu_handler.c:59-129 [handle_serial_query_pdu]; [s] is the
      database at the time of vrps_foreach_delta_since()'s critical section,
      [lock_ok] whether its read lock was granted, [raw] the stored PDU. *)
  Definition handle_serial_query_pdu (s : state) (lock_ok : bool) (sk : socket)
    (version session serial : Z) (raw : list Z) : res (socket * Z) :=
    if negb (session =? get_current_session_id s version)
    then err_pdu_send_corrupt_data sk version raw (cstr "Session ID doesn't match."%string)
    else if negb lock_ok then err_pdu_send_internal_error sk version
    else
      match vrps_foreach_delta_since (send_delta_vrp s version) (send_delta_rk s version)
              s serial {| a_sk := sk; a_sent := false |} with
      | UB => UB
      | Err e => Err e
      | Ok (a, SinceOk final_serial) =>
          if a_sent a
          then Ok (send_end_of_data_pdu s (a_sk a) version final_serial)
          else
            let '(sk, e) := send_cache_response_pdu s (a_sk a) version in
            if e =? 0 then Ok (send_end_of_data_pdu s sk version final_serial)
            else Ok (sk, e)
      | Ok (a, SinceErr EAGAIN) => err_pdu_send_no_data_available (a_sk a) version
      | Ok (a, SinceErr ESRCH) => Ok (send_response (a_sk a) (ser_cache_reset version))
      | Ok (a, SinceErr _) => err_pdu_send_internal_error (a_sk a) version
      end.

  (** src/rtr/pdu_handler.c:137-168 [send_base_roa], [send_base_router_key]. *)
  Definition send_base_roa (s : state) (version : Z) (a : send_args) (v : vrp) :=
    send_delta_vrp s version a (ANNOUNCEMENT, v).
  Definition send_base_router_key (s : state) (version : Z) (a : send_args) (k : router_key) :=
    send_delta_rk s version a (ANNOUNCEMENT, k).

  (** src/rtr/pdu_handler.c:170-222 [handle_reset_query_pdu].  The serial and
      the data are read in two separate critical sections, so there are two
      database states: [s1] at get_last_serial_number(), [s2] at
      vrps_foreach_base(). *)
  Definition handle_reset_query_pdu (s1 s2 : state) (lock1_ok lock2_ok : bool)
    (sk : socket) (version : Z) : res (socket * Z) :=
    if negb lock1_ok then
      bind (err_pdu_send_internal_error sk version) (fun '(sk, _) => Ok (sk, EAGAIN_pos))
    else
      match get_last_serial_number s1 with
      | UB => UB
      | Err _ => err_pdu_send_no_data_available sk version
      | Ok current_serial =>
          if negb lock2_ok then
            bind (err_pdu_send_internal_error sk version) (fun '(sk, _) => Ok (sk, EAGAIN_pos))
          else
            match vrps_foreach_base (send_base_roa s2 version) (send_base_router_key s2 version)
                    s2 {| a_sk := sk; a_sent := false |} with
            | inr _ => err_pdu_send_no_data_available sk version
            | inl (a, e) =>
                if e =? 0 then
                  if a_sent a
                  then Ok (send_end_of_data_pdu s2 (a_sk a) version current_serial)
                  else
                    let '(sk, e) := send_cache_response_pdu s2 (a_sk a) version in
                    if e =? 0
                    then Ok (send_end_of_data_pdu s2 sk version current_serial)
                    else Ok (sk, e)
                else if e =? -11 then err_pdu_send_no_data_available (a_sk a) version
                else if e =? EAGAIN_pos then
                  bind (err_pdu_send_internal_error (a_sk a) version)
                    (fun '(sk, _) => Ok (sk, EAGAIN_pos))
                else Ok (a_sk a, e)
            end
      end.
End Handlers.

(** src/rtr/rtr.c:723-748 [rtr_notify] for one client whose stream's
    negotiated version is [rtr_version] (-1 before negotiation:
    src/rtr/pdu_stream.c pdustream_create; send_serial_notify_pdu's parameter
    is a uint8_t).  [None]: the client's descriptor is already -1. *)
Definition rtr_notify_one (s : state) (sk : socket) (rtr_version : Z) : socket :=
  match get_last_serial_number s with
  | Ok serial =>
      let v := u8 rtr_version in
      fst (send_response sk (ser_serial_notify v (get_current_session_id s v) serial))
  | _ => sk
  end.
