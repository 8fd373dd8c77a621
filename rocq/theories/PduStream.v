(** Model of src/rtr/pdu_stream.c: the PDU receiver of one client connection. *)
From Coq Require Import String.
From Verif Require Import Base CString Types PduWire PduHandler.

(** src/rtr/pdu_stream.c:20-30 [struct pdu_stream]: the negotiated version
    (-1: none), the offset of [start] in the 1024-byte buffer, and the active
    bytes start..end.  Bytes beyond [end] are stale or uninitialised: reading
    one is [UB] in this model. *)
Record pstream := { ps_version : Z; ps_off : Z; ps_buf : list Z }.

(** src/rtr/pdu_stream.c:43-55 [pdustream_create]. *)
Definition pdustream_create : pstream := {| ps_version := -1; ps_off := 0; ps_buf := [] |}.

(** What the successive read() calls on the client's socket yield. *)
Inductive read_ev :=
| RData (bs : list Z)   (* bytes available; a read takes as many as it asked for *)
| RWouldBlock           (* EAGAIN / EWOULDBLOCK *)
| REos                  (* 0: the client closed *)
| RErr.                 (* any other errno *)

Inductive buffer_state := BS_WOULD_BLOCK | BS_EOS | BS_KEEP_READING | BS_ERROR.

(** src/rtr/pdu_stream.c:65-69 [get_length]. *)
Definition get_length (s : pstream) : Z := Z.of_nat (List.length (ps_buf s)).

(** src/rtr/pdu_stream.c:96-115, the loop of [update_buffer] (lines 88-94, the
    memmove, only reset the offset).  [fuel]: free room at entry; every
    iteration stores at least one byte.  An exhausted event list means that
    nothing more is available. *)
Fixpoint update_loop (fuel : nat) (buf : list Z) (evs : list read_ev)
  : list Z * buffer_state * list read_ev :=
  match fuel with
  | O => (buf, BS_KEEP_READING, evs)
  | S fuel' =>
      let room := (1024 - List.length buf)%nat in
      match room with
      | O => (buf, BS_KEEP_READING, evs)
      | _ =>
          match evs with
          | [] => (buf, BS_WOULD_BLOCK, [])
          | RWouldBlock :: t => (buf, BS_WOULD_BLOCK, t)
          | RErr :: t => (buf, BS_ERROR, t)
          | REos :: t => (buf, BS_EOS, t)
          | RData [] :: t => (buf, BS_EOS, t)
          | RData bs :: t =>
              let rest := skipn room bs in
              update_loop fuel' (buf ++ firstn room bs)
                (match rest with [] => t | _ => RData rest :: t end)
          end
      end
  end.
Definition update_buffer (s : pstream) (evs : list read_ev)
  : pstream * buffer_state * list read_ev :=
  let '(buf, st, evs') := update_loop (1024 - List.length (ps_buf s)) (ps_buf s) evs in
  ({| ps_version := ps_version s; ps_off := 0; ps_buf := buf |}, st, evs').

(** Reading buffer[start + i]. *)
Definition rd (s : pstream) (i : nat) : res Z :=
  match nth_error (ps_buf s) i with Some b => Ok b | None => UB end.

(** src/rtr/pdu_stream.c:126-140 [read_uint16], [read_uint32]. *)
Definition read_uint16 (s : pstream) (i : nat) : res Z :=
  bind (rd s i) (fun a => bind (rd s (i + 1)) (fun b =>
  Ok (Z.lor (Z.shiftl a 8) b))).
Definition read_uint32 (s : pstream) (i : nat) : res Z :=
  bind (rd s i) (fun a => bind (rd s (i + 1)) (fun b =>
  bind (rd s (i + 2)) (fun c => bind (rd s (i + 3)) (fun d =>
  Ok (Z.lor (Z.shiftl a 24) (Z.lor (Z.shiftl b 16) (Z.lor (Z.shiftl c 8) d))))))).

(** stream->start += n. *)
Definition advance (s : pstream) (n : Z) : pstream :=
  {| ps_version := ps_version s; ps_off := ps_off s + n;
     ps_buf := skipn (Z.to_nat n) (ps_buf s) |}.

(** src/rtr/pdu_stream.c:148-160 [get_octets]; [None] is EINVALID_UTF8. *)
Definition get_octets (b : Z) : option nat :=
  if Z.land b 128 =? 0 then Some 1%nat
  else if Z.shiftr b 5 =? 6 then Some 2%nat
  else if Z.shiftr b 4 =? 14 then Some 3%nat
  else if Z.shiftr b 3 =? 30 then Some 4%nat
  else None.

(** src/rtr/pdu_stream.c:195-203: the continuation octets; [None]: goto end. *)
Fixpoint eat_cont (n : nat) (l : list Z) : option (list Z) :=
  match n with
  | O => Some l
  | S n' => match l with
            | [] => None
            | b :: t => if Z.shiftr b 6 =? 2 then eat_cont n' t else None
            end
  end.

(** src/rtr/pdu_stream.c:170-210 [place_null_character]: how many bytes are
    kept before the terminator.  [fuel]: at least one byte is consumed per
    iteration.  [kept] is null_chara_pos - str, [pos] the cursor's distance. *)
Fixpoint null_pos (fuel : nat) (l : list Z) (kept : nat) : nat :=
  match fuel with
  | O => kept
  | S f =>
      match l with
      | [] => kept
      | b :: t =>
          match get_octets b with
          | None => kept
          | Some o =>
              match eat_cont (o - 1) t with
              | None => kept
              | Some t' => null_pos f t' (kept + o)
              end
          end
      end
  end.
Definition place_null_character (str : list Z) : list Z :=
  firstn (null_pos (List.length str) str 0) str.

(** src/rtr/pdu_stream.c:212-225 [read_string]: memcpy() of [len] bytes
    starting at [start], whatever was received. *)
Definition read_string (s : pstream) (len : Z) : res (option (list Z)) :=
  if len =? 0 then Ok None
  else bind (memcpy_bytes (ps_buf s) len) (fun str => Ok (Some (place_null_character str))).

(** src/rtr/pdu_stream.c:32-41, 227-234 [struct pdu_header], [read_hdr]. *)
Record pdu_header := { h_version : Z; h_type : Z; h_m : Z; h_len : Z }.
Definition read_hdr (s : pstream) : res pdu_header :=
  bind (rd s 0) (fun v => bind (rd s 1) (fun t => bind (read_uint16 s 2) (fun m =>
  bind (read_uint32 s 4) (fun len =>
  Ok {| h_version := v; h_type := t; h_m := m; h_len := len |})))).

(** src/rtr/pdu_stream.c:236-287 [validate_rtr_version].  Result: the stream
    (version possibly set), the socket, and whether it was accepted.  Other
    stream versions than -1, 0, 1 are pr_crit() (unreachable: see C14). *)
Definition validate_rtr_version (s : pstream) (sk : socket) (h : pdu_header) (raw : list Z)
  : res (pstream * socket * bool) :=
  let unsupported :=
    bind (err_pdu_send sk (if ps_version s =? -1 then 1 else u8 (ps_version s))
            ERR_PDU_UNSUP_PROTO_VERSION (Some raw)
            (cstr "The maximum supported RTR version is 1."%string))
      (fun '(sk', _) => Ok (s, sk', false)) in
  let unexpected :=
    bind (err_pdu_send sk (u8 (ps_version s)) ERR_PDU_UNEXPECTED_PROTO_VERSION (Some raw)
            (cstr "The RTR version does not match the one we negotiated during the handshake."%string))
      (fun '(sk', _) => Ok (s, sk', false)) in
  if ps_version s =? 1 then
    if h_version h =? 0 then unexpected
    else if h_version h =? 1 then Ok (s, sk, true) else unsupported
  else if ps_version s =? 0 then
    if h_version h =? 0 then Ok (s, sk, true)
    else if h_version h =? 1 then unexpected else unsupported
  else if ps_version s =? -1 then
    if (h_version h =? 0) || (h_version h =? 1)
    then Ok ({| ps_version := h_version h; ps_off := ps_off s; ps_buf := ps_buf s |}, sk, true)
    else unsupported
  else UB.

(** src/rtr/pdu_stream.h:10-34 [struct rtr_request] (fd and address omitted). *)
Record request := {
  rq_version : Z; rq_type : Z; rq_session : Z; rq_serial : Z; (* 0 unless Serial Query *)
  rq_raw : list Z; rq_eos : bool;
}.

(** Outcome of one iteration of the loop. *)
Inductive load_ret := LOk (r : request) | LAgain | LFail.

(** src/rtr/pdu_stream.c:289-317 [load_serial_query]. *)
Definition load_serial_query (s : pstream) (sk : socket) (h : pdu_header) (raw : list Z)
  : res (pstream * socket * load_ret) :=
  if negb (h_len h =? RTRPDU_SERIAL_QUERY_LEN) then
    bind (err_pdu_send sk (u8 (ps_version s)) ERR_PDU_INVALID_REQUEST (Some raw)
            (cstr "Expected length 12 for Serial Query PDUs."%string))
      (fun '(sk', _) => Ok (s, sk', LFail))
  else if get_length s <? RTRPDU_SERIAL_QUERY_LEN then Ok (s, sk, LAgain)
  else
    let s1 := advance s RTR_HDR_LEN in
    bind (read_uint32 s1 0) (fun serial =>
    Ok (advance s1 4, sk,
        LOk {| rq_version := h_version h; rq_type := h_type h; rq_session := h_m h;
               rq_serial := serial; rq_raw := raw; rq_eos := false |})).

(** src/rtr/pdu_stream.c:319-344 [load_reset_query]. *)
Definition load_reset_query (s : pstream) (sk : socket) (h : pdu_header) (raw : list Z)
  : res (pstream * socket * load_ret) :=
  if negb (h_len h =? RTRPDU_RESET_QUERY_LEN) then
    bind (err_pdu_send sk (u8 (ps_version s)) ERR_PDU_INVALID_REQUEST (Some raw)
            (cstr "Expected length 8 for Reset Query PDUs."%string))
      (fun '(sk', _) => Ok (s, sk', LFail))
  else if get_length s <? RTRPDU_RESET_QUERY_LEN then Ok (s, sk, LAgain)
  else
    Ok (advance s RTR_HDR_LEN, sk,
        LOk {| rq_version := h_version h; rq_type := h_type h; rq_session := 0;
               rq_serial := 0; rq_raw := raw; rq_eos := false |}).

(** src/rtr/pdu_stream.c:360-457 [load_error_report]; also returns the text
    that is logged.  Every failing path restores [start]. *)
Definition load_error_report (s : pstream) (h : pdu_header)
  : res (pstream * load_ret * option (list Z)) :=
  if RTRPDU_MAX_LEN2 <? h_len h then Ok (s, LFail, None)
  else if h_len h <? RTR_HDR_LEN + 8 then Ok (s, LFail, None)
  else
    let s1 := advance s RTR_HDR_LEN in
    if get_length s1 <? 4 then Ok (s, LAgain, None)
    else
      bind (read_uint32 s1 0) (fun errpdu_len =>
      let s2 := advance s1 4 in
      if RTRPDU_MAX_LEN <? errpdu_len then Ok (s, LFail, None)
      else if h_len h <? RTR_HDR_LEN + 8 + errpdu_len then Ok (s, LFail, None)
      else if get_length s2 <? errpdu_len then Ok (s, LAgain, None)
      else
        let s3 := advance s2 errpdu_len in
        if get_length s3 <? 4 then Ok (s, LAgain, None)
        else
          bind (read_uint32 s3 0) (fun errmsg_len =>
          let s4 := advance s3 4 in
          if negb (h_len h =? rtrpdu_error_report_len errpdu_len errmsg_len)
          then Ok (s, LFail, None)
          else
            bind (read_string s4 errmsg_len) (fun msg =>
            Ok (advance s4 errmsg_len, LFail, msg)))).

(** src/rtr/pdu_stream.c:521-590: one iteration of the loop of
    [pdustream_next] with a non-empty buffer ([create_request], :459-474, is
    the record built by the loaders). *)
Definition parse_pdu (s : pstream) (sk : socket) : res (pstream * socket * load_ret) :=
  let remainder := get_length s in
  if remainder <? RTR_HDR_LEN then Ok (s, sk, LAgain)
  else
    bind (read_hdr s) (fun h =>
    let bytes_len := if h_len h <=? remainder then h_len h else remainder in
    bind (memcpy_bytes (ps_buf s) bytes_len) (fun raw =>
    if RTRPDU_MAX_LEN2 <? h_len h then
      bind (err_pdu_send sk (if ps_version s =? -1 then u8 (h_version h) else u8 (ps_version s))
              ERR_PDU_INVALID_REQUEST (Some raw) (cstr "PDU is too large."%string))
        (fun '(sk', _) => Ok (s, sk', LFail))
    else
      bind (validate_rtr_version s sk h raw) (fun '(s1, sk1, ok) =>
      if negb ok then Ok (s1, sk1, LFail)
      else if h_type h =? PDU_TYPE_SERIAL_QUERY then load_serial_query s1 sk1 h raw
      else if h_type h =? PDU_TYPE_RESET_QUERY then load_reset_query s1 sk1 h raw
      else if h_type h =? PDU_TYPE_ERROR_REPORT then
        bind (load_error_report s1 h) (fun '(s2, r, _) => Ok (s2, sk1, r))
      else
        bind (err_pdu_send sk1 (u8 (ps_version s1)) ERR_PDU_UNSUP_PDU_TYPE (Some raw) [])
          (fun '(sk2, _) => Ok (s1, sk2, LFail))))).

(** The whole loop, lines 521-590: stops on an empty buffer, on a fragment
    (inl: the last complete request, if any) or on failure (inr).  [fuel]: the
    number of buffered bytes; each successful iteration consumes some. *)
Fixpoint parse_loop (fuel : nat) (s : pstream) (sk : socket) (req : option request)
  : res (pstream * socket * (option request + unit)) :=
  match ps_buf s with
  | [] => Ok (s, sk, inl req)
  | _ =>
      match fuel with
      | O => Err (EOTHER 40) (* ELOOP: out of fuel; shown unreachable *)
      | S f =>
          bind (parse_pdu s sk) (fun '(s1, sk1, r) =>
          match r with
          | LAgain => Ok (s1, sk1, inl req)
          | LFail => Ok (s1, sk1, inr tt)
          | LOk q => parse_loop f s1 sk1 (Some q)
          end)
      end
  end.

(** Result of [pdustream_next]: [None] is false (close the connection),
    [Some r] is true with *result = r. *)
Record next_out := {
  no_stream : pstream; no_socket : socket; no_evs : list read_ev;
  no_result : option (option request);
}.

(** src/rtr/pdu_stream.c:503-615 [pdustream_next].  [fuel] bounds the
    [goto again] rounds. *)
Fixpoint pdustream_rounds (fuel : nat) (s : pstream) (sk : socket) (evs : list read_ev)
  (req : option request) : res next_out :=
  match fuel with
  | O => Err (EOTHER 40)
  | S f =>
      let '(s1, st, evs1) := update_buffer s evs in
      let fail s sk := Ok {| no_stream := s; no_socket := sk; no_evs := evs1; no_result := None |} in
      match st with
      | BS_ERROR => fail s1 sk
      | _ =>
          bind (parse_loop (List.length (ps_buf s1)) s1 sk req) (fun '(s2, sk2, r) =>
          match r with
          | inr _ => fail s2 sk2
          | inl req' =>
              match st with
              | BS_EOS =>
                  match req' with
                  | None => fail s2 sk2
                  | Some q =>
                      Ok {| no_stream := s2; no_socket := sk2; no_evs := evs1;
                            no_result := Some (Some {| rq_version := rq_version q;
                              rq_type := rq_type q; rq_session := rq_session q;
                              rq_serial := rq_serial q; rq_raw := rq_raw q;
                              rq_eos := true |}) |}
                  end
              | BS_KEEP_READING => pdustream_rounds f s2 sk2 evs1 req'
              | _ => Ok {| no_stream := s2; no_socket := sk2; no_evs := evs1;
                           no_result := Some req' |}
              end
          end)
      end
  end.

(** Bytes still to come. *)
Definition pending (evs : list read_ev) : nat :=
  List.length (List.concat (map (fun e => match e with RData b => b | _ => [] end) evs)).
Definition pdustream_next (s : pstream) (sk : socket) (evs : list read_ev) : res next_out :=
  pdustream_rounds (S (S (List.length (ps_buf s) + pending evs))) s sk evs None.
