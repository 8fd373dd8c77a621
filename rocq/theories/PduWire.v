(** Model of the PDU serialisers: src/rtr/primitive_writer.c,
    src/rtr/pdu_sender.c and the constants of src/rtr/pdu.h.  A serialiser
    returns the bytes it stores in its [data] array. *)
From Verif Require Import Base Types.

(** Conversion to unsigned char. *)
Definition u8 (x : Z) : Z := x mod 256.
(** Conversion to uint16_t. *)
Definition u16 (x : Z) : Z := x mod 65536.

(** src/rtr/primitive_writer.c:3-8 [write_uint8]. *)
Definition write_uint8 (v : Z) : list Z := [u8 v].
(** src/rtr/primitive_writer.c:11-17 [write_uint16]. *)
Definition write_uint16 (v : Z) : list Z := [u8 (Z.shiftr v 8); u8 v].
(** src/rtr/primitive_writer.c:20-28 [write_uint32]. *)
Definition write_uint32 (v : Z) : list Z :=
  [u8 (Z.shiftr v 24); u8 (Z.shiftr v 16); u8 (Z.shiftr v 8); u8 v].
(** src/rtr/primitive_writer.c:30-34 [write_in_addr]; the model's IPv4 address
    already is the host-order number ntohl() gives. *)
Definition write_in_addr (addr : Z) : list Z := write_uint32 addr.
(** The sixteen bytes s6_addr[0..15] of a 128-bit address number. *)
Definition s6_addr (addr : Z) : list Z :=
  map (fun i => u8 (Z.shiftr addr (8 * (15 - i)))) [0;1;2;3;4;5;6;7;8;9;10;11;12;13;14;15].
(** src/rtr/primitive_writer.c:36-43 [write_in6_addr]. *)
Definition write_in6_addr (addr : Z) : list Z := flat_map write_uint8 (s6_addr addr).

(** src/rtr/pdu.h:26-37 [enum pdu_type]. *)
Definition PDU_TYPE_SERIAL_NOTIFY := 0.
Definition PDU_TYPE_SERIAL_QUERY := 1.
Definition PDU_TYPE_RESET_QUERY := 2.
Definition PDU_TYPE_CACHE_RESPONSE := 3.
Definition PDU_TYPE_IPV4_PREFIX := 4.
Definition PDU_TYPE_IPV6_PREFIX := 6.
Definition PDU_TYPE_END_OF_DATA := 7.
Definition PDU_TYPE_CACHE_RESET := 8.
Definition PDU_TYPE_ROUTER_KEY := 9.
Definition PDU_TYPE_ERROR_REPORT := 10.

(** src/rtr/pdu.h:48-71: lengths. *)
Definition RTR_HDR_LEN := 8.
Definition RTRPDU_SERIAL_NOTIFY_LEN := 12.
Definition RTRPDU_SERIAL_QUERY_LEN := 12.
Definition RTRPDU_RESET_QUERY_LEN := 8.
Definition RTRPDU_CACHE_RESPONSE_LEN := 8.
Definition RTRPDU_IPV4_PREFIX_LEN := 20.
Definition RTRPDU_IPV6_PREFIX_LEN := 32.
Definition RTRPDU_END_OF_DATA_V0_LEN := 12.
Definition RTRPDU_END_OF_DATA_V1_LEN := 24.
Definition RTRPDU_CACHE_RESET_LEN := 8.
Definition RTRPDU_ROUTER_KEY_LEN := 123.
Definition RTRPDU_MAX_LEN := RTRPDU_ROUTER_KEY_LEN.
Definition RTRPDU_MAX_LEN2 := 1024.

(** src/rtr/pdu.h:73-81 [rtrpdu_error_report_len]: the operands are 32-bit
    unsigned (RTR_HDR_LEN is 8u), so the sum wraps before it is widened to the
    size_t result. *)
Definition rtrpdu_error_report_len (errpdu_len errmsg_len : Z) : Z :=
  wrap32 (RTR_HDR_LEN + 4 + errpdu_len + 4 + errmsg_len).

(** src/types/delta.h:7-8. *)
Definition flag_byte (f : flag) : Z :=
  match f with WITHDRAWAL => 0 | ANNOUNCEMENT => 1 end.

(** src/rtr/pdu_sender.c:12-21 [serialize_hdr]. *)
Definition serialize_hdr (version type m length : Z) : list Z :=
  write_uint8 version ++ write_uint8 type ++ write_uint16 m ++ write_uint32 length.

(** src/rtr/pdu_sender.c:85-98 [send_serial_notify_pdu]; [session] is
    get_current_session_id(version). *)
Definition ser_serial_notify (version session serial : Z) : list Z :=
  serialize_hdr version PDU_TYPE_SERIAL_NOTIFY session RTRPDU_SERIAL_NOTIFY_LEN
  ++ write_uint32 serial.

(** src/rtr/pdu_sender.c:100-110 [send_cache_reset_pdu]. *)
Definition ser_cache_reset (version : Z) : list Z :=
  serialize_hdr version PDU_TYPE_CACHE_RESET 0 RTRPDU_CACHE_RESET_LEN.

(** src/rtr/pdu_sender.c:112-122 [send_cache_response_pdu]. *)
Definition ser_cache_response (version session : Z) : list Z :=
  serialize_hdr version PDU_TYPE_CACHE_RESPONSE session RTRPDU_CACHE_RESPONSE_LEN.

(** src/rtr/pdu_sender.c:124-142 [send_ipv4_prefix_pdu]. *)
Definition ser_ipv4_prefix (version : Z) (v : vrp) (flags : Z) : list Z :=
  serialize_hdr version PDU_TYPE_IPV4_PREFIX 0 RTRPDU_IPV4_PREFIX_LEN
  ++ write_uint8 flags ++ write_uint8 (v_len v) ++ write_uint8 (v_max v)
  ++ write_uint8 0 ++ write_in_addr (v_addr v) ++ write_uint32 (v_asn v).

(** src/rtr/pdu_sender.c:144-162 [send_ipv6_prefix_pdu]. *)
Definition ser_ipv6_prefix (version : Z) (v : vrp) (flags : Z) : list Z :=
  serialize_hdr version PDU_TYPE_IPV6_PREFIX 0 RTRPDU_IPV6_PREFIX_LEN
  ++ write_uint8 flags ++ write_uint8 (v_len v) ++ write_uint8 (v_max v)
  ++ write_uint8 0 ++ write_in6_addr (v_addr v) ++ write_uint32 (v_asn v).

(** src/rtr/pdu_sender.c:164-175 [send_prefix_pdu]. *)
Definition ser_prefix (version : Z) (v : vrp) (flags : Z) : list Z :=
  match v_fam v with
  | AF_INET => ser_ipv4_prefix version v flags
  | AF_INET6 => ser_ipv6_prefix version v flags
  end.

(** src/rtr/pdu_sender.c:177-197 [send_router_key_pdu]; [None]: nothing is
    sent (RTR_V0).  The memcpy()s copy sizeof the arrays (20 and 91). *)
Definition ser_router_key (version : Z) (k : router_key) (flags : Z) : option (list Z) :=
  if version =? 0 then None
  else Some (serialize_hdr version PDU_TYPE_ROUTER_KEY (u16 (Z.shiftl flags 8))
               RTRPDU_ROUTER_KEY_LEN
             ++ rk_ski k ++ write_uint32 (rk_asn k) ++ rk_spk k).

(** The three intervals of the configuration (config_get_interval_xxx()). *)
Record intervals := { i_refresh : Z; i_retry : Z; i_expire : Z }.

(** src/rtr/pdu_sender.c:201-225 [send_end_of_data_pdu]. *)
Definition ser_end_of_data (version session serial : Z) (iv : intervals) : list Z :=
  let len := if version =? 1 then RTRPDU_END_OF_DATA_V1_LEN
             else RTRPDU_END_OF_DATA_V0_LEN in
  serialize_hdr version PDU_TYPE_END_OF_DATA session len
  ++ write_uint32 serial
  ++ (if version =? 1
      then write_uint32 (i_refresh iv) ++ write_uint32 (i_retry iv)
           ++ write_uint32 (i_expire iv)
      else []).

(** src/rtr/pdu_sender.c:227-242 [compute_error_pdu_len]; the request is NULL
    or a (bytes, bytes_len) pair whose bytes_len is the list's length. *)
Definition compute_error_pdu_len (request : option (list Z)) : res Z :=
  match request with
  | None => Ok 0
  | Some bytes =>
      let bytes_len := Z.of_nat (length bytes) in
      if bytes_len <? RTR_HDR_LEN then Ok 0
      else match nth_error bytes 4, nth_error bytes 5, nth_error bytes 6,
                 nth_error bytes 7 with
           | Some b4, Some b5, Some b6, Some b7 =>
               let result := Z.lor (Z.shiftl b4 24) (Z.lor (Z.shiftl b5 16)
                               (Z.lor (Z.shiftl b6 8) b7)) in
               let result := if result <=? bytes_len then result else bytes_len in
               Ok (if result <=? RTRPDU_MAX_LEN then result else RTRPDU_MAX_LEN)
           | _, _, _, _ => UB
           end
  end.

(** memcpy(dst, src, n): reading past the end of [src] is [UB]. *)
Definition memcpy_bytes (src : list Z) (n : Z) : res (list Z) :=
  if n <=? Z.of_nat (length src) then Ok (firstn (Z.to_nat n) src) else UB.

(** src/rtr/pdu_sender.c:244-275 [send_error_report_pdu] up to the write.
    [message] is the C string's content ([] when NULL).  The header's length
    argument is converted from size_t to uint32_t. *)
Definition ser_error_report (version code : Z) (request : option (list Z))
  (message : list Z) : res (list Z) :=
  bind (compute_error_pdu_len request) (fun error_pdu_len =>
  let error_msg_len := Z.of_nat (length message) in
  let len := rtrpdu_error_report_len (wrap32 error_pdu_len) (wrap32 error_msg_len) in
  bind (if 0 <? error_pdu_len
        then match request with
             | Some bytes => memcpy_bytes bytes error_pdu_len
             | None => UB
             end
        else Ok []) (fun quoted =>
  Ok (serialize_hdr version PDU_TYPE_ERROR_REPORT code (wrap32 len)
      ++ write_uint32 (wrap32 error_pdu_len) ++ quoted
      ++ write_uint32 (wrap32 error_msg_len) ++ message))).
