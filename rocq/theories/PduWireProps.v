(** C11 and C16: the serialisers against the RFC 6810 / RFC 8210 decoder of
    PduWireSpec.v.  [rfc_decode b v p]: the bytes [b] are exactly one PDU, [p],
    of protocol version [v] (so the length field equals the number of bytes). *)
From Verif Require Import Base BaseLemmas Types PduWire PduWireSpec PduWireProofs.

Theorem C11_serial_notify : forall version session serial,
  is_byte version -> is_u16 session -> is_u32 serial ->
  rfc_decode (ser_serial_notify version session serial) version (PSerialNotify session serial).
Proof. intros. apply next_ok_decode, serial_notify_ok; auto. Qed.
Print Assumptions C11_serial_notify.

Theorem C11_cache_reset : forall version, is_byte version ->
  rfc_decode (ser_cache_reset version) version PCacheReset.
Proof. intros. apply next_ok_decode, cache_reset_ok; auto. Qed.

Theorem C11_cache_response : forall version session, is_byte version -> is_u16 session ->
  rfc_decode (ser_cache_response version session) version (PCacheResponse session).
Proof. intros. apply next_ok_decode, cache_response_ok; auto. Qed.

Theorem C11_prefix : forall version v f, is_byte version -> vrp_in_range v ->
  rfc_decode (ser_prefix version v (flag_byte f)) version (PPrefix f v).
Proof. intros. apply next_ok_decode, prefix_ok; auto. Qed.
Print Assumptions C11_prefix.

(** Router keys: never sent to version 0, well formed for version 1. *)
Theorem C11_router_key : forall k f, rk_in_range k ->
  ser_router_key 0 k (flag_byte f) = None /\
  exists b, ser_router_key 1 k (flag_byte f) = Some b /\ rfc_decode b 1 (PRouterKey f k).
Proof.
  intros k f H. split; [reflexivity|].
  destruct (ser_router_key 1 k (flag_byte f)) as [b|] eqn:E; [|discriminate].
  exists b. split; [reflexivity|]. apply next_ok_decode. eapply router_key_ok; eauto.
Qed.
Print Assumptions C11_router_key.

Theorem C11_end_of_data : forall version session serial iv,
  version = 0 \/ version = 1 -> is_u16 session -> is_u32 serial ->
  is_u32 (i_refresh iv) -> is_u32 (i_retry iv) -> is_u32 (i_expire iv) ->
  rfc_decode (ser_end_of_data version session serial iv) version
    (PEndOfData session serial
       (if version =? 1 then Some (i_refresh iv, i_retry iv, i_expire iv) else None)).
Proof. intros. apply next_ok_decode, end_of_data_ok; auto. Qed.
Print Assumptions C11_end_of_data.

(** Consecutive PDUs are separable: a concatenation decodes to the sequence. *)
Theorem C11_streams : forall v l ps,
  Forall2 (fun b p => rfc_decode b v p) l ps -> rfc_stream v (concat l) ps.
Proof.
  intros v l ps H. apply next_ok_stream.
  induction H as [|b p l ps Hb H IH]; constructor; auto.
  apply decode_next_ok. exact Hb.
Qed.
Print Assumptions C11_streams.

Example C11_example :
  ser_prefix 1 {| v_asn := 64496; v_addr := 3221225984; v_len := 24; v_max := 28;
                  v_fam := AF_INET |} 1
  = [1;4;0;0; 0;0;0;20; 1;24;28;0; 192;0;2;0; 0;0;251;240].
Proof. reflexivity. Qed.
Example C11_example_range :
  vrp_in_range {| v_asn := 64496; v_addr := 2 ^ 125 + 5; v_len := 48; v_max := 64; v_fam := AF_INET6 |}
  /\ rk_in_range {| rk_ski := repeat 7 20; rk_asn := 4294967295; rk_spk := repeat 9 91 |}.
Proof. unfold vrp_in_range, rk_in_range, is_u32, is_byte. cbn. lia. Qed.

(** ** C16: Error Reports.  For every stored offending PDU (or none) and every
    message, no byte outside the stored ones is read, the quoted part is a
    prefix of at most 123 bytes, the result is a well-formed Error Report. *)
Theorem C16_error_report : forall version code req msg,
  is_byte version -> is_u16 code ->
  match req with None => True | Some b => Forall is_byte b end ->
  Z.of_nat (length msg) < 4294967000 ->
  exists q bytes,
    ser_error_report version code req msg = Ok bytes /\
    (length q <= 123)%nat /\
    match req with None => q = [] | Some b => exists r, b = q ++ r end /\
    Z.of_nat (length bytes) = 16 + Z.of_nat (length q) + Z.of_nat (length msg) /\
    rfc_decode bytes version (PErrorReport code q msg).
Proof.
  intros version code req msg H1 H2 H3 H4.
  destruct (error_report_ok version code req msg H1 H2 H3 H4) as (q & b & A & B & C & D & E).
  exists q, b. repeat (split; [assumption|]). apply next_ok_decode. exact E.
Qed.
Print Assumptions C16_error_report.

(** If the offending PDU is completely stored, at most 123 bytes long and its
    length field is right, it is quoted entirely. *)
Theorem C16_quotes_whole_pdu : forall version code req msg b0 b1 b2 b3 b4 b5 b6 b7 t,
  is_byte version -> is_u16 code -> Forall is_byte req ->
  Z.of_nat (length msg) < 4294967000 ->
  req = b0 :: b1 :: b2 :: b3 :: b4 :: b5 :: b6 :: b7 :: t ->
  be [b4; b5; b6; b7] = Z.of_nat (length req) -> (length req <= 123)%nat ->
  exists bytes,
    ser_error_report version code (Some req) msg = Ok bytes /\
    rfc_decode bytes version (PErrorReport code req msg).
Proof.
  intros version code req msg b0 b1 b2 b3 b4 b5 b6 b7 t H1 H2 H3 H4 E Hl Hm.
  destruct (error_report_ok version code (Some req) msg H1 H2 H3 H4) as (q & b & A & B & (r & C) & D & F).
  exists b. split; [exact A|]. apply next_ok_decode. replace req with q at 1; [exact F|].
  symmetry. exact (whole_quote _ _ _ _ _ _ _ _ _ _ _ _ _ _ _ _ A D H3 H4 E Hl Hm C).
Qed.
Print Assumptions C16_quotes_whole_pdu.

Example C16_example :
  ser_error_report 1 3 (Some [1;1;0;0;0;0;0;9;5]) [104;105]
  = Ok [1;10;0;3; 0;0;0;27; 0;0;0;9; 1;1;0;0;0;0;0;9;5; 0;0;0;2; 104;105].
Proof. reflexivity. Qed.
