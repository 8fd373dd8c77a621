(** Independent specification: the RTR wire format of RFC 6810 (version 0) and
    RFC 8210 (version 1), as a decoder.  Uses none of the serialisers. *)
From Verif Require Import Base Types.

(** Big-endian number of a byte list. *)
Definition be (l : list Z) : Z := fold_left (fun a b => 256 * a + b) l 0.

Inductive rtr_pdu :=
| PSerialNotify (session serial : Z)
| PSerialQuery (session serial : Z)
| PResetQuery
| PCacheResponse (session : Z)
| PPrefix (f : flag) (v : vrp)                       (* IPv4 or IPv6 Prefix *)
| PEndOfData (session serial : Z) (timers : option (Z * Z * Z)) (* refresh, retry, expire *)
| PCacheReset
| PRouterKey (f : flag) (k : router_key)
| PErrorReport (code : Z) (quoted text : list Z).

(** Flags field: bit 0 is announcement/withdrawal, the rest must be zero. *)
Definition rfc_flag (b : Z) : option flag :=
  if b =? 0 then Some WITHDRAWAL else if b =? 1 then Some ANNOUNCEMENT else None.

(** Payload of a prefix PDU: flags, prefix length, max length, zero,
    address of [alen] bytes, AS number. *)
Definition rfc_prefix (fam : family) (alen : nat) (body : list Z) : option rtr_pdu :=
  match body with
  | f :: pl :: ml :: z :: r =>
      if (length r =? alen + 4)%nat && (z =? 0) then
        match rfc_flag f with
        | Some fl =>
            Some (PPrefix fl {| v_asn := be (skipn alen r); v_addr := be (firstn alen r);
                                v_len := pl; v_max := ml; v_fam := fam |})
        | None => None
        end
      else None
  | _ => None
  end.

(** Body of an Error Report: two length-prefixed fields filling it exactly. *)
Definition rfc_error (code : Z) (body : list Z) : option rtr_pdu :=
  if (length body <? 8)%nat then None
  else
    let el := be (firstn 4 body) in
    let r := skipn 4 body in
    if Z.of_nat (length r) <? el + 4 then None
    else
      let r2 := skipn (Z.to_nat el) r in
      let text := skipn 4 r2 in
      if Z.of_nat (length text) =? be (firstn 4 r2)
      then Some (PErrorReport code (firstn (Z.to_nat el) r) text) else None.

(** The PDU with version [v], type [t], header bytes 2 and 3 [m1 m2], and the
    given bytes after the 8-byte header. *)
Definition rfc_pdu (v t m1 m2 : Z) (body : list Z) : option rtr_pdu :=
  let m := be [m1; m2] in
  let n := length body in
  if t =? 0 then if (n =? 4)%nat then Some (PSerialNotify m (be body)) else None
  else if t =? 1 then if (n =? 4)%nat then Some (PSerialQuery m (be body)) else None
  else if t =? 2 then if (n =? 0)%nat && (m =? 0) then Some PResetQuery else None
  else if t =? 3 then if (n =? 0)%nat then Some (PCacheResponse m) else None
  else if t =? 4 then if m =? 0 then rfc_prefix AF_INET 4 body else None
  else if t =? 6 then if m =? 0 then rfc_prefix AF_INET6 16 body else None
  else if t =? 7 then
    if v =? 0 then if (n =? 4)%nat then Some (PEndOfData m (be body) None) else None
    else if v =? 1 then
      if (n =? 16)%nat
      then Some (PEndOfData m (be (firstn 4 body))
                   (Some (be (firstn 4 (skipn 4 body)), be (firstn 4 (skipn 8 body)),
                          be (skipn 12 body))))
      else None
    else None
  else if t =? 8 then if (n =? 0)%nat && (m =? 0) then Some PCacheReset else None
  else if t =? 9 then
    if (n =? 20 + 4 + 91)%nat && (m2 =? 0) && (v =? 1) then
      match rfc_flag m1 with
      | Some f => Some (PRouterKey f {| rk_ski := firstn 20 body;
                                        rk_asn := be (firstn 4 (skipn 20 body));
                                        rk_spk := skipn 24 body |})
      | None => None
      end
    else None
  else if t =? 10 then rfc_error m body
  else None.

(** Split the first PDU off a byte stream. *)
Definition rfc_next (bytes : list Z) : option (Z * rtr_pdu * list Z) :=
  match bytes with
  | v :: t :: m1 :: m2 :: l1 :: l2 :: l3 :: l4 :: rest =>
      let len := be [l1; l2; l3; l4] in
      if (len <? 8) || (Z.of_nat (length rest) <? len - 8) then None
      else
        match rfc_pdu v t m1 m2 (firstn (Z.to_nat (len - 8)) rest) with
        | Some p => Some (v, p, skipn (Z.to_nat (len - 8)) rest)
        | None => None
        end
  | _ => None
  end.

(** [rfc_stream v bytes ps]: the stream consists exactly of the PDUs [ps], all
    of version [v]. *)
Inductive rfc_stream (v : Z) : list Z -> list rtr_pdu -> Prop :=
| rs_nil : rfc_stream v [] []
| rs_cons bytes p rest ps :
    rfc_next bytes = Some (v, p, rest) -> rfc_stream v rest ps ->
    rfc_stream v bytes (p :: ps).

(** One PDU, nothing else. *)
Definition rfc_decode (bytes : list Z) (v : Z) (p : rtr_pdu) : Prop :=
  rfc_next bytes = Some (v, p, []).

(** Field ranges of the C types. *)
Definition is_u16 (x : Z) : Prop := 0 <= x < 65536.
Definition vrp_in_range (v : vrp) : Prop :=
  is_u32 (v_asn v) /\ is_byte (v_len v) /\ is_byte (v_max v) /\
  0 <= v_addr v < (match v_fam v with AF_INET => 2 ^ 32 | AF_INET6 => 2 ^ 128 end).
Definition rk_in_range (k : router_key) : Prop :=
  is_u32 (rk_asn k) /\ length (rk_ski k) = 20%nat /\ length (rk_spk k) = 91%nat.
