(** The resource extensions of a certificate, from their bytes. *)
From Verif Require Import Base SArray Resources Objects.

(** An extension as OpenSSL hands it over: identifier, critical flag and
    content.  (ASN1_OCTET_STRING's length is an int.) *)
Inductive raw_extension :=
| RawIP (v : policy) (critical : bool) (data : list Z)
| RawAS (v : policy) (critical : bool) (data : list Z)
| RawOther.

(** src/object/certificate.c:1090-1157 [handle_ip_extension],
    [handle_asn_extension]: their asn1_decode. *)
Definition read_extension (nobuf : bool) (turns : nat) (e : raw_extension) : extension :=
  match e with
  | RawIP v critical data => ExtIP v critical (decode_ip_blocks nobuf turns data)
  | RawAS v critical data => ExtAS v critical (decode_as_ids nobuf turns data)
  | RawOther => ExtOther
  end.

(** The operations on the certificate stack (Resources.v), with certificates in
    bytes. *)
Inductive raw_op :=
| RawPush (p : policy) (t : cert_type) (exts : list raw_extension)
| RawPop
| RawEE (p : policy) (force_inherit : bool) (exts : list raw_extension).
Definition read_op (nobuf : bool) (turns : nat) (o : raw_op) : stack_op :=
  match o with
  | RawPush p t exts => OpPush p t (map (read_extension nobuf turns) exts)
  | RawPop => OpPop
  | RawEE p f exts => OpEE p f (map (read_extension nobuf turns) exts)
  end.
