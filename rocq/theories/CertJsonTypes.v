(** libcrypto's structures of a certificate and a CRL, as print mode's JSON
    reads them: the fields its accessors return (X509_get0_*, the structures
    of openssl/x509v3.h).  A NULL pointer is [None]; bytes are numbers. *)
From Verif Require Import Base Address.

(** ASN1_OBJECT: the numbers of the identifier. *)
Definition object := list Z.
(** X509_NAME: its entries, the type and the value of each. *)
Definition x_name := list (object * list Z).
(** GENERAL_NAME: an URI, or any other. *)
Inductive general_name : Type := GenUri (uri : list Z) | GenOther.
(** DIST_POINT_NAME. *)
Inductive dp_name : Type := FullName (names : list general_name) | RelativeName (rdn : list (object * list Z)).
(** DIST_POINT; of the reasons, only whether they are there. *)
Record dist_point := { dp_point : option dp_name; dp_reasons : bool; dp_issuer : option (list general_name) }.
(** IPAddressOrRange, IPAddressChoice, IPAddressFamily; ASIdOrRange, ASIdentifierChoice. *)
Inductive ip_item : Type := IpPrefix (p : bit_string) | IpRange (min max : bit_string).
Inductive ip_choice : Type := IpInherit | IpItems (l : list ip_item).
Record ip_family := { if_family : list Z; if_choice : ip_choice }.
Inductive as_item : Type := AsId (n : Z) | AsRange (min max : Z).
Inductive as_choice : Type := AsInherit | AsItems (l : list as_item).
(** POLICYINFO: the policy, the identifiers of its qualifiers. *)
Record policy := { po_id : object; po_qualifiers : option (list object) }.

(** What X509V3_EXT_d2i() returns. *)
Inductive ext_value : Type :=
| XBasicConstraints (ca : bool) (pathlen : option Z)
| XKeyIdentifier (id : list Z)
| XAuthorityKey (keyid : option (list Z)) (issuer : bool) (serial : option Z)
| XKeyUsage (bits : list Z)
| XDistPoints (l : list dist_point)
| XInfoAccess (l : list (object * general_name))
| XPolicies (l : list policy)
| XIpBlocks (l : list ip_family)
| XAsIds (asnum rdi : option as_choice)
| XInteger (n : Z)
| XExtKeyUsage (l : list object).

(** X509_EXTENSION. *)
Record x_ext := { e_object : object; e_critical : bool; e_data : list Z }.
(** X509.  [c_tbs_alg]: tbsCertificate's "signature"; [c_alg]: "signatureAlgorithm".  The public key: its algorithm,
    and PEM_write_bio_PUBKEY()'s text of it ([None]: libcrypto doesn't support it). *)
Record x_cert := {
  c_version : Z; c_serial : Z; c_tbs_alg : object; c_issuer : x_name; c_not_before : list Z; c_not_after : list Z;
  c_subject : x_name; c_pk_alg : object; c_pk : option (list Z); c_iuid : option (list Z); c_suid : option (list Z);
  c_exts : list x_ext; c_alg : object; c_sig : list Z }.
(** X509_REVOKED, X509_CRL. *)
Record x_revoked := { r_serial : Z; r_date : list Z; r_exts : list x_ext }.
Record x_crl := {
  l_version : Z; l_tbs_alg : object; l_issuer : x_name; l_this : list Z; l_next : option (list Z);
  l_revoked : list x_revoked; l_exts : list x_ext; l_alg : object; l_sig : list Z }.

(** libcrypto: its table of objects (numbers, OBJ_obj2txt()'s text, long and short names), the text of a
    time ([None]: an error), the extension decoder; and the numbers that nid_init() (src/nid.c) gave to the
    extensions of RFC 8360. *)
Record libcrypto := {
  obj2nid : object -> Z; obj2txt : object -> list Z; nid2ln : Z -> option (list Z); nid2sn : Z -> option (list Z);
  time_print : list Z -> option (list Z); ext_d2i : object -> list Z -> option ext_value;
  nid_ip2 : Z; nid_as2 : Z }.
