(** RFC 6487, 4 and 5, and RFC 7935, apart from the extensions. *)
From Verif Require Import Base CertStack Extensions ExtensionsSpec CertProfile.
Notation length := List.length.

Section Spec.
  Context (NID_commonName NID_serialNumber NID_sha256WithRSAEncryption NID_rsaEncryption NID_ecPublicKey NID_prime256v1 : Z).
  Context (obj2nid : list Z -> Z).

  Definition count (nid : Z) (l : list name_entry) : nat := length (filter (fun e => ne_nid e =? nid) l).
  (** RFC 6487 4.4: one instance of the CommonName attribute, and maybe one of
      the serialNumber attribute. *)
  Definition valid_name (l : list name_entry) : Prop :=
    (forall e, In e l -> (ne_nid e = NID_commonName \/ ne_nid e = NID_serialNumber) /\ ne_data e <> None) /\
    count NID_commonName l = 1%nat /\ (count NID_serialNumber l <= 1)%nat.
  (** The same attributes. *)
  Definition same_name (a b : list name_entry) : Prop := forall e, In e a <-> In e b.

  (** The names this can be said of: no attribute appears twice, and no NUL
      appears in a value. *)
  Definition plain (l : list name_entry) : Prop :=
    (count NID_commonName l <= 1)%nat /\ (count NID_serialNumber l <= 1)%nat /\
    forall e d, In e l -> ne_data e = Some d -> ~ In 0 d.

  Definition same_key (a b : public_key) : Prop :=
    exists alg alg' k, pk_param a = Some (alg, k) /\ pk_param b = Some (alg', k) /\ al_oid alg = al_oid alg'.

  (** RFC 7935 3: RSA, of 2048 bits (more is tolerated), exponent 65537. *)
  Definition rsa_key (k : public_key) : Prop :=
    (exists alg bytes, pk_param k = Some (alg, bytes) /\ obj2nid (al_oid alg) = NID_rsaEncryption) /\
    exists r bits, pk_key k = Some r /\ k_rsa r = true /\ k_bits r = Some bits /\ 2048 <= bits /\ k_exponent r = Some 65537.
  (** RFC 8608 3.1: an elliptic curve key of P-256. *)
  Definition p256_key (k : public_key) : Prop :=
    exists alg bytes, pk_param k = Some (alg, bytes) /\ obj2nid (al_oid alg) = NID_ecPublicKey /\ al_param alg = Some (true, NID_prime256v1).

  Context (d2i_X509_PUBKEY : list Z -> option (public_key * nat)).

  Record conforms (tal : list Z) (parent : option x509) (t : cert_type) (c : x509) : Prop := {
    cf_version : x_version c = 2;
    cf_serial : x_serial c <> None;
    cf_sigalg : x_sigalg c = NID_sha256WithRSAEncryption;
    cf_subject : valid_name (x_subject c);
    cf_issuer : valid_name (x_issuer c) /\
      (t <> CERTYPE_TA -> exists p, parent = Some p /\ valid_name (x_subject p) /\ same_name (x_subject p) (x_issuer c));
    cf_key : exists k, x_pubkey c = Some k /\ (if match t with CERTYPE_BGPSEC => true | _ => false end then p256_key k else rsa_key k) /\
      (** RFC 8630 2.3: the key of the TAL, and a certificate it signs. *)
      (t = CERTYPE_TA -> (exists tk, d2i_X509_PUBKEY tal = Some (tk, length tal) /\ same_key tk k) /\ x_self_verified c = Some true);
  }.

  Context (nid : ext_id -> Z) (sha1 : list Z -> option (list Z)).
  Record crl_conforms (parent : option x509) (c : x509_crl) : Prop := {
    cc_version : c_version c = 1;
    cc_sigalg : c_sigalg c = NID_sha256WithRSAEncryption;
    cc_issuer : exists p, parent = Some p /\ valid_name (c_issuer c) /\ valid_name (x_subject p) /\ same_name (x_subject p) (c_issuer c);
    (** RFC 6487 5: the revoked certificates have a serial number and a date, and
        nothing else. *)
    cc_revoked : forall l, c_revoked c = Some l -> Forall (fun r => rv_serial r = true /\ rv_date r = true /\ rv_extensions r = false) l;
    cc_extensions : well_formed nid 0 0 0 0 0 0 0 0 sha1 [] None Crl None (option_map key_of parent) [] (c_extensions c) empty_record;
  }.
End Spec.
