(** What RFC 6488 demands of a signed object, independent of how the program
    checks it. *)
From Coq Require Import Permutation.
From Verif Require Import Base ResourcesSpec OidSpec BerSpec Ber SignedData Manifest.

(** [b] are the bytes of the object identifier [oid], arcs being taken modulo
    2^32 (C62 tells why). *)
Definition names (b oid : list Z) : Prop :=
  exists v vs, subids b (v :: vs) /\ oid = first_arcs (v mod 2 ^ 32) ++ map (fun w => w mod 2 ^ 32) vs.

(** The identifiers of the three attributes: 1.2.840.113549.1.9.3, .4 and .5. *)
Inductive kind := ContentType | MessageDigest | SigningTime.
Definition kind_oid (k : kind) : list Z :=
  [1; 2; 840; 113549; 1; 9; match k with ContentType => 3 | MessageDigest => 4 | SigningTime => 5 end].

(** 2.16.840.1.101.3.4.2.1, 1.2.840.113549.1.1.1 and 1.2.840.113549.1.1.11. *)
Definition sha256_bytes : list Z := [96; 134; 72; 1; 101; 3; 4; 2; 1].
Definition rsa_bytes : list Z := [42; 134; 72; 134; 247; 13; 1; 1; 1].
Definition sha256rsa_bytes : list Z := [42; 134; 72; 134; 247; 13; 1; 1; 11].
(** The ASN.1 NULL. *)
Definition null_bytes : list Z := [5; 0].

Definition none {A} (l : option (list A)) : Prop := l = None \/ l = Some [].

Section Spec.
  Context (dec_oid dec_octets : list Z -> option (list Z)).
  Context (sha256 : list Z -> option (list Z)).
  Context (act : action).
  Context {cert refs resources : Type}.
  Context (d2i_X509 : list Z -> option (cert * nat)).
  Context (validate_chain validate_rfc6487 : cert -> res unit).
  Context (validate_extensions_ee : cert -> list Z -> res (refs * rpki_policy)).
  Context (validate_aia : refs -> cert -> res unit).
  Context (evp_verify : cert -> list Z -> list Z -> bool).
  Context (get_resources : cert -> rpki_policy -> res resources).

  (** SHA-256, without parameters; NULL ones are tolerated unless configured
      otherwise. *)
  Definition is_sha256 (a : alg_id) : Prop :=
    al_oid a = sha256_bytes /\ (al_params a = None \/ (al_params a = Some null_bytes /\ act <> INAC_ERROR)).
  (** RSA, or RSA with SHA-256; parameters absent or NULL. *)
  Definition is_rsa (a : alg_id) : Prop :=
    (al_oid a = rsa_bytes \/ al_oid a = sha256rsa_bytes) /\ (al_params a = None \/ al_params a = Some null_bytes).

  (** Attribute [a] is a right one of kind [k]: a single value, and the
      content type (digest) is that of the content. *)
  Definition attribute_ok (sd : signed_data) (a : attribute) (k : kind) : Prop :=
    names (at_type a) (kind_oid k) /\
    exists value, at_values a = [value] /\
      match k with
      | ContentType => dec_oid value = Some (sd_ectype sd)
      | MessageDigest => exists content digest, sd_econtent sd = Some content /\
          dec_octets value = Some digest /\ sha256 content = Some digest
      | SigningTime => True
      end.
  (** Each kind once, in any order, and nothing else. *)
  Definition attributes_ok (sd : signed_data) (attrs : list attribute) : Prop :=
    exists ks, Forall2 (attribute_ok sd) attrs ks /\ Permutation ks [ContentType; MessageDigest; SigningTime].

  (** The embedded certificate passes every check, and yields these. *)
  Definition certificate_ok (c : list Z) (ski : list Z) (frames : nat) (mem : list Z) (size : nat)
      (signature : list Z) (rf : refs) (rs : resources) : Prop :=
    exists x policy, d2i_X509 c = Some (x, length c) /\
      validate_chain x = Ok tt /\ validate_rfc6487 x = Ok tt /\
      validate_extensions_ee x ski = Ok (rf, policy) /\ validate_aia rf x = Ok tt /\
      certificate_validate_signature (evp_verify x) frames mem size signature = Ok tt /\
      get_resources x policy = Ok rs.

  Record rfc6488 (oid : list Z) (frames : nat) (mem : list Z) (size : nat) (sd : signed_data)
      (rf : refs) (rs : resources) : Prop := {
    ok_version : integer_value (sd_version sd) = 3;
    ok_digests : exists a, sd_digests sd = [a] /\ is_sha256 a;
    ok_content_type : names (sd_ectype sd) oid;
    ok_crls : none (sd_crls sd);
    ok_signer : exists si ski attrs c,
      sd_signers sd = [si] /\
      integer_value (si_version si) = 3 /\
      si_sid si = SidSKI ski /\
      is_sha256 (si_digest si) /\
      si_attrs si = Some attrs /\ attributes_ok sd attrs /\
      is_rsa (si_sigalg si) /\
      none (si_unsigned si) /\
      sd_certs sd = Some [c] /\
      certificate_ok c ski frames mem size (si_signature si) rf rs;
  }.
End Spec.

(** Every identifier and integer in it is made of bytes. *)
Definition sd_bytes (sd : signed_data) : Prop :=
  bytes (sd_version sd) /\ bytes (sd_ectype sd) /\
  Forall (fun si => bytes (si_version si) /\
            forall attrs, si_attrs si = Some attrs -> Forall (fun a => bytes (at_type a)) attrs) (sd_signers sd).
