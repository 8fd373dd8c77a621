(** RFC 6488 for objects in DER, in terms of RFC 5652's encodings. *)
From Coq Require Import Permutation.
From Verif Require Import Base ResourcesSpec BerSpec Asn1DecSpec Asn1Types Manifest SignedData SignedDataSpec Objects ObjectsSpec.

(** [m] is an encoding (BER) of the SET OF Attribute [attrs]. *)
Definition encodes_attributes (m : list Z) (attrs : list attribute) : Prop :=
  exists v, enc t_SignedAttributes 0 m v /\ view_attributes v = Some attrs.

(** id-signedData, 1.2.840.113549.1.7.2. *)
Definition id_signed_data : list Z := [42; 134; 72; 134; 247; 13; 1; 7; 2].

Section Spec.
  Context (sha256 : list Z -> option (list Z)).
  Context (act : action).
  Context {cert refs resources : Type}.
  Context (d2i_X509 : list Z -> option (cert * nat)).
  Context (validate_chain validate_rfc6487 : cert -> res unit).
  Context (validate_extensions_ee : cert -> list Z -> res (refs * rpki_policy)).
  Context (validate_aia : refs -> cert -> res unit).
  Context (evp_verify : cert -> list Z -> list Z -> bool).
  Context (get_resources : cert -> rpki_policy -> res resources).

  (** One attribute of each kind; their values are the encodings of the type
      and of the digest of the content. *)
  Definition attribute_der (sd : signed_data) (a : attribute) (k : kind) : Prop :=
    names (at_type a) (kind_oid k) /\
    exists value, at_values a = [value] /\
      match k with
      | ContentType => value = OBJECT_IDENTIFIER (sd_ectype sd)
      | MessageDigest => exists content digest, sd_econtent sd = Some content /\
          sha256 content = Some digest /\ value = OCTET_STRING digest
      | SigningTime => True
      end.

  Record rfc6488_der (oid : list Z) (sd : signed_data) (si : signer_info) (ski : list Z) (rf : refs) (rs : resources) : Prop := {
    der_version : integer_value (sd_version sd) = 3;
    der_digests : exists a, sd_digests sd = [a] /\ is_sha256 act a;
    der_content_type : names (sd_ectype sd) oid;
    der_signer_version : integer_value (si_version si) = 3;
    der_signer_digest : is_sha256 act (si_digest si);
    der_signer_algorithm : is_rsa (si_sigalg si);
    der_unsigned : none (si_unsigned si);
    der_signed : exists attrs ks c x policy,
      si_attrs si = Some attrs /\
      Forall2 (attribute_der sd) attrs ks /\ Permutation ks [ContentType; MessageDigest; SigningTime] /\
      sd_certs sd = Some [c] /\ d2i_X509 c = Some (x, length c) /\
      validate_chain x = Ok tt /\ validate_rfc6487 x = Ok tt /\
      validate_extensions_ee x ski = Ok (rf, policy) /\ validate_aia rf x = Ok tt /\
      (** RFC 5652 5.4: the signature is of the SET OF encoding. *)
      evp_verify x (SET (map der_attribute attrs)) (si_signature si) = true /\
      get_resources x policy = Ok rs;
  }.
End Spec.
