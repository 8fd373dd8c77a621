(** Signed objects, from the bytes of the file: SignedData.v with the decoder of
    Asn1Dec.v and the views of Objects.v in place of its oracles. *)
From Verif Require Import Base Manifest SignedData Objects.

Section SignedObject.
  (** libcrypto and the checks of the embedded certificate, as in SignedData.v. *)
  Context (sha256 : list Z -> option (list Z)).
  Context (act : action).
  Context {cert refs resources : Type}.
  Context (d2i_X509 : list Z -> option (cert * nat)).
  Context (validate_chain validate_rfc6487 : cert -> res unit).
  Context (validate_extensions_ee : cert -> list Z -> res (refs * rpki_policy)).
  Context (validate_aia : refs -> cert -> res unit).
  Context (evp_verify : cert -> list Z -> list Z -> bool).
  Context (get_resources : cert -> rpki_policy -> res resources).

  (** src/object/signed_object.c:6-23 [signed_object_decode], and then
      [signed_object_validate].  The decoder leaves a zero (at least) after the
      content of an ANY (src/asn1/asn1c/OCTET_STRING.c:84-111, APPEND); [slack]
      is the rest of the memory it allocated. *)
  Definition read_signed_object (slack : list Z) (nobuf : bool) (turns : nat) (oid : list Z) (frames : nat) (file : list Z)
      : res (signed_data * refs * resources) :=
    signed_object (decode_oid nobuf turns) (decode_octets nobuf turns) sha256 act d2i_X509 validate_chain validate_rfc6487
      validate_extensions_ee validate_aia evp_verify get_resources
      (decode_content_info (0 :: slack) nobuf turns) (decode_signed_data nobuf turns) (decode_signed_data_pkcs7 nobuf turns)
      (decode_octets nobuf turns) oid frames file.
End SignedObject.
