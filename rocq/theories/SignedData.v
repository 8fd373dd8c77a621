(** Model of CMS signed objects (src/asn1/signed_data.c, src/object/signed_object.c,
    src/asn1/content_info.c, src/algorithm.c, src/crypto/hash.c).

    The structures are what the ASN.1 decoder leaves; its lists never contain
    NULL and have a NULL array only when they are empty, so the tests for that
    are the tests for emptiness. *)
From Verif Require Import Base Asn1 Ber Oid Manifest.

Notation length := List.length.

(** src/asn1/asn1c/AlgorithmIdentifier.h. *)
Record alg_id := { al_oid : list Z; al_params : option (list Z) }.
(** src/asn1/asn1c/CMSAttribute.h. *)
Record attribute := { at_type : list Z; at_values : list (list Z) }.
(** src/asn1/asn1c/SignerIdentifier.h. *)
Inductive signer_id := SidSKI (ski : list Z) | SidIssuerSerial | SidNothing.
(** src/asn1/asn1c/SignerInfo.h. *)
Record signer_info := {
  si_version : list Z;
  si_sid : signer_id;
  si_digest : alg_id;
  si_attrs : option (list attribute);
  si_sigalg : alg_id;
  si_signature : list Z;
  si_unsigned : option (list attribute);
}.
(** src/asn1/asn1c/SignedData.h and EncapsulatedContentInfo.h. *)
Record signed_data := {
  sd_version : list Z;
  sd_digests : list alg_id;
  sd_ectype : list Z;
  sd_econtent : option (list Z);
  sd_certs : option (list (list Z));
  sd_crls : option (list (list Z));
  sd_signers : list signer_info;
}.

Inductive rpki_policy := RPKI_POLICY_RFC6484 | RPKI_POLICY_RFC8360.

(** src/algorithm.c:9-13 [is_asn1_null_object]. *)
Definition is_asn1_null_object (any : list Z) : bool :=
  (length any =? 2)%nat && (nth 0 any 0 =? 5) && (nth 1 any 0 =? 0).

(** src/algorithm.c:15-19 [is_asn1_null]. *)
Definition is_asn1_null (any : option (list Z)) : bool :=
  match any with None => true | Some a => is_asn1_null_object a end.

(** src/algorithm.c:129-156 [validate_cms_hashing_algorithm_oid]. *)
Definition sha256_oid : list Z := [96; 134; 72; 1; 101; 3; 4; 2; 1].
Definition validate_cms_hashing_algorithm_oid (oid : list Z) : res unit :=
  if negb (length oid =? 9)%nat then Err EINVAL
  else if negb (list_eqb Z.eqb sha256_oid oid) then Err EINVAL
  else Ok tt.

(** src/algorithm.c:92-127 [validate_cms_hashing_algorithm]; [act]: what is
    configured for incid-hashalg-has-params. *)
Definition validate_cms_hashing_algorithm (act : action) (id : alg_id) : res unit :=
  match validate_cms_hashing_algorithm_oid (al_oid id) with
  | Ok tt =>
      match al_params id with
      | None => Ok tt
      | Some p => if is_asn1_null_object p
                  then (if incidence act =? 0 then Ok tt else Err EINVAL)
                  else Err EINVAL
      end
  | r => r
  end.

(** src/algorithm.c:158-239 [validate_cms_signature_algorithm]. *)
Definition pkcs1_oid : list Z := [42; 134; 72; 134; 247; 13; 1; 1].
Definition validate_cms_signature_algorithm (id : alg_id) : res unit :=
  if negb (length (al_oid id) =? 9)%nat then Err EINVAL
  else if negb (list_eqb Z.eqb pkcs1_oid (firstn 8 (al_oid id))) then Err EINVAL
  else let last := nth 8 (al_oid id) 0 in
       if negb (last =? 1) && negb (last =? 11) then Err EINVAL
       else if match al_params id with None => false | Some p => negb (is_asn1_null (Some p)) end
       then Err EINVAL
       else Ok tt.

Section Oracles.
  (** The DER decoder, for the two types attribute values are read as. *)
  Context (dec_oid dec_octets : list Z -> option (list Z)).
  (** SHA-256 ([None]: libcrypto fails). *)
  Context (sha256 : list Z -> option (list Z)).
  (** What is configured for incid-hashalg-has-params. *)
  Context (act : action).
  (** Certificates: decoding (with the number of bytes used), the checks of
      src/object/certificate.c, and the EVP verification with their key. *)
  Context {cert refs resources : Type}.
  Context (d2i_X509 : list Z -> option (cert * nat)).
  Context (validate_chain validate_rfc6487 : cert -> res unit).
  Context (validate_extensions_ee : cert -> list Z -> res (refs * rpki_policy)).
  Context (validate_aia : refs -> cert -> res unit).
  Context (evp_verify : cert -> list Z -> list Z -> bool).
  Context (get_resources : cert -> rpki_policy -> res resources).

  (** src/crypto/hash.c:24-30 [hash_matches], 196-212 [hash_validate]. *)
  Definition hash_validate (expected data : list Z) : res unit :=
    match sha256 data with
    | None => Err EINVAL
    | Some actual =>
        if (length expected =? length actual)%nat && list_eqb Z.eqb expected actual then Ok tt else Err EINVAL
    end.

  (** src/asn1/signed_data.c:33-47 [get_sid]. *)
  Definition get_sid (si : signer_info) : res (list Z) :=
    match si_sid si with SidSKI ski => Ok ski | _ => Err EINVAL end.

  (** src/asn1/signed_data.c:49-113 [handle_sdata_certificate].  [frames], [mem],
      [size]: the stack available, and the memory holding the SignedData
      (src/object/certificate.c [certificate_validate_signature]). *)
  Definition handle_sdata_certificate (cert_encoded : list Z) (sid : list Z)
      (frames : nat) (mem : list Z) (size : nat) (signature : list Z) : res (refs * resources) :=
    match d2i_X509 cert_encoded with
    | None => Err EINVAL
    | Some (c, used) =>
        if negb (used =? length cert_encoded)%nat then Err EINVAL
        else (do _ <- validate_chain c;
              do _ <- validate_rfc6487 c;
              do x <- validate_extensions_ee c sid;
              do _ <- validate_aia (fst x) c;
              do _ <- certificate_validate_signature (evp_verify c) frames mem size signature;
              do r <- get_resources c (snd x);
              Ok (fst x, r))%res
    end.

  (** src/asn1/signed_data.c:116-135 [validate_content_type_attribute]. *)
  Definition validate_content_type_attribute (value : list Z) (sd : signed_data) : res unit :=
    match dec_oid value with
    | None => Err EINVAL
    | Some v => if oid_equal v (sd_ectype sd) then Ok tt else Err EINVAL
    end.

  (** src/asn1/signed_data.c:137-158 [validate_message_digest_attribute]. *)
  Definition validate_message_digest_attribute (value : list Z) (sd : signed_data) : res unit :=
    match sd_econtent sd with
    | None => Err EINVAL
    | Some content =>
        match dec_octets value with
        | None => Err EINVAL
        | Some digest => hash_validate digest content
        end
    end.

  (** src/asn1/signed_data.c:174-228: the loop of validate_signed_attrs, with
      the three flags, and 230-238: what follows it. *)
  Fixpoint signed_attrs_loop (sd : signed_data) (attrs : list attribute) (ct md st : bool) : res unit :=
    match attrs with
    | [] => if negb ct then Err EINVAL else if negb md then Err EINVAL
            else if negb st then Err EINVAL else Ok tt
    | a :: attrs' =>
        match at_values a with
        | [value] =>
            match oid2arcs (at_type a) with
            | Err e => Err e
            | UB => UB
            | Ok arcs =>
                let eq oid := arcs_equal (oa_arcs arcs) (oa_count arcs) oid (length oid) in
                (do isct <- eq OID_CONTENT_TYPE_ATTR;
                 if (isct : bool) then
                   if ct then Err EINVAL else
                   do _ <- validate_content_type_attribute value sd;
                   signed_attrs_loop sd attrs' true md st
                 else
                 do ismd <- eq OID_MESSAGE_DIGEST_ATTR;
                 if (ismd : bool) then
                   if md then Err EINVAL else
                   do _ <- validate_message_digest_attribute value sd;
                   signed_attrs_loop sd attrs' ct true st
                 else
                 do isst <- eq OID_SIGNING_TIME_ATTR;
                 if (isst : bool) then
                   if st then Err EINVAL else signed_attrs_loop sd attrs' ct md true
                 else Err EINVAL)%res
            end
        | _ => Err EINVAL
        end
    end.

  (** src/asn1/signed_data.c:160-244 [validate_signed_attrs]. *)
  Definition validate_signed_attrs (si : signer_info) (sd : signed_data) : res unit :=
    match si_attrs si with
    | None => Err EINVAL
    | Some attrs => signed_attrs_loop sd attrs false false false
    end.

  Definition has_some {A} (l : option (list A)) : bool :=
    match l with Some (_ :: _) => true | _ => false end.

  (** src/asn1/signed_data.c:246-379 [signed_data_validate]. *)
  Definition signed_data_validate (frames : nat) (mem : list Z) (size : nat) (sd : signed_data)
      : res (refs * resources) :=
    match sd_signers sd with
    | [si] =>
        match asn_INTEGER2ulong (sd_version sd) with
        | None => Err EINVAL
        | Some version =>
            if negb (version =? 3) then Err EINVAL else
            match sd_digests sd with
            | [alg] =>
                (do _ <- validate_cms_hashing_algorithm act alg;
                 if has_some (sd_crls sd) then Err EINVAL else
                 match asn_INTEGER2ulong (si_version si) with
                 | None => Err EINVAL
                 | Some version =>
                     if negb (version =? 3) then Err EINVAL else
                     do sid <- get_sid si;
                     do _ <- validate_cms_hashing_algorithm act (si_digest si);
                     do _ <- validate_signed_attrs si sd;
                     do _ <- validate_cms_signature_algorithm (si_sigalg si);
                     if has_some (si_unsigned si) then Err EINVAL else
                     match sd_certs sd with
                     | Some [c] => handle_sdata_certificate c sid frames mem size (si_signature si)
                     | _ => Err EINVAL
                     end
                 end)%res
            | _ => Err EINVAL
            end
        end
    | _ => Err EINVAL
    end.

  (** src/asn1/signed_data.c:472-497: the loop of get_content_type_attr. *)
  Fixpoint content_type_loop (attrs : list attribute) : res (list Z) :=
    match attrs with
    | [] => Err EINVAL
    | a :: attrs' =>
        match is_oid (at_type a) OID_CONTENT_TYPE_ATTR with
        | Ok true =>
            match at_values a with
            | [] => Err EINVAL
            | v :: _ => match dec_oid v with Some o => Ok o | None => Err EINVAL end
            end
        | Ok false => content_type_loop attrs'
        | Err e => Err e
        | UB => UB
        end
    end.

  (** src/asn1/signed_data.c:448-492 [get_content_type_attr]. *)
  Definition get_content_type_attr (sd : signed_data) : res (list Z) :=
    match sd_signers sd with
    | [] => Err EINVAL
    | si :: _ =>
        match si_attrs si with
        | None | Some [] => Err EINVAL
        | Some attrs => content_type_loop attrs
        end
    end.

  (** src/object/signed_object.c:24-42 [validate_eContentType]. *)
  Definition validate_eContentType (sd : signed_data) (oid : list Z) : res unit :=
    (do equals <- is_oid (sd_ectype sd) oid;
     if (equals : bool) then Ok tt else Err EINVAL)%res.

  (** src/object/signed_object.c:44-67 [validate_content_type]. *)
  Definition validate_content_type (sd : signed_data) (oid : list Z) : res unit :=
    (do ctype <- get_content_type_attr sd;
     do equals <- is_oid ctype oid;
     if (equals : bool) then Ok tt else Err EINVAL)%res.

  (** src/object/signed_object.c:69-89 [signed_object_validate]. *)
  Definition signed_object_validate (oid : list Z) (frames : nat) (mem : list Z) (size : nat) (sd : signed_data)
      : res (refs * resources) :=
    (do _ <- validate_eContentType sd oid;
     do _ <- validate_content_type sd oid;
     signed_data_validate frames mem size sd)%res.

  (** The decoder, for the types ContentInfo (its content type, the memory of its
      content and the content's size), SignedData, SignedDataPKCS7 (with the
      content's ANY value) and ContentTypePKCS7. *)
  Context (dec_cinfo : list Z -> option (list Z * list Z * nat)).
  Context (dec_sdata : list Z -> option signed_data).
  Context (dec_sdata7 : list Z -> option (signed_data * option (list Z))).
  Context (dec_econtent7 : list Z -> option (list Z)).

  (** src/asn1/content_info.c:7-25 [validate], 27-48 [decode]. *)
  Definition content_info_decode (file : list Z) : res (list Z * nat) :=
    match dec_cinfo file with
    | None => Err EINVAL
    | Some (ctype, mem, size) =>
        (do equals <- is_oid ctype OID_SIGNED_DATA;
         if (equals : bool) then Ok (mem, size) else Err EINVAL)%res
    end.

  (** src/asn1/signed_data.c:389-430 [signed_data_decode_pkcs7]. *)
  Definition signed_data_decode_pkcs7 (content : list Z) : res signed_data :=
    match dec_sdata7 content with
    | None => Err EINVAL
    | Some (_, None) => Err EINVAL
    | Some (sd, Some any) =>
        match dec_econtent7 any with
        | None => Err EINVAL
        | Some e => Ok {| sd_version := sd_version sd; sd_digests := sd_digests sd;
                          sd_ectype := sd_ectype sd; sd_econtent := Some e;
                          sd_certs := sd_certs sd; sd_crls := sd_crls sd; sd_signers := sd_signers sd |}
        end
    end.

  (** src/asn1/signed_data.c:432-445 [signed_data_decode]. *)
  Definition signed_data_decode (content : list Z) : res signed_data :=
    match dec_sdata content with
    | Some sd => Ok sd
    | None => signed_data_decode_pkcs7 content
    end.

  (** src/object/signed_object.c:6-22 [signed_object_decode], and then
      [signed_object_validate], as in src/object/roa.c:247-295 [roa_traverse]
      and the other objects. *)
  Definition signed_object (oid : list Z) (frames : nat) (file : list Z) : res (signed_data * refs * resources) :=
    (do c <- content_info_decode file;
     do sd <- signed_data_decode (firstn (snd c) (fst c));
     do r <- signed_object_validate oid frames (fst c) (snd c) sd;
     Ok (sd, fst r, snd r))%res.
End Oracles.
