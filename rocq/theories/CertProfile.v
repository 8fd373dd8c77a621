(** Certificates and CRLs apart from their extensions: src/object/name.c,
    src/algorithm.c, src/object/certificate.c (certificate_validate_rfc6487()),
    src/object/crl.c and the CRL of a publication point (src/rpp.c).

    libcrypto's accessors are the fields of the records below. *)
From Verif Require Import Base CertStack Extensions.
Notation length := List.length.

(** X509_NAME_ENTRY: the NID of the attribute (OBJ_obj2nid()) and its string. *)
Record name_entry := { ne_nid : Z; ne_data : option (list Z) }.
(** X509_ALGOR: the algorithm's object identifier and, for BGPsec, the type and
    the NID of the parameters. *)
Record algor := { al_oid : list Z; al_param : option (bool * Z) }.
(** EVP_PKEY: whether it's an RSA one, and its size and exponent, if libcrypto
    finds them. *)
Record pkey := { k_rsa : bool; k_bits : option Z; k_exponent : option Z }.
(** X509_PUBKEY: X509_PUBKEY_get0_param() (algorithm and key) and
    X509_PUBKEY_get0(). *)
Record public_key := { pk_param : option (algor * list Z); pk_key : option pkey }.
(** X509. *)
Record x509 := {
  x_version : Z;
  x_serial : option Z;
  x_sigalg : Z;
  x_issuer : list name_entry;
  x_subject : list name_entry;
  x_pubkey : option public_key;
  (** X509_get0_pubkey(), and whether X509_verify() with it is 1. *)
  x_self_verified : option bool;
  x_extensions : list x509_extension;
}.
(** The key of a certificate: Extensions.v. *)
Definition key_of (c : x509) : option (list Z) :=
  match x_pubkey c with
  | Some {| pk_param := Some (_, k) |} => Some k
  | _ => None
  end.

(** X509_REVOKED: the serial number and the date are there, and the
    extensions. *)
Record revoked := { rv_serial : bool; rv_date : bool; rv_extensions : bool }.
(** X509_CRL. *)
Record x509_crl := {
  c_version : Z;
  c_sigalg : Z;
  c_issuer : list name_entry;
  c_revoked : option (list revoked);
  c_extensions : list x509_extension;
}.

(** ** src/object/name.c *)

(** src/object/name.c:16-21 [struct rfc5280_name]. *)
Record rfc5280_name := { commonName : option (list Z); serialNumber : option (list Z) }.

Section Profile.
  Context (NID_commonName NID_serialNumber NID_sha256WithRSAEncryption NID_rsaEncryption NID_ecPublicKey NID_prime256v1 : Z).
  (** OBJ_obj2nid(), of an object identifier. *)
  Context (obj2nid : list Z -> Z).

  (** src/object/name.c:23-39 [name2string]. *)
  Definition name2string (e : name_entry) : res (list Z) :=
    match ne_data e with None => Err EINVAL | Some d => Ok d end.

  (** src/object/name.c:41-89 [x509_name_decode]: the loop... *)
  Fixpoint name_loop (l : list name_entry) (n : rfc5280_name) : res rfc5280_name :=
    match l with
    | [] => Ok n
    | e :: l' =>
        if ne_nid e =? NID_commonName then
          bind (name2string e) (fun s => name_loop l' {| commonName := Some s; serialNumber := serialNumber n |})
        else if ne_nid e =? NID_serialNumber then
          bind (name2string e) (fun s => name_loop l' {| commonName := commonName n; serialNumber := Some s |})
        else Err EINVAL
    end.
  (** ... and the rest. *)
  Definition x509_name_decode (l : list name_entry) : res rfc5280_name :=
    bind (name_loop l {| commonName := None; serialNumber := None |}) (fun n =>
    match commonName n with None => Err EINVAL | Some _ => Ok n end).

  (** strcmp() == 0. *)
  Definition str_same (a b : list Z) : bool := list_eqb Z.eqb (until_nul a) (until_nul b).
  (** src/object/name.c:123-130 [str_equals]. *)
  Definition str_equals (a b : option (list Z)) : bool :=
    match a, b with
    | None, None => true
    | Some a, Some b => str_same a b
    | _, _ => false
    end.
  (** src/object/name.c:134-139 [x509_name_equals]: neither commonName is NULL. *)
  Definition x509_name_equals (a b : rfc5280_name) : res bool :=
    match commonName a, commonName b with
    | Some ca, Some cb => Ok (str_same ca cb && str_equals (serialNumber a) (serialNumber b))
    | _, _ => UB
    end.
  (** src/object/name.c:141-193 [validate_issuer_name]; [parent]: the certificate
      on top of the stack. *)
  Definition validate_issuer_name (parent : option x509) (issuer : list name_entry) : res unit :=
    match parent with
    | None => Err EINVAL
    | Some parent =>
        bind (x509_name_decode (x_subject parent)) (fun parent_subject =>
        bind (x509_name_decode issuer) (fun child_issuer =>
        bind (x509_name_equals parent_subject child_issuer) (fun b => if b then Ok tt else Err EINVAL)))
    end.

  (** ** src/algorithm.c *)

  (** src/algorithm.c:24-32 [validate_certificate_signature_algorithm]. *)
  Definition validate_certificate_signature_algorithm (nid : Z) : res unit :=
    if nid =? NID_sha256WithRSAEncryption then Ok tt else Err EINVAL.
  (** src/algorithm.c:37-56 [validate_certificate_public_key_algorithm]. *)
  Definition validate_certificate_public_key_algorithm (pa : algor) : res unit :=
    if obj2nid (al_oid pa) =? NID_rsaEncryption then Ok tt else Err EINVAL.
  (** src/algorithm.c:61-90 [validate_certificate_public_key_algorithm_bgpsec]. *)
  Definition validate_certificate_public_key_algorithm_bgpsec (pa : algor) : res unit :=
    if negb (obj2nid (al_oid pa) =? NID_ecPublicKey) then Err EINVAL
    else match al_param pa with
         | None => Err EINVAL
         | Some (is_object, nid) =>
             if negb is_object then Err EINVAL
             else if negb (nid =? NID_prime256v1) then Err EINVAL
             else Ok tt
         end.

  (** ** src/object/certificate.c *)

  (** src/object/certificate.c:184-213 [spki_cmp]: both callbacks return
      -EINVAL. *)
  Definition spki_cmp (a b : public_key) : res unit :=
    match pk_param a with
    | None => Err EINVAL
    | Some (alg_a, spk_a) =>
        match pk_param b with
        | None => Err EINVAL
        | Some (alg_b, spk_b) =>
            if negb (list_eqb Z.eqb (al_oid alg_a) (al_oid alg_b)) then Err EINVAL
            else if negb (length spk_a =? length spk_b)%nat then Err EINVAL
            else if negb (list_eqb Z.eqb spk_a spk_b) then Err EINVAL
            else Ok tt
        end
    end.

  (** d2i_X509_PUBKEY(): the key and the number of bytes read. *)
  Context (d2i_X509_PUBKEY : list Z -> option (public_key * nat)).

  (** src/object/certificate.c:235-262 [decode_spki]. *)
  Definition decode_spki (spki : list Z) : option public_key :=
    match d2i_X509_PUBKEY spki with
    | None => None
    | Some (k, n) => if (n =? length spki)%nat then Some k else None
    end.

  (** src/object/certificate.c:276-321 [validate_spki]; [tal]: the TAL's
      subjectPublicKeyInfo.  (The state's pubkey_state only chooses between two
      error codes that mean the same to the caller.) *)
  Definition validate_spki (tal : list Z) (cert : public_key) : res unit :=
    match decode_spki tal with
    | None => Err EINVAL
    | Some k => spki_cmp k cert
    end.

  (** src/object/certificate.c:328-459 [validate_subject_public_key], with OpenSSL
      3. *)
  Definition validate_subject_public_key (k : public_key) : res unit :=
    match pk_key k with
    | None => Err EINVAL
    | Some k =>
        if negb (k_rsa k) then Err EINVAL
        else match k_bits k with
             | None => Err EINVAL
             | Some bits =>
                 if bits <? 2048 then Err EINVAL
                 else match k_exponent k with
                      | None => Err EINVAL
                      | Some e => if e =? 65537 then Ok tt else Err EINVAL
                      end
             end
    end.

  (** src/object/certificate.c:461-513 [validate_public_key]. *)
  Definition validate_public_key (tal : list Z) (c : x509) (t : cert_type) : res unit :=
    match x_pubkey c with
    | None => Err EINVAL
    | Some k =>
        match pk_param k with
        | None => Err EINVAL
        | Some (pa, _) =>
            match t with
            | CERTYPE_BGPSEC => validate_certificate_public_key_algorithm_bgpsec pa
            | _ =>
                bind (validate_certificate_public_key_algorithm pa) (fun _ =>
                bind (validate_subject_public_key k) (fun _ =>
                match t with
                | CERTYPE_TA =>
                    bind (validate_spki tal k) (fun _ =>
                    match x_self_verified c with
                    | Some true => Ok tt
                    | _ => Err EINVAL
                    end)
                | _ => Ok tt
                end))
            end
        end
    end.

  (** src/cert_stack.c:390-442 [x509stack_store_serial]: the serial numbers of the
      issuer's children, and whether it warns. *)
  Definition x509stack_store_serial (serials : option (list Z)) (number : Z) : option (list Z) * bool :=
    match serials with
    | None => (None, false)
    | Some l => if existsb (Z.eqb number) l then (Some l, true) else (Some (l ++ [number]), false)
    end.

  (** src/object/certificate.c:129-145 [validate_serial_number], as far as the
      result is concerned. *)
  Definition validate_serial_number (c : x509) : res unit :=
    match x_serial c with None => Err EINVAL | Some _ => Ok tt end.
  (** src/object/certificate.c:157-178 [validate_issuer]. *)
  Definition validate_issuer (parent : option x509) (c : x509) (is_ta : bool) : res unit :=
    if negb is_ta then validate_issuer_name parent (x_issuer c)
    else bind (x509_name_decode (x_issuer c)) (fun _ => Ok tt).
  (** src/object/certificate.c:220-233 [validate_subject]. *)
  Definition validate_subject (c : x509) : res unit :=
    bind (x509_name_decode (x_subject c)) (fun _ => Ok tt).

  (** src/object/certificate.c:515-568 [certificate_validate_rfc6487]. *)
  Definition certificate_validate_rfc6487 (tal : list Z) (parent : option x509) (c : x509) (t : cert_type) : res unit :=
    if negb (x_version c =? 2) then Err EINVAL
    else
      bind (validate_serial_number c) (fun _ =>
      bind (validate_certificate_signature_algorithm (x_sigalg c)) (fun _ =>
      bind (validate_issuer parent c (match t with CERTYPE_TA => true | _ => false end)) (fun _ =>
      bind (validate_subject c) (fun _ =>
      validate_public_key tal c t)))).

  (** ** src/object/crl.c *)

  (** src/object/crl.c:67-102 [validate_revoked]. *)
  Fixpoint revoked_loop (l : list revoked) : res unit :=
    match l with
    | [] => Ok tt
    | r :: l' =>
        if negb (rv_serial r) then Err EINVAL
        else if negb (rv_date r) then Err EINVAL
        else if rv_extensions r then Err EINVAL
        else revoked_loop l'
    end.
  Definition validate_revoked (c : x509_crl) : res unit :=
    match c_revoked c with None => Ok tt | Some l => revoked_loop l end.

  Context (nid : ext_id -> Z) (sha1 : list Z -> option (list Z)).
  (** src/object/crl.c:140-164 [crl_validate]. *)
  Definition crl_validate (parent : option x509) (c : x509_crl) : res unit :=
    if negb (c_version c =? 1) then Err EINVAL
    else
      bind (validate_certificate_signature_algorithm (c_sigalg c)) (fun _ =>
      bind (validate_issuer_name parent (c_issuer c)) (fun _ =>
      bind (validate_revoked c) (fun _ =>
      bind (extensions_crl nid sha1 (option_map key_of parent) (c_extensions c)) (fun _ => Ok tt)))).

  (** ** src/rpp.c *)

  (** src/rpp.c:10-44: the CRL of [struct rpp]; [load]: what __crl_load() finds
      at a URI (at that moment). *)
  Record crl_slot := { cr_uri : option (list Z); cr_stack : option x509_crl; cr_error : option errcode }.

  (** src/object/crl.c:166-184 [crl_load]. *)
  Definition crl_load (load : list Z -> option x509_crl) (parent : option x509) (u : list Z) : res x509_crl :=
    match load u with
    | None => Err EINVAL
    | Some c => bind (crl_validate parent c) (fun _ => Ok c)
    end.
  (** src/rpp.c:125-148 [add_crl_to_stack] (the push onto a new stack works), and
      src/rpp.c:156-194 [rpp_crl]. *)
  Definition rpp_crl (load : list Z -> option x509_crl) (parent : option x509) (pp : option crl_slot)
      : res (option crl_slot * res (option x509_crl)) :=
    match pp with
    | None => Ok (None, Ok None)
    | Some s =>
        match cr_uri s with
        | None => UB
        | Some u =>
            match cr_stack s with
            | Some c => Ok (Some s, Ok (Some c))
            | None =>
                match cr_error s with
                | Some e => Ok (Some s, Err e)
                | None =>
                    match crl_load load parent u with
                    | Ok c => Ok (Some {| cr_uri := Some u; cr_stack := Some c; cr_error := None |}, Ok (Some c))
                    | Err e => Ok (Some {| cr_uri := Some u; cr_stack := None; cr_error := Some e |}, Err e)
                    | UB => UB
                    end
                end
            end
        end
    end.
End Profile.
