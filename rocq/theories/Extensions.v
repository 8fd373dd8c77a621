(** The extensions of certificates and CRLs: src/extension.c, and the handlers
    of src/object/certificate.c, src/object/crl.c and src/certificate_refs.c.

    X509V3_EXT_d2i() and OBJ_obj2nid() are libcrypto's: an extension is given as
    its NID, its criticality and what d2i returns for it. *)
From Verif Require Import Base PathBuilder SignedData.
Notation length := List.length.

(** ** What libcrypto provides *)

(** GENERAL_NAME: a uniformResourceIdentifier (and whether its string has the
    flag ASN1_STRING_FLAG_BITS_LEFT), or something else. *)
Inductive gname := GN_uri (text : list Z) (bits_left : bool) | GN_other.
(** DIST_POINT_NAME: type 0, 1, or another. *)
Inductive dpname := DP_fullname (l : list gname) | DP_relativename | DP_unknown.
(** DIST_POINT; [reasons] and [issuer]: the field is there. *)
Record dist_point := { dp_name : option dpname; dp_reasons : bool; dp_issuer : bool }.
(** ACCESS_DESCRIPTION: NID of the method, location. *)
Record access := { ad_method : Z; ad_location : gname }.
(** POLICYINFO: NIDs of the policy and of its qualifiers. *)
Record policy_info := { pi_id : Z; pi_qualifiers : option (list Z) }.
(** What X509V3_EXT_d2i() returns, by type; for the fields that are only
    compared with NULL, whether they are there. *)
Inductive ext_value :=
| V_basic_constraints (pathlen : bool)
| V_octets (s : list Z)
| V_akid (keyid : option (list Z)) (issuer serial : bool)
| V_bits (s : list Z)
| V_crldp (l : list dist_point)
| V_access (l : list access)
| V_policies (l : list policy_info)
| V_other.
Record x509_extension := { e_nid : Z; e_critical : bool; e_value : option ext_value }.

(** The C string at the start of a NUL-terminated buffer. *)
Fixpoint until_nul (l : list Z) : list Z :=
  match l with [] => [] | c :: t => if c =? 0 then [] else c :: until_nul t end.

(** ** src/extension.c *)

(** src/extension.c:50-757: the metadata (14 constants). *)
Inductive ext_id := BC | SKI | AKI | KU | CDP | AIA | SIA | CP | IR | AR | IR2 | AR2 | CN | EKU.
Definition meta_critical (i : ext_id) : bool :=
  match i with BC | KU | CP | IR | AR | IR2 | AR2 => true | SKI | AKI | CDP | AIA | SIA | CN | EKU => false end.

(** What the handlers leave behind: struct certificate_refs
    (src/certificate_refs.h:11-32), struct sia_uris (src/object/certificate.c:39-42)
    and the policy; [None] is NULL, and an uninitialised policy. *)
Record record := {
  r_crldp : option (list Z);
  r_caIssuers : option rpki_uri;
  r_signedObject : option rpki_uri;
  r_rpp : list rpki_uri;
  r_mft : option rpki_uri;
  r_policy : option rpki_policy;
}.
Definition empty_record : record :=
  {| r_crldp := None; r_caIssuers := None; r_signedObject := None; r_rpp := []; r_mft := None; r_policy := None |}.

(** struct extension_handler (src/extension.h:18-38); the callback with its
    argument applied. *)
Record handler := { h_id : ext_id; h_mandatory : bool; h_cb : option (ext_value -> record -> res record); h_found : bool }.
Definition set_found (h : handler) : handler := {| h_id := h_id h; h_mandatory := h_mandatory h; h_cb := h_cb h; h_found := true |}.

Section Extensions.
  (** The NIDs: of the extensions, of the access methods, of the policies and of
      the qualifier. *)
  Context (nid : ext_id -> Z).
  Context (nid_ca_issuers nid_caRepository nid_ad_notify nid_ad_mft nid_ad_so : Z).
  Context (nid_certPolicyRpki nid_certPolicyRpkiV2 nid_qt_cps : Z).
  (** EVP's SHA-1. *)
  Context (sha1 : list Z -> option (list Z)).
  (** For the creation of URIs: PathBuilder.v. *)
  Context (J : Z) (repository : list Z) (tal : option (list Z)).

  (** src/extension.c:838-895 [handle_extension]. *)
  Fixpoint handle_extension (hs : list handler) (e : x509_extension) (r : record) : res (list handler * record) :=
    match hs with
    | [] => if e_critical e then Err EINVAL else Ok ([], r)
    | h :: hs' =>
        if nid (h_id h) =? e_nid e then
          if h_found h then Err EINVAL
          else if negb (Bool.eqb (meta_critical (h_id h)) (e_critical e)) then Err EINVAL
          else match h_cb h with
               | None => Ok (set_found h :: hs', r)
               | Some cb =>
                   match e_value e with
                   | None => Err EINVAL
                   | Some v => bind (cb v r) (fun r' => Ok (set_found h :: hs', r'))
                   end
               end
        else bind (handle_extension hs' e r) (fun p => Ok (h :: fst p, snd p))
    end.

  (** src/extension.c:897-919 [handle_extensions]: the loop over the
      extensions... *)
  Fixpoint extensions_loop (hs : list handler) (es : list x509_extension) (r : record) : res (list handler * record) :=
    match es with
    | [] => Ok (hs, r)
    | e :: es' => bind (handle_extension hs e r) (fun p => extensions_loop (fst p) es' (snd p))
    end.
  (** ... and the one over the handlers. *)
  Definition handle_extensions (hs : list handler) (es : list x509_extension) (r : record) : res record :=
    bind (extensions_loop hs es r) (fun p =>
      if existsb (fun h => h_mandatory h && negb (h_found h)) (fst p) then Err EINVAL else Ok (snd p)).

  (** src/crypto/hash.c:24-30 [hash_matches], src/crypto/hash.c:196-212
      [hash_validate] with SHA-1. *)
  Definition hash_validate_sha1 (expected data : list Z) : res unit :=
    match sha1 data with
    | None => Err EINVAL
    | Some actual => if (length expected =? length actual)%nat && list_eqb Z.eqb expected actual then Ok tt else Err EINVAL
    end.

  (** src/extension.c:932-998 [validate_public_key_hash]; [spk]: the key of the
      certificate, if libcrypto finds it. *)
  Definition validate_public_key_hash (spk : option (list Z)) (hash : list Z) : res unit :=
    match spk with None => Err EINVAL | Some k => hash_validate_sha1 hash k end.

  (** src/extension.c:1000-1024 [handle_aki]; [parent]: the key of the
      certificate on top of the stack, if there is one. *)
  Definition handle_aki (parent : option (option (list Z))) (v : ext_value) (r : record) : res record :=
    match v with
    | V_akid keyid issuer serial =>
        match keyid with
        | None => Err EINVAL
        | Some k =>
            if issuer then Err EINVAL
            else if serial then Err EINVAL
            else match parent with
                 | None => Err EINVAL
                 | Some spk => bind (validate_public_key_hash spk k) (fun _ => Ok r)
                 end
        end
    | _ => UB
    end.

  (** ** src/object/certificate.c *)

  (** src/object/certificate.c:1248-1257 [is_rsync]. *)
  Definition is_rsync (text : list Z) : bool :=
    if (8 <=? length text)%nat then list_eqb Z.eqb (firstn 8 text) RSYNC_PREFIX else false.

  (** src/object/certificate.c:1296-1311 [handle_bc]. *)
  Definition handle_bc (v : ext_value) (r : record) : res record :=
    match v with
    | V_basic_constraints pathlen => if pathlen then Err EINVAL else Ok r
    | _ => UB
    end.

  (** src/object/certificate.c:1313-1317 [handle_ski_ca]. *)
  Definition handle_ski_ca (spk : option (list Z)) (v : ext_value) (r : record) : res record :=
    match v with
    | V_octets ski => bind (validate_public_key_hash spk ski) (fun _ => Ok r)
    | _ => UB
    end.

  (** src/object/certificate.c:1319-1340 [handle_ski_ee]. *)
  Definition handle_ski_ee (spk : option (list Z)) (sid : list Z) (v : ext_value) (r : record) : res record :=
    match v with
    | V_octets ski =>
        bind (validate_public_key_hash spk ski) (fun _ =>
        if negb (length ski =? length sid)%nat || negb (list_eqb Z.eqb ski sid) then Err EINVAL else Ok r)
    | _ => UB
    end.

  (** X509_get_ext_d2i(): the value, if the extension is there exactly once and
      can be decoded. *)
  Definition get_ext_d2i (es : list x509_extension) (n : Z) : option ext_value :=
    match filter (fun e => e_nid e =? n) es with
    | [e] => e_value e
    | _ => None
    end.

  (** src/object/certificate.c:1342-1368 [handle_aki_ta]; [es]: the extensions
      of the same certificate. *)
  Definition handle_aki_ta (es : list x509_extension) (v : ext_value) (r : record) : res record :=
    match v with
    | V_akid keyid _ _ =>
        match keyid with
        | None => Err EINVAL
        | Some k =>
            match get_ext_d2i es (nid SKI) with
            | None => Err ESRCH
            | Some (V_octets ski) => if list_eqb Z.eqb k ski then Ok r else Err EINVAL
            | Some _ => UB
            end
        end
    | _ => UB
    end.

  (** src/object/certificate.c:1370-1399 [handle_ku]. *)
  Definition handle_ku (byte1 : Z) (v : ext_value) (r : record) : res record :=
    match v with
    | V_bits ku =>
        if negb (length ku =? 2)%nat && negb (length ku =? 1)%nat then Err EINVAL
        else let data := firstn 2 (ku ++ [0; 0]) in
             if negb (nth 0 data 0 =? byte1) || negb (nth 1 data 0 =? 0) then Err EINVAL else Ok r
    | _ => UB
    end.

  (** src/object/certificate.c:1458-1480 (the loop of [handle_cdp]), with
      src/str_token.c:25-33 [ia5s2string]. *)
  Fixpoint cdp_names (l : list gname) (r : record) : res record :=
    match l with
    | [] => Err EINVAL
    | GN_uri text bits_left :: l' =>
        if is_rsync text then
          if bits_left then Err EINVAL
          else Ok {| r_crldp := Some text; r_caIssuers := r_caIssuers r; r_signedObject := r_signedObject r;
                     r_rpp := r_rpp r; r_mft := r_mft r; r_policy := r_policy r |}
        else cdp_names l' r
    | GN_other :: l' => cdp_names l' r
    end.
  (** src/object/certificate.c:1413-1487 [handle_cdp]. *)
  Definition handle_cdp (v : ext_value) (r : record) : res record :=
    match v with
    | V_crldp [dp] =>
        if dp_issuer dp then Err EINVAL
        else if dp_reasons dp then Err EINVAL
        else match dp_name dp with
             | Some (DP_fullname names) => cdp_names names r
             | _ => Err EINVAL
             end
    | V_crldp _ => Err EINVAL
    | _ => UB
    end.

  (** src/object/certificate.c:1492-1540 [uri_create_ad]; ENOTSUPPORTED is
      EOTHER 2. *)
  Definition uri_create_ad (a : access) (t : uri_type) : res rpki_uri :=
    match ad_location a with
    | GN_other => Err (EOTHER 2)
    | GN_uri text _ => uri_create J repository tal t None text
    end.

  (** src/object/certificate.c:1570-1601: the loop of [handle_ad]; [cb]: what
      the callback stores. *)
  Fixpoint ad_loop (n : Z) (t : uri_type) (l : list access) (cb : rpki_uri -> record -> record) (found : bool) (r : record)
      : res (bool * record) :=
    match l with
    | [] => Ok (found, r)
    | a :: l' =>
        if ad_method a =? n then
          match uri_create_ad a t with
          | Ok u => if found then Err EINVAL else ad_loop n t l' cb true (cb u r)
          | Err ENOTRSYNC | Err (EOTHER 1) | Err (EOTHER 2) => ad_loop n t l' cb found r
          | Err e => Err e
          | UB => UB
          end
        else ad_loop n t l' cb found r
    end.
  (** src/object/certificate.c:1559-1610 [handle_ad]. *)
  Definition handle_ad (n : Z) (t : uri_type) (required : bool) (l : list access) (cb : rpki_uri -> record -> record) (r : record)
      : res record :=
    bind (ad_loop n t l cb false r) (fun p => if required && negb (fst p) then Err ESRCH else Ok (snd p)).

  (** src/object/certificate.c:1612-1623 [handle_caIssuers]. *)
  Definition handle_caIssuers (u : rpki_uri) (r : record) : record :=
    {| r_crldp := r_crldp r; r_caIssuers := Some u; r_signedObject := r_signedObject r; r_rpp := r_rpp r; r_mft := r_mft r; r_policy := r_policy r |}.
  (** src/object/certificate.c:1287-1294 [handle_signedObject]. *)
  Definition handle_signedObject (u : rpki_uri) (r : record) : record :=
    {| r_crldp := r_crldp r; r_caIssuers := r_caIssuers r; r_signedObject := Some u; r_rpp := r_rpp r; r_mft := r_mft r; r_policy := r_policy r |}.
  (** src/object/certificate.c:1266-1284 [handle_caRepository],
      [handle_rpkiNotify]. *)
  Definition add_rpp (u : rpki_uri) (r : record) : record :=
    {| r_crldp := r_crldp r; r_caIssuers := r_caIssuers r; r_signedObject := r_signedObject r; r_rpp := r_rpp r ++ [u]; r_mft := r_mft r; r_policy := r_policy r |}.
  (** src/object/certificate.c:1259-1265 [handle_rpkiManifest]. *)
  Definition handle_rpkiManifest (u : rpki_uri) (r : record) : record :=
    {| r_crldp := r_crldp r; r_caIssuers := r_caIssuers r; r_signedObject := r_signedObject r; r_rpp := r_rpp r; r_mft := Some u; r_policy := r_policy r |}.

  (** src/object/certificate.c:1625-1630 [handle_aia]. *)
  Definition handle_aia (v : ext_value) (r : record) : res record :=
    match v with
    | V_access l => handle_ad nid_ca_issuers UT_RSYNC true l handle_caIssuers r
    | _ => UB
    end.
  (** src/object/certificate.c:1632-1654 [handle_sia_ca]. *)
  Definition handle_sia_ca (v : ext_value) (r : record) : res record :=
    match v with
    | V_access l =>
        bind (handle_ad nid_caRepository UT_RSYNC false l add_rpp r) (fun r =>
        bind (handle_ad nid_ad_notify UT_HTTPS false l add_rpp r) (fun r =>
        handle_ad nid_ad_mft UT_RSYNC true l handle_rpkiManifest r))
    | _ => UB
    end.
  (** src/object/certificate.c:1656-1661 [handle_sia_ee]. *)
  Definition handle_sia_ee (v : ext_value) (r : record) : res record :=
    match v with
    | V_access l => handle_ad nid_ad_so UT_RSYNC true l handle_signedObject r
    | _ => UB
    end.

  (** src/object/certificate.c:1663-1709 [handle_cp]; the callers in the program
      all give a place for the policy. *)
  Definition handle_cp (v : ext_value) (r : record) : res record :=
    match v with
    | V_policies [pi] =>
        let set p := {| r_crldp := r_crldp r; r_caIssuers := r_caIssuers r; r_signedObject := r_signedObject r;
                        r_rpp := r_rpp r; r_mft := r_mft r; r_policy := Some p |} in
        bind (if pi_id pi =? nid_certPolicyRpki then Ok (set RPKI_POLICY_RFC6484)
              else if pi_id pi =? nid_certPolicyRpkiV2 then Ok (set RPKI_POLICY_RFC8360)
              else Err EINVAL) (fun r =>
        match pi_qualifiers pi with
        | None => Ok r
        | Some [] => Ok r
        | Some [q] => if q =? nid_qt_cps then Ok r else Err EINVAL
        | Some _ => Err EINVAL
        end)
    | V_policies _ => Err EINVAL
    | _ => UB
    end.

  Definition entry (i : ext_id) (mandatory : bool) (cb : option (ext_value -> record -> res record)) : handler :=
    {| h_id := i; h_mandatory := mandatory; h_cb := cb; h_found := false |}.
  Definition resource_entries : list handler := [entry IR false None; entry AR false None; entry IR2 false None; entry AR2 false None].

  (** src/object/certificate.c:1717-1738 [certificate_validate_extensions_ta]. *)
  Definition extensions_ta (spk : option (list Z)) (es : list x509_extension) : res record :=
    handle_extensions
      ([entry BC true (Some handle_bc); entry SKI true (Some (handle_ski_ca spk)); entry AKI false (Some (handle_aki_ta es));
        entry KU true (Some (handle_ku 6)); entry SIA true (Some handle_sia_ca); entry CP true (Some handle_cp)] ++ resource_entries)
      es empty_record.

  (** src/object/certificate.c:1749-1783 [certificate_validate_extensions_ca],
      its call to handle_extensions(). *)
  Definition extensions_ca (spk : option (list Z)) (parent : option (option (list Z))) (es : list x509_extension) : res record :=
    handle_extensions
      ([entry BC true (Some handle_bc); entry SKI true (Some (handle_ski_ca spk)); entry AKI true (Some (handle_aki parent));
        entry KU true (Some (handle_ku 6)); entry CDP true (Some handle_cdp); entry AIA true (Some handle_aia);
        entry SIA true (Some handle_sia_ca); entry CP true (Some handle_cp)] ++ resource_entries)
      es empty_record.

  (** src/object/certificate.c:1785-1810 [certificate_validate_extensions_ee]. *)
  Definition extensions_ee (spk : option (list Z)) (parent : option (option (list Z))) (sid : list Z) (es : list x509_extension) : res record :=
    handle_extensions
      ([entry SKI true (Some (handle_ski_ee spk sid)); entry AKI true (Some (handle_aki parent));
        entry KU true (Some (handle_ku 128)); entry CDP true (Some handle_cdp); entry AIA true (Some handle_aia);
        entry SIA true (Some handle_sia_ee); entry CP true (Some handle_cp)] ++ resource_entries)
      es empty_record.

  (** src/object/crl.c:104-125 [handle_crlnum], src/object/crl.c:127-138
      [validate_extensions]. *)
  Definition extensions_crl (parent : option (option (list Z))) (es : list x509_extension) : res record :=
    handle_extensions [entry AKI true (Some (handle_aki parent)); entry CN true (Some (fun _ r => Ok r))] es empty_record.

  (** src/certificate_refs.c:21-39 [validate_cdp]: pr_crit() ends the process;
      [crl]: the URI of the CRL of the publication point. *)
  Definition validate_cdp (r : record) (crl : option (list Z)) : res unit :=
    match r_crldp r, crl with
    | Some c, Some g => if list_eqb Z.eqb (until_nul c) g then Ok tt else Err EINVAL
    | _, _ => UB
    end.
  (** src/certificate_refs.c:41-55 [validate_signedObject]. *)
  Definition validate_signedObject (r : record) (uri : list Z) : res unit :=
    match r_signedObject r with
    | None => UB
    | Some u => if list_eqb Z.eqb (u_global u) uri then Ok tt else Err EINVAL
    end.
  (** src/certificate_refs.c:64-78 [refs_validate_ca]. *)
  Definition refs_validate_ca (r : record) (crl : option (list Z)) : res unit :=
    bind (validate_cdp r crl) (fun _ => match r_signedObject r with Some _ => UB | None => Ok tt end).
  (** src/certificate_refs.c:88-99 [refs_validate_ee]. *)
  Definition refs_validate_ee (r : record) (crl : option (list Z)) (uri : list Z) : res unit :=
    bind (validate_cdp r crl) (fun _ => validate_signedObject r uri).

  (** src/object/certificate.c:1749-1783 [certificate_validate_extensions_ca];
      certificate_validate_aia() (l. 1882-1891) accepts everything. *)
  Definition certificate_validate_extensions_ca spk parent es (crl : option (list Z)) : res record :=
    bind (extensions_ca spk parent es) (fun r => bind (refs_validate_ca r crl) (fun _ => Ok r)).
End Extensions.
