(** The validation of a trust anchor's tree, from the bytes of the files to the
    table: src/object/tal.c [handle_tal_uri] with what it calls, made of the
    functions of the other modules.

    The outside is [world]: the file system, the clock, the download of
    publication points, libcrypto, and the configuration.  Whatever can change
    with time takes a moment; every use has another one (except that all the
    files of a manifest are hashed at the same moment). *)
From Coq Require Import String.
From Verif Require Import Base CString Types DbTable PathBuilder Manifest Oid SArray Resources Roa Objects CertBytes SignedData
  Extensions CertProfile.
From Verif Require CertStack.
Notation length := List.length.

(** X509: the fields of CertProfile.v, the resource extensions (CertBytes.v),
    whether X509_check_purpose(-1) is positive, whether X509_check_ca() is 1, and
    has_bgpsec_router_eku() (src/object/certificate.c:1820-1841). *)
Record cert := { ct : x509; ct_resources : list raw_extension; ct_purpose : bool; ct_ca : bool; ct_router : bool }.
(** X509_verify_cert(): positive; X509_V_ERR_CRL_HAS_EXPIRED; or else. *)
Inductive verdict := Verified | CrlExpired | Unverified.

Record world := {
  (** OpenSSL: identifiers. *)
  w_nid : ext_id -> Z;
  w_ca_issuers : Z; w_caRepository : Z; w_ad_notify : Z; w_ad_mft : Z; w_ad_so : Z;
  w_certPolicyRpki : Z; w_certPolicyRpkiV2 : Z; w_qt_cps : Z;
  w_commonName : Z; w_serialNumber : Z; w_sha256WithRSA : Z; w_rsa : Z; w_ec : Z; w_p256 : Z;
  w_obj2nid : list Z -> Z;
  (** OpenSSL: digests, decoding, signatures. *)
  w_sha1 : list Z -> option (list Z);
  w_sha256 : list Z -> option (list Z);
  w_d2i_X509 : list Z -> option (cert * nat);
  w_load_X509 : list Z -> option cert;
  w_load_CRL : list Z -> option x509_crl;
  w_d2i_PUBKEY : list Z -> option (public_key * nat);
  w_evp_verify : cert -> list Z -> list Z -> bool;
  (** X509_verify_cert() with these trusted certificates and this CRL; the same
      with the CRL's nextUpdate moved to the future. *)
  w_verify : nat -> list cert -> x509_crl -> cert -> verdict;
  w_verify_stale : nat -> list cert -> x509_crl -> cert -> bool;
  (** The file at a path: its content, or errno. *)
  w_read : nat -> list Z -> Z + list Z;
  w_now : nat -> Z + tm;
  w_rnd : nat -> nat -> Z;
  (** cache_download_alt(): which of the URIs, if any. *)
  w_download : nat -> list rpki_uri -> option nat;
  (** The configuration, the TAL, and the memory. *)
  w_J : Z; w_repository : list Z; w_tal : option (list Z); w_spki : list Z;
  w_max_depth : nat;
  w_hashalg : action; w_not_found : action; w_not_match : action; w_mft_stale : action; w_crl_stale : action;
  w_nobuf : bool; w_turns : nat; w_slack : list Z; w_frames : nat;
}.

(** src/rpp.c:10-44 [struct rpp]. *)
Record pp := { pp_files : Manifest.rpp; pp_slot : crl_slot }.
(** src/cert_stack.c:15-26 [struct defer_node]. *)
Inductive defer := Separator | Deferred (p : pp) (u : rpki_uri).
(** src/cert_stack.c:41-61 [struct metadata_node], with the certificate. *)
Record meta := { me_uri : rpki_uri; me_cert : cert; me_resources : resources }.
(** src/cert_stack.c:63-90 [struct cert_stack] (the two stacks of certificates
    and of their metadata always go together: C39), the resources, the table and
    the moment. *)
Record state := { s_defers : list defer; s_stack : list meta; s_heap : heap; s_db : db_table; s_clock : nat }.

(** enum rpki_policy, in the two modules. *)
Definition policy_of (p : rpki_policy) : policy :=
  match p with RPKI_POLICY_RFC6484 => RFC6484 | RPKI_POLICY_RFC8360 => RFC8360 end.

Section Tree.
  Context (W : world).

  (** The certificate on top of the stack, the trusted stack, the resources on
      top. *)
  Definition top (s : list meta) : option x509 := option_map (fun m => ct (me_cert m)) (hd_error s).
  Definition trusted (s : list meta) : list cert := map me_cert s.
  Definition top_resources (s : list meta) : option resources := option_map me_resources (hd_error s).

  (** src/object/certificate.c:825-853 [certificate_load]. *)
  Definition certificate_load (n : nat) (u : rpki_uri) : res cert :=
    match w_read W n (u_local u) with
    | inl _ => Err EINVAL
    | inr b => match w_load_X509 W b with None => Err EINVAL | Some c => Ok c end
    end.
  (** src/object/crl.c:12-41 [__crl_load]. *)
  Definition load_crl (n : nat) (path : list Z) : option x509_crl :=
    match w_read W n path with inl _ => None | inr b => w_load_CRL W b end.

  (** src/object/certificate.c:1009-1088 [certificate_validate_chain], with
      src/object/certificate.c:920-982 [verify_cert_crl_stale]. *)
  Definition certificate_validate_chain (n : nat) (s : list meta) (crl : option x509_crl) (c : cert) : res unit :=
    match crl with
    | None => Ok tt
    | Some crl =>
        match w_verify W n (trusted s) crl c with
        | Verified => Ok tt
        | Unverified => Err EINVAL
        | CrlExpired =>
            if negb (incidence (w_crl_stale W) =? 0) then Err EINVAL
            else if w_verify_stale W n (trusted s) crl c then Ok tt else Err EINVAL
        end
    end.

  (** src/object/certificate.c:1847-1871 [get_certificate_type]. *)
  Definition get_certificate_type (c : cert) (is_ta : bool) : res CertStack.cert_type :=
    if is_ta then Ok CertStack.CERTYPE_TA
    else if negb (ct_purpose c) then Err EINVAL
    else if ct_ca c then Ok CertStack.CERTYPE_CA
    else if ct_router c then Ok CertStack.CERTYPE_BGPSEC
    else Err EINVAL.

  (** CertProfile.v and Extensions.v, in this world. *)
  Definition validate_rfc6487 (s : list meta) (c : cert) (t : CertStack.cert_type) : res unit :=
    certificate_validate_rfc6487 (w_commonName W) (w_serialNumber W) (w_sha256WithRSA W) (w_rsa W) (w_ec W) (w_p256 W) (w_obj2nid W)
      (w_d2i_PUBKEY W) (w_spki W) (top s) (ct c) t.
  Definition validate_ta (c : cert) : res record :=
    extensions_ta (w_nid W) (w_caRepository W) (w_ad_notify W) (w_ad_mft W) (w_certPolicyRpki W) (w_certPolicyRpkiV2 W) (w_qt_cps W)
      (w_sha1 W) (w_J W) (w_repository W) (w_tal W) (key_of (ct c)) (x_extensions (ct c)).
  Definition validate_ca (s : list meta) (crl : option (list Z)) (c : cert) : res record :=
    certificate_validate_extensions_ca (w_nid W) (w_ca_issuers W) (w_caRepository W) (w_ad_notify W) (w_ad_mft W)
      (w_certPolicyRpki W) (w_certPolicyRpkiV2 W) (w_qt_cps W) (w_sha1 W) (w_J W) (w_repository W) (w_tal W)
      (key_of (ct c)) (option_map key_of (top s)) (x_extensions (ct c)) crl.
  Definition validate_ee (s : list meta) (c : cert) (sid : list Z) : res record :=
    extensions_ee (w_nid W) (w_ca_issuers W) (w_ad_so W) (w_certPolicyRpki W) (w_certPolicyRpkiV2 W) (w_qt_cps W)
      (w_sha1 W) (w_J W) (w_repository W) (w_tal W) (key_of (ct c)) (option_map key_of (top s)) sid (x_extensions (ct c)).
  (** An uninitialised policy is [UB]. *)
  Definition with_policy (r : record) : res (record * rpki_policy) :=
    match Extensions.r_policy r with None => UB | Some p => Ok (r, p) end.
  Definition read_resources (c : cert) : list extension := map (read_extension (w_nobuf W) (w_turns W)) (ct_resources c).
  Definition crl_of (n : nat) (s : list meta) (slot : option crl_slot) : res (option crl_slot * res (option x509_crl)) :=
    rpp_crl (w_commonName W) (w_serialNumber W) (w_sha256WithRSA W) (w_nid W) (w_sha1 W) (load_crl n) (top s) slot.
  (** The URI of a publication point's CRL. *)
  Definition crl_uri (f : Manifest.rpp) : option (list Z) := option_map u_global (pp_crl f).

  (** src/object/signed_object.c:6-22 [signed_object_decode]: the memory holding
      the content of the ContentInfo, its size, and the SignedData. *)
  Definition signed_object_decode (n : nat) (u : rpki_uri) : res (list Z * nat * signed_data) :=
    match w_read W n (u_local u) with
    | inl _ => Err EINVAL
    | inr file =>
        bind (content_info_decode (decode_content_info (0 :: w_slack W) (w_nobuf W) (w_turns W)) file) (fun c =>
        bind (signed_data_decode (decode_signed_data (w_nobuf W) (w_turns W)) (decode_signed_data_pkcs7 (w_nobuf W) (w_turns W))
                (decode_octets (w_nobuf W) (w_turns W)) (firstn (snd c) (fst c))) (fun sd =>
        Ok (fst c, snd c, sd)))
    end.

  (** src/object/signed_object.c:69-89 [signed_object_validate], with
      src/asn1/signed_data.c:18-24 [eecert_init]: the references and the
      resources.  (What a failed examination of the resources leaves in the heap
      is dropped.) *)
  Definition validate_object (n : nat) (s : list meta) (h : heap) (crl : option x509_crl) (oid : list Z) (force_inherit : bool)
      (o : list Z * nat * signed_data) : res (record * (heap * resources)) :=
    signed_object_validate (decode_oid (w_nobuf W) (w_turns W)) (decode_octets (w_nobuf W) (w_turns W)) (w_sha256 W) (w_hashalg W)
      (w_d2i_X509 W) (certificate_validate_chain n s crl) (fun c => validate_rfc6487 s c CertStack.CERTYPE_EE)
      (fun c sid => bind (validate_ee s c sid) with_policy) (fun _ _ => Ok tt) (w_evp_verify W)
      (fun c p => bind (ee_resources h (top_resources s) (policy_of p) force_inherit (read_resources c)) (fun '(h, r, error) =>
                  if error =? 0 then Ok (h, r) else Err EINVAL))
      oid (w_frames W) (fst (fst o)) (snd (fst o)) (snd o).

  (** src/crypto/hash.c:38-93 [hash_local_file]. *)
  Definition hash_file (n : nat) (path : list Z) : Z + list Z :=
    match w_read W n path with
    | inl e => inl e
    | inr b => match w_sha256 W b with None => inl (-22) | Some h => inr h end
    end.

  (** src/object/manifest.c:11-23 [cage]. *)
  Definition cage (u : rpki_uri) (notif : option rpki_uri) : res rpki_uri :=
    match notif with
    | None => Ok u
    | Some nu => uri_create (w_J W) (w_repository W) (w_tal W) UT_CAGED (Some (u_global nu)) (u_global u)
    end.

  (** src/object/manifest.c:276-341 [handle_manifest]. *)
  Definition handle_manifest (n : nat) (s : list meta) (h : heap) (mft : rpki_uri) (notif : option rpki_uri) : res (heap * pp) :=
    bind (cage mft notif) (fun uri =>
    bind (signed_object_decode n uri) (fun o =>
    match sd_econtent (snd o) with
    | None => Err EINVAL
    | Some body =>
        match decode_manifest (w_nobuf W) (w_turns W) body with
        | None => Err EINVAL
        | Some m =>
            bind (build_rpp (w_J W) (w_repository W) (w_tal W) (option_map u_global notif) (hash_file (n + 1)) (w_not_found W)
                    (w_not_match W) (w_rnd W (n + 1)) uri (m_files m)) (fun files =>
            bind (crl_of (n + 2) s (Some {| cr_uri := option_map u_local (pp_crl files); cr_stack := None; cr_error := None |})) (fun '(slot, crl) =>
            bind crl (fun crl =>
            bind (validate_object (n + 3) s h crl OID_MANIFEST false o) (fun '(refs, (h, _)) =>
            bind (validate_manifest (w_now W (n + 4)) (w_mft_stale W) m) (fun e =>
            if negb (e =? 0) then Err EINVAL
            else
            bind (refs_validate_ee refs (crl_uri files) (u_global uri)) (fun _ =>
            match slot with
            | None => UB
            | Some slot => Ok (h, {| pp_files := files; pp_slot := slot |})
            end))))))
        end
    end)).

  (** src/object/roa.c:247-295 [roa_traverse]: the heap, the table and whether
      there was no error.  The VRPs read before an error stay.  (The CRL was
      loaded by handle_manifest, so that the slot doesn't change: C73.) *)
  Definition roa_traverse (n : nat) (s : list meta) (p : pp) (u : rpki_uri) (h : heap) (db : db_table) : res (heap * db_table * bool) :=
    let before :=
      bind (signed_object_decode n u) (fun o =>
      match sd_econtent (snd o) with
      | None => Err EINVAL
      | Some body =>
          match decode_roa (w_nobuf W) (w_turns W) body with
          | None => Err EINVAL
          | Some roa =>
              bind (crl_of (n + 1) s (Some (pp_slot p))) (fun '(_, crl) =>
              bind crl (fun crl =>
              bind (validate_object (n + 1) s h crl OID_ROA false o) (fun ee => Ok (roa, ee))))
          end
      end) in
    match before with
    | UB => UB
    | Err _ => Ok (h, db, false)
    | Ok (roa, (refs, (h, r))) =>
        bind (handle_roa h r db roa) (fun '(db, error) =>
        if negb (error =? 0) then Ok (h, db, false)
        else match refs_validate_ee refs (crl_uri (pp_files p)) (u_global u) with
             | UB => UB
             | Err _ => Ok (h, db, false)
             | Ok _ => Ok (h, db, true)
             end)
    end.

  (** src/rpp.c:247-248: the ROAs of a publication point; errors are ignored. *)
  Fixpoint roa_loop (n : nat) (s : list meta) (p : pp) (l : list rpki_uri) (h : heap) (db : db_table) : res (heap * db_table) :=
    match l with
    | [] => Ok (h, db)
    | u :: l => bind (roa_traverse n s p u h db) (fun '(h, db, _) => roa_loop (n + 2) s p l h db)
    end.

  (** src/rpp.c:227-256 [rpp_traverse], with src/rpp.c:196-222 [__cert_traverse].
      The ghostbusters, which have no effect on the table, are not modelled. *)
  Definition rpp_traverse (n : nat) (s : state) (p : pp) : res state :=
    let defers := fold_left (fun d u => Deferred p u :: d) (rev (pp_certs (pp_files p))) (s_defers s) in
    bind (roa_loop n (s_stack s) p (pp_roas (pp_files p)) (s_heap s) (s_db s)) (fun '(h, db) =>
    Ok {| s_defers := defers; s_stack := s_stack s; s_heap := h; s_db := db;
          s_clock := n + 2 * length (pp_roas (pp_files p)) |}).

  (** An error ends the function; a crash is one. *)
  Definition attempt {A} (r : res A) (s : state) (k : A -> res (state * bool)) : res (state * bool) :=
    match r with Ok a => k a | Err _ => Ok (s, false) | UB => UB end.

  (** src/object/certificate.c:1892-1907 [download_rpp]. *)
  Definition download_rpp (n : nat) (l : list rpki_uri) : option rpki_uri :=
    match l with
    | [] => None
    | _ => match w_download W n l with None => None | Some i => nth_error l i end
    end.

  (** src/object/certificate.c:1910-2018 [certificate_traverse]: whether the error
      is 0.  sk_X509_push() works. *)
  Definition certificate_traverse (parent : option pp) (u : rpki_uri) (s : state) : res (state * bool) :=
    let n := s_clock s in
    let s := {| s_defers := s_defers s; s_stack := s_stack s; s_heap := s_heap s; s_db := s_db s; s_clock := n + 8 |} in
    if (w_max_depth W <=? length (s_stack s))%nat then Ok (s, false)
    else
      bind (crl_of n (s_stack s) (option_map pp_slot parent)) (fun '(_, crl) =>
      attempt crl s (fun crl =>
      attempt (certificate_load n u) s (fun c =>
      attempt (certificate_validate_chain (n + 1) (s_stack s) crl c) s (fun _ =>
      attempt (get_certificate_type c (match parent with None => true | Some _ => false end)) s (fun t =>
      match t with
      | CertStack.CERTYPE_BGPSEC | CertStack.CERTYPE_EE => Ok (s, true)
      | _ =>
          attempt (validate_rfc6487 (s_stack s) c t) s (fun _ =>
          attempt (match parent with
                   | None => validate_ta c
                   | Some p => validate_ca (s_stack s) (crl_uri (pp_files p)) c
                   end) s (fun r =>
          match download_rpp (n + 2) (r_rpp r) with
          | None => Ok (s, false)
          | Some downloaded =>
              bind (with_policy r) (fun '(_, policy) =>
              (** x509stack_push(): the resources, then the stack. *)
              bind (init_resources (s_heap s) (top_resources (s_stack s)) (policy_of policy)
                      (match parent with None => Resources.CERTYPE_TA | Some _ => Resources.CERTYPE_CA end) (read_resources c)) (fun '(h, rs, error) =>
              if negb (error =? 0)
              then Ok ({| s_defers := s_defers s; s_stack := s_stack s; s_heap := h; s_db := s_db s; s_clock := s_clock s |}, false)
              else
              let s := {| s_defers := Separator :: s_defers s; s_stack := {| me_uri := u; me_cert := c; me_resources := rs |} :: s_stack s;
                          s_heap := h; s_db := s_db s; s_clock := s_clock s |} in
              match r_mft r with
              | None => UB
              | Some mft =>
                  match handle_manifest (n + 3) (s_stack s) (s_heap s) mft
                          (match u_type downloaded with UT_HTTPS => Some downloaded | _ => None end) with
                  | UB => UB
                  | Err _ =>
                      (** x509stack_cancel(). *)
                      Ok ({| s_defers := tl (s_defers s); s_stack := tl (s_stack s); s_heap := s_heap s; s_db := s_db s; s_clock := s_clock s |}, false)
                  | Ok (h, p) =>
                      bind (rpp_traverse (n + 8) {| s_defers := s_defers s; s_stack := s_stack s; s_heap := h; s_db := s_db s; s_clock := s_clock s |} p)
                        (fun s => Ok (s, true))
                  end
              end))
          end))
      end))))).

  (** src/cert_stack.c:210-234 [deferstack_pop]. *)
  Fixpoint pop_loop (d : list defer) (stack : list meta) : res (list meta * option (pp * rpki_uri * list defer)) :=
    match d with
    | [] => Ok (stack, None)
    | Separator :: d => match stack with [] => UB | _ :: stack => pop_loop d stack end
    | Deferred p u :: d => Ok (stack, Some (p, u, d))
    end.

  (** src/object/tal.c:390-412: the loop of [handle_tal_uri].  [None]: not over
      after [fuel] rounds. *)
  Fixpoint tal_loop (fuel : nat) (s : state) : option (res db_table) :=
    match fuel with
    | O => None
    | S fuel =>
        match pop_loop (s_defers s) (s_stack s) with
        | UB => Some UB
        | Err e => Some (Err e)
        | Ok (_, None) => Some (Ok (s_db s))
        | Ok (stack, Some (p, u, d)) =>
            match certificate_traverse (Some p) u {| s_defers := d; s_stack := stack; s_heap := s_heap s; s_db := s_db s; s_clock := s_clock s |} with
            | UB => Some UB
            | Err e => Some (Err e)
            | Ok (s, _) => tal_loop fuel s
            end
        end
    end.

  (** src/cert_stack.c:93-111 [certstack_create]. *)
  Definition create (n : nat) (db : db_table) : state :=
    {| s_defers := []; s_stack := []; s_heap := {| h4 := []; h6 := []; ha := [] |}; s_db := db; s_clock := n |}.

  (** src/object/tal.c:339-414 [handle_tal_uri]: the table, and whether the error
      is 0. *)
  Definition handle_tal_uri (fuel n : nat) (u : rpki_uri) (db : db_table) : option (res (db_table * bool)) :=
    if negb (str_ends_with (u_global u) (cstr ".cer")) then Some (Ok (db, false))
    else match certificate_traverse None u (create n db) with
         | UB => Some UB
         | Err e => Some (Err e)
         | Ok (s, false) => Some (Ok (s_db s, false))
         | Ok (s, true) =>
             match tal_loop fuel s with
             | None => None
             | Some UB => Some UB
             | Some (Err e) => Some (Err e)
             | Some (Ok db) => Some (Ok (db, true))
             end
         end.
End Tree.
