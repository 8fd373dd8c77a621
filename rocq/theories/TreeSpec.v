(** C74: what authorises a VRP, from the trust anchor down (RFC 6480 2 and 3, 6487
    7, 6486 6, 6488 3, 6482 4).  Nothing here speaks of stacks, heaps or the order
    of the traversal. *)
From Coq Require Import String.
From Verif Require Import Base CString Types DbTable PduWireSpec Address AddressSpec PathBuilder Manifest ManifestSpec SArray SArraySpec Resources
  ResourcesSpec Roa RoaSpec BerSpec Objects CertBytes SignedData SignedDataSpec SignedDataProps SignedObjectSpec Extensions ExtensionsSpec
  CertProfile CertProfileSpec Tree.
From Verif Require PathProps CertBytesProps.
From Verif Require CertStack.
Notation length := List.length.

(** A certificate of a path, with what its extensions say (Extensions.v) and the
    resources it holds. *)
Record node := { n_uri : rpki_uri; n_cert : cert; n_record : record; n_ip4 : list (Z * Z); n_ip6 : list (Z * Z); n_as : list (Z * Z) }.

(** What the claims of certificate extensions amount to, for a certificate whose
    issuer holds [parent] ([None]: a trust anchor): nothing of a family that's not
    mentioned, what the issuer holds if it's inherited, and else what's granted
    (C21). *)
Definition ip_held (claims : aor -> Z * Z -> Prop) (afi : Z) (parent : option (list (Z * Z))) (p : policy) (exts : list extension)
    (held : list (Z * Z)) : Prop :=
  ((forall b, ~ ip_block afi exts b) -> held = []) /\
  forall b, ip_block afi exts b ->
    match f_choice b with
    | IPC_nothing => False
    | IPC_inherit => parent = Some held
    | IPC_aors l => granted claims p parent l held
    end.
Definition as_held (parent : option (list (Z * Z))) (p : policy) (exts : list extension) (held : list (Z * Z)) : Prop :=
  ((forall c, ~ as_block exts c) -> held = []) /\
  forall c, as_block exts c ->
    match c with
    | ASC_nothing => False
    | ASC_inherit => parent = Some held
    | ASC_iors l => Forall nonnegative l -> granted claimsA p parent l held
    end.

Section Spec.
  Context (W : world).
  (** The moments of the validation. *)
  Context (during : nat -> Prop).

  (** The file at [u], at some moment. *)
  Definition file (u : rpki_uri) (b : list Z) : Prop := exists n, during n /\ w_read W n (u_local u) = inr b.

  (** The issuer: the nearest certificate of the path. *)
  Definition issuer (chain : list node) : option x509 := option_map (fun a => ct (n_cert a)) (hd_error chain).

  (** libcrypto verified the certificate, with the path and the CRL.  (A stale CRL
      may be tolerated.) *)
  Definition verified (chain : list node) (crl : x509_crl) (c : cert) : Prop :=
    exists n, during n /\
    (w_verify W n (map n_cert chain) crl c = Verified \/
     (w_verify W n (map n_cert chain) crl c = CrlExpired /\ w_crl_stale W <> INAC_ERROR /\ w_verify_stale W n (map n_cert chain) crl c = true)).

  (** RFC 6487 4: C72 tells how close this is. *)
  Definition proper_name (l : list name_entry) : Prop :=
    (forall e, In e l -> (ne_nid e = w_commonName W \/ ne_nid e = w_serialNumber W) /\ ne_data e <> None) /\
    exists d, In {| ne_nid := w_commonName W; ne_data := Some d |} l.
  Record conforming (chain : list node) (is_ta : bool) (c : x509) : Prop := {
    co_version : x_version c = 2;
    co_serial : x_serial c <> None;
    co_sigalg : x_sigalg c = w_sha256WithRSA W;
    co_subject : proper_name (x_subject c);
    co_issuer : proper_name (x_issuer c);
    co_issued : is_ta = false -> exists p a b, issuer chain = Some p /\
      In {| ne_nid := w_commonName W; ne_data := Some a |} (x_subject p) /\ In {| ne_nid := w_commonName W; ne_data := Some b |} (x_issuer c) /\
      until_nul a = until_nul b;
    co_key : exists k, x_pubkey c = Some k /\ rsa_key (w_rsa W) (w_obj2nid W) k /\
      (** RFC 8630 2.3: the TAL's key, and a certificate it signs. *)
      (is_ta = true -> (exists tk, w_d2i_PUBKEY W (w_spki W) = Some (tk, length (w_spki W)) /\ same_key tk k) /\ x_self_verified c = Some true);
  }.
  (** RFC 6487 4.8: C71. *)
  Definition extensions_ok (p : profile) (chain : list node) (sid : list Z) (c : x509) (r : record) : Prop :=
    well_formed (w_nid W) (w_ca_issuers W) (w_caRepository W) (w_ad_notify W) (w_ad_mft W) (w_ad_so W) (w_certPolicyRpki W)
      (w_certPolicyRpkiV2 W) (w_qt_cps W) (w_sha1 W) (w_repository W) (w_tal W) p (key_of c) (option_map key_of (issuer chain)) sid
      (x_extensions c) r.
  (** The resources, by the extensions' bytes (C69 tells about [read_extension]),
      are those the certificate holds; and the whole path holds them. *)
  Record holding (chain : list node) (r : record) (c : cert) (l4 l6 la : list (Z * Z)) : Prop := {
    ho_resources : exists p, Extensions.r_policy r = Some p /\
      let exts := map (read_extension (w_nobuf W) (w_turns W)) (ct_resources c) in
      ip_held claims4 1 (option_map n_ip4 (hd_error chain)) (policy_of p) exts l4 /\
      ip_held claims6 2 (option_map n_ip6 (hd_error chain)) (policy_of p) exts l6 /\
      as_held (option_map n_as (hd_error chain)) (policy_of p) exts la /\
      ((exists v cr bl, In (ExtIP v cr bl) exts) \/ (exists v cr ids, In (ExtAS v cr ids) exts));
    ho_path : forall a, In a chain -> included l4 (n_ip4 a) /\ included l6 (n_ip6 a) /\ included la (n_as a);
  }.
  (** The CRL distribution point is the publication point's CRL. *)
  Definition points_at (r : record) (crl : rpki_uri) : Prop := exists text, r_crldp r = Some text /\ until_nul text = u_global crl.

  (** RFC 6488 3: [bytes] is a signed object of type [oid], that an end entity
      certificate of the path's nearest one signed. *)
  Record signed_object_ok (chain : list node) (crl : x509_crl) (oid bytes : list Z) (sd : signed_data) (ee : node) : Prop := {
    so_framing : exists type content si ski attrs c m,
      decode_content_info (0 :: w_slack W) (w_nobuf W) (w_turns W) bytes = Some (type, content ++ 0 :: w_slack W, length content) /\
      SignedDataSpec.names type [1; 2; 840; 113549; 1; 7; 2] /\
      contains (decode_signed_data (w_nobuf W) (w_turns W)) (decode_signed_data_pkcs7 (w_nobuf W) (w_turns W)) (decode_octets (w_nobuf W) (w_turns W)) content sd /\
      sd_signers sd = [si] /\ integer_value (si_version si) = 3 /\ is_sha256 (w_hashalg W) (si_digest si) /\ is_rsa (si_sigalg si) /\ none (si_unsigned si) /\
      si_attrs si = Some attrs /\
      attributes_ok (decode_oid (w_nobuf W) (w_turns W)) (decode_octets (w_nobuf W) (w_turns W)) (w_sha256 W) sd attrs /\
      sd_certs sd = Some [c] /\ w_d2i_X509 W c = Some (n_cert ee, length c) /\
      (** The signature is of the attributes (or, C70, of nothing at all, if these
          are of indefinite length). *)
      w_evp_verify W (n_cert ee) m (si_signature si) = true /\
      (encodes_attributes m attrs \/ (m = [49] /\ exists rest, signed_attributes_at content [128] None rest)) /\
      si_sid si = SidSKI ski /\ extensions_ok EE chain ski (ct (n_cert ee)) (n_record ee);
    so_version : integer_value (sd_version sd) = 3;
    so_digests : exists a, sd_digests sd = [a] /\ is_sha256 (w_hashalg W) a;
    so_crls : none (sd_crls sd);
    so_type : SignedDataSpec.names (sd_ectype sd) oid;
    so_verified : verified chain crl (n_cert ee);
    so_conforming : conforming chain false (ct (n_cert ee));
    so_resources : holding chain (n_record ee) (n_cert ee) (n_ip4 ee) (n_ip6 ee) (n_as ee);
  }.
  (** The references of an end entity certificate. *)
  Definition references (r : record) (crl u : rpki_uri) : Prop :=
    points_at r crl /\ exists so, r_signedObject r = Some so /\ u_global so = u_global u.

  (** RFC 6486: the manifest of the path's nearest certificate lists [files], among
      which the CRL [crl] (at [cu]). *)
  Record publishes (chain : list node) (files : Manifest.rpp) (cu : rpki_uri) (crl : x509_crl) : Prop := {
    pu_manifest : exists a rest mft notif u b sd ee body m hashed us now,
      chain = a :: rest /\ r_mft (n_record a) = Some mft /\
      (** The publication point was downloaded by rsync or RRDP; in the latter
          case, the manifest's place is below that of the notification. *)
      match notif with
      | None => u = mft
      | Some nu => In nu (r_rpp (n_record a)) /\ u_type nu = UT_HTTPS /\
                   uri_create (w_J W) (w_repository W) (w_tal W) UT_CAGED (Some (u_global nu)) (u_global mft) = Ok u
      end /\
      file u b /\ signed_object_ok chain crl [1; 2; 840; 113549; 1; 9; 16; 1; 26] b sd ee /\ references (n_record ee) cu u /\
      sd_econtent sd = Some body /\ decode_manifest (w_nobuf W) (w_turns W) body = Some m /\
      (m_version m = None \/ m_version m = Some (Some 0)) /\ (length (m_number m) <= 20)%nat /\ m_alg m = 0 /\
      during now /\ validate_dates (m_this m) (m_next m) (w_now W now) (w_mft_stale W) = Ok 0 /\
      (** Its entries (C41), when they were hashed. *)
      during hashed /\
      Forall2 (entry_ok (w_J W) (w_repository W) (w_tal W) (option_map u_global notif) (hash_file W hashed) (w_not_found W) (w_not_match W) u) (m_files m) us /\
      pp_crl files = Some cu /\ sublist (fun u => ends_with (u_global u) (cstr ".crl")) (present us) [cu] /\
      of_kind (cstr ".cer") (present us) (pp_certs files) /\ of_kind (cstr ".roa") (present us) (pp_roas files) /\
      of_kind (cstr ".gbr") (present us) (pp_gbrs files);
    pu_crl : exists b, file cu b /\ w_load_CRL W b = Some crl;
    (** RFC 6487 5: C73. *)
    pu_crl_ok : c_version crl = 1 /\ c_sigalg crl = w_sha256WithRSA W /\
      (forall l, c_revoked crl = Some l -> Forall (fun r => rv_serial r = true /\ rv_date r = true /\ rv_extensions r = false) l) /\
      well_formed (w_nid W) 0 0 0 0 0 0 0 0 (w_sha1 W) [] None Crl None (option_map key_of (issuer chain)) [] (c_extensions crl) empty_record;
  }.

  (** The paths from the trust anchor at [root], nearest certificate first. *)
  Inductive valid (root : rpki_uri) : list node -> Prop :=
  | valid_ta b a :
      ends_with (u_global root) (cstr ".cer") -> n_uri a = root ->
      file root b -> w_load_X509 W b = Some (n_cert a) ->
      conforming [] true (ct (n_cert a)) -> extensions_ok TrustAnchor [] [] (ct (n_cert a)) (n_record a) ->
      holding [] (n_record a) (n_cert a) (n_ip4 a) (n_ip6 a) (n_as a) ->
      n_ip4 a <> [] \/ n_ip6 a <> [] \/ n_as a <> [] ->
      (0 < w_max_depth W)%nat ->
      valid root [a]
  | valid_ca chain files cu crl b a :
      valid root chain -> publishes chain files cu crl ->
      In (n_uri a) (pp_certs files) ->
      file (n_uri a) b -> w_load_X509 W b = Some (n_cert a) ->
      verified chain crl (n_cert a) -> ct_purpose (n_cert a) = true -> ct_ca (n_cert a) = true ->
      conforming chain false (ct (n_cert a)) -> extensions_ok CA chain [] (ct (n_cert a)) (n_record a) -> points_at (n_record a) cu ->
      holding chain (n_record a) (n_cert a) (n_ip4 a) (n_ip6 a) (n_as a) ->
      (length chain < w_max_depth W)%nat ->
      valid root (a :: chain).

  (** [u] is a ROA of the publication point of the path [chain], from which [v] is
      to be concluded: it announces it, and holds it. *)
  Definition roa_of_tree (root : rpki_uri) (chain : list node) (u : rpki_uri) (cu : rpki_uri) (ee : node) (v : vrp) : Prop :=
    exists files crl b sd body r,
      valid root chain /\ publishes chain files cu crl /\ In u (pp_roas files) /\
      file u b /\ signed_object_ok chain crl [1; 2; 840; 113549; 1; 9; 16; 1; 24] b sd ee /\
      sd_econtent sd = Some body /\ decode_roa (w_nobuf W) (w_turns W) body = Some r /\
      (** C68: what it announces, and INTEGERs taken as unsigned. *)
      roa_vrp (unsigned r) v /\ canonical v /\ v_len v <= v_max v <= width (v_fam v) /\ 0 <= v_asn v < 2 ^ 32 /\
      allowed (n_ip4 ee) (n_ip6 ee) v /\
      forall a, In a chain -> allowed (n_ip4 a) (n_ip6 a) v.
  Definition authorised (root : rpki_uri) (v : vrp) : Prop := exists chain u cu ee, roa_of_tree root chain u cu ee v.

  (** The manifest of the path's nearest certificate, signed by that one, lists [u]
      with the hash [h]. *)
  Definition listed (chain : list node) (u : rpki_uri) (h : list Z) : Prop :=
    exists a rest mft notif mu b crl sd ee body m f,
      chain = a :: rest /\ r_mft (n_record a) = Some mft /\
      match notif with
      | None => mu = mft
      | Some nu => In nu (r_rpp (n_record a)) /\ u_type nu = UT_HTTPS /\
                   uri_create (w_J W) (w_repository W) (w_tal W) UT_CAGED (Some (u_global nu)) (u_global mft) = Ok mu
      end /\
      file mu b /\ signed_object_ok chain crl [1; 2; 840; 113549; 1; 9; 16; 1; 26] b sd ee /\
      sd_econtent sd = Some body /\ decode_manifest (w_nobuf W) (w_turns W) body = Some m /\
      In f (m_files m) /\ f_hash f = h /\ f_unused f = 0 /\
      uri_create_mft (w_J W) (w_repository W) (w_tal W) (option_map u_global notif) mu (f_file f) = Ok u.
End Spec.

(** What is assumed of the outside: libcrypto's identifiers are distinct and its
    values have the types of the extensions; files are bytes, for which there is
    memory; errno is not 0 when there is an error. *)
Record sane (W : world) : Prop := {
  sa_inj : forall i j, w_nid W i = w_nid W j -> i = j;
  sa_names : w_commonName W <> w_serialNumber W;
  sa_cert : forall b c, w_load_X509 W b = Some c -> Forall (typed (w_nid W)) (x_extensions (ct c)) /\ Forall CertBytesProps.raw_ok (ct_resources c);
  sa_ee : forall b c n, w_d2i_X509 W b = Some (c, n) -> Forall (typed (w_nid W)) (x_extensions (ct c)) /\ Forall CertBytesProps.raw_ok (ct_resources c);
  sa_crl : forall b c, w_load_CRL W b = Some c -> Forall (typed (w_nid W)) (c_extensions c);
  sa_file : forall n p b, w_read W n p = inr b -> bytes b /\ (length b < w_frames W)%nat /\ Z.of_nat (length b) <= 2147483647;
  sa_errno : forall n p, w_read W n p <> inl 0;
  sa_turns : (2 <= w_turns W)%nat;
  sa_slack : bytes (w_slack W);
  sa_conf : PathProps.conf_ok (w_repository W) (w_tal W) None;
}.
