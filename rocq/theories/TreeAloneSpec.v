(** C77: the validation of one path of certificates, without anything else. *)
From Coq Require Import String.
From Verif Require Import Base CString Types DbTable PathBuilder Manifest ManifestSpec Resources CertProfile Tree.

(** The files don't change meanwhile, nor does the time (as far as it matters), nor
    what can be downloaded.  (The random numbers do.) *)
Record still (W : world) : Prop := {
  st_read : forall i j, w_read W i = w_read W j;
  st_now : forall i j, w_now W i = w_now W j;
  st_verify : forall i j, w_verify W i = w_verify W j;
  st_verify_stale : forall i j, w_verify_stale W i = w_verify_stale W j;
  st_download : forall i j, w_download W i = w_download W j;
}.

(** The same world, with other random numbers. *)
Definition with_rnd (W : world) (rnd : nat -> nat -> Z) : world := {|
  w_nid := w_nid W; w_ca_issuers := w_ca_issuers W; w_caRepository := w_caRepository W; w_ad_notify := w_ad_notify W; w_ad_mft := w_ad_mft W; w_ad_so := w_ad_so W;
  w_certPolicyRpki := w_certPolicyRpki W; w_certPolicyRpkiV2 := w_certPolicyRpkiV2 W; w_qt_cps := w_qt_cps W;
  w_commonName := w_commonName W; w_serialNumber := w_serialNumber W; w_sha256WithRSA := w_sha256WithRSA W; w_rsa := w_rsa W; w_ec := w_ec W; w_p256 := w_p256 W;
  w_obj2nid := w_obj2nid W; w_sha1 := w_sha1 W; w_sha256 := w_sha256 W; w_d2i_X509 := w_d2i_X509 W; w_load_X509 := w_load_X509 W; w_load_CRL := w_load_CRL W;
  w_d2i_PUBKEY := w_d2i_PUBKEY W; w_evp_verify := w_evp_verify W; w_verify := w_verify W; w_verify_stale := w_verify_stale W; w_read := w_read W; w_now := w_now W;
  w_rnd := rnd;
  w_download := w_download W; w_J := w_J W; w_repository := w_repository W; w_tal := w_tal W; w_spki := w_spki W; w_max_depth := w_max_depth W;
  w_hashalg := w_hashalg W; w_not_found := w_not_found W; w_not_match := w_not_match W; w_mft_stale := w_mft_stale W; w_crl_stale := w_crl_stale W;
  w_nobuf := w_nobuf W; w_turns := w_turns W; w_slack := w_slack W; w_frames := w_frames W |}.

(** What there is after the certificates of a path from [root] were validated one
    after the other, and nothing else was: the first one is that of the trust
    anchor; each of the following ones is published by the one before.  The table
    only has the VRPs of the last one. *)
Inductive alone (W : world) (root : rpki_uri) : state -> Prop :=
| alone_root s :
    ends_with (u_global root) (cstr ".cer") ->
    certificate_traverse W None root {| s_defers := []; s_stack := []; s_heap := {| h4 := []; h6 := []; ha := [] |}; s_db := db_table_create; s_clock := 0 |} = Ok (s, true) ->
    alone W root s
| alone_next a p u s :
    alone W root a -> In (Deferred p u) (s_defers a) ->
    certificate_traverse W (Some p) u {| s_defers := []; s_stack := s_stack a; s_heap := s_heap a; s_db := db_table_create; s_clock := s_clock a |} = Ok (s, true) ->
    alone W root s.
