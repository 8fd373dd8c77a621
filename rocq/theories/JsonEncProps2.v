(** C99: everything that print mode shows of a signed object, part by part. *)
From Coq Require Import String Lia.
From Verif Require Import Base BaseLemmas PduWireSpec CString Slurm Oid Ntop NtopSpec NtopProofs Address AddressSpec AddressProofs ResourcesSpec Roa Manifest ManifestSpec SignedData.
From Verif Require Import BerSpec BerProofs Asn1Dec Asn1Types Asn1DecSpec Asn1DecProofs6 Asn1DecProofs9 Asn1DecProps Asn1CheckSpec Asn1CheckProofs ObjectsSpec ObjectsProofs ObjectsProofs2 ObjectsProofs3 ObjectsProofs4 ObjectsProofs5.
From Verif Require Import JsonEnc JsonEncSpec JsonEncSpec2 JsonEncProofs JsonEncProofs2 JsonEncProofs3 JsonEncProofs4 JsonEncProofs5 JsonEncProofs6 JsonEncProofs7.
Notation length := List.length.
Open Scope list_scope.
Open Scope Z_scope.

(** UTCTimes, whatever their year: the code's pivot is 60, rather than 50 (C99_utctime_refuted). *)
Theorem C99_short_date st : outcome (UTCTime_encode_json (Some (VBytes st))) (shows_short_date 54 st).
Proof. exact (short_date_spec st). Qed.

Section Object.
  Variable nid : list Z -> Z.
  Variable sn : Z -> option (list Z).
  Hypothesis sn_bytes : forall n s, sn n = Some s -> bytes s.
  Variable certificate : list Z -> res json.
  Hypothesis certificate_safe : forall b, bytes b -> certificate b <> UB.
  Variable turns : nat.
  Variables NID_pkcs7_signed NID_pkcs9_contentType NID_pkcs9_messageDigest NID_pkcs9_signingTime nid_ct_mft nid_ct_roa nid_ct_gbr : Z.

  (** The text of an object identifier: its short name, or its numbers. *)
  Definition text_of_oid (oid : list Z) : option (list Z) := match sn (nid oid) with Some s => Some s | None => OBJECT_IDENTIFIER_to_literal oid end.
  Definition kind_of_attribute (type : list Z) : attribute_kind :=
    if nid type =? NID_pkcs9_contentType then ContentTypeAttribute else if nid type =? NID_pkcs9_messageDigest then MessageDigestAttribute
    else if nid type =? NID_pkcs9_signingTime then SigningTimeAttribute else OtherAttribute.
  Definition kind_of_content (type : list Z) : content_kind :=
    if nid type =? nid_ct_mft then ManifestContent else if nid type =? nid_ct_roa then RoaContent else if nid type =? nid_ct_gbr then GhostbustersContent else OtherContent.

  (** Names, times, extensions and CRLs. *)
  Theorem C99_crl v : shaped t_CertificateList v -> outcome (encode_json (jt_CertificateList nid sn) (Some v)) (displays text_of_oid 54 certificate_list v).
  Proof. exact (r_crl nid sn sn_bytes v). Qed.
  (** Signers. *)
  Theorem C99_signer v : shaped t_SignerInfo v ->
    outcome (encode_json (jt_SignerInfo nid sn turns NID_pkcs9_contentType NID_pkcs9_messageDigest NID_pkcs9_signingTime) (Some v))
            (displays text_of_oid 54 (signer_info text_of_oid 54 (decoded turns) kind_of_attribute) v).
  Proof. unshelve eapply r_signer; try assumption; exact 0. Qed.

  (** The whole object, whatever the file: if it can be decoded (and it has content), what's shown is all of it; if nothing's shown, it can't be. *)
  Theorem C99_whole_object bs n v : bytes bs -> ber_decode turns t_ContentInfo bs = Done n v ->
    exists type content, v = VSeq [Some (VBytes type); Some (VBytes content)] /\
    ((nid type = NID_pkcs7_signed /\ exists m a b ty c d e, ber_decode turns t_SignedData content = Done m (VSeq [a; b; Some (VSeq [ty; None]); c; d; e])) \/
     outcome (json_encode nid sn certificate turns NID_pkcs7_signed NID_pkcs9_contentType NID_pkcs9_messageDigest NID_pkcs9_signingTime nid_ct_mft nid_ct_roa nid_ct_gbr (Some v))
             (shows_object text_of_oid 54 (decoded turns) (fun b j => certificate b = Ok j) kind_of_attribute kind_of_content (fun type => nid type = NID_pkcs7_signed) type content)).
  Proof.
    intros Hb D. destruct (decoded_ok t_ContentInfo) as (Hwf & Hu); [unfold decoded_types; cbn; tauto|].
    assert (Hs : shaped t_ContentInfo v) by (eapply decoded_shaped; [exact Hwf|exact Hu|exact Hb|exists n; exact D]). clear D.
    destruct v as [ | | | |vs| | ]; try contradiction.
    destruct vs as [|a vs]; [contradiction|]. destruct a as [a|]; [|destruct Hs as (Hs & _); lia]. destruct Hs as (Ha & Hs). destruct a as [type| | | | | | ]; try contradiction.
    destruct vs as [|b vs]; [contradiction|]. destruct b as [b|]; [|destruct Hs as (Hs & _); lia]. destruct Hs as (Hc & Hs). destruct vs; [|contradiction].
    destruct b as [content| | | | | | ]; try contradiction. exists type, content. split; [reflexivity|].
    assert (Dec : (nid type = NID_pkcs7_signed /\ without_content turns content) \/ ~ (nid type = NID_pkcs7_signed /\ without_content turns content)).
    { destruct (Z.eq_dec (nid type) NID_pkcs7_signed) as [E|E]; [|right; intros (K & _); contradiction].
      destruct (ber_decode turns t_SignedData content) as [m sd| | |] eqn:Dsd.
      2,3,4: right; intros (_ & sd & (m & K) & _); rewrite Dsd in K; discriminate K.
      assert (X : no_econtent sd \/ ~ no_econtent sd).
      { destruct sd as [?|? ?| |?|ms|?|? ?]; try (right; intros (a' & b' & ty' & c' & d' & e' & K); discriminate K).
        destruct ms as [|? [|? [|x ms]]]; try (right; intros (a' & b' & ty' & c' & d' & e' & K); discriminate K).
        destruct ms as [|? [|? [|? [|? ?]]]]; try (right; intros (a' & b' & ty' & c' & d' & e' & K); discriminate K).
        destruct x as [[?|? ?| |?|ws|?|? ?]|]; try (right; intros (a' & b' & ty' & c' & d' & e' & K); discriminate K).
        destruct ws as [|? [|[w|] [|? ?]]]; try (right; intros (a' & b' & ty' & c' & d' & e' & K); discriminate K).
        left. eexists _, _, _, _, _, _. reflexivity. }
      destruct X as [X|X].
      - left. split; [assumption|]. exists sd. split; [exists m; assumption|assumption].
      - right. intros (_ & sd' & (m' & K) & X'). rewrite Dsd in K. injection K as _ <-. contradiction. }
    destruct Dec as [(E & sd & (m & Dsd) & (a & b & ty & c & d & e & ->))|N].
    - left. split; [assumption|]. exists m, a, b, ty, c, d, e. exact Dsd.
    - right. unshelve eapply object_spec; try assumption; exact 0.
  Qed.
End Object.

(** A CRL with a revoked certificate, and two extensions. *)
Definition crl_nid (oid : list Z) : Z := match oid with [85; 29; x] => x | _ => 0 end.
Definition crl_sn (n : Z) : option (list Z) := if n =? 20 then Some (cstr "crlNumber") else if n =? 35 then Some (cstr "authorityKeyIdentifier") else if n =? 3 then Some (cstr "CN") else None.
Definition ex_algorithm : value := VSeq [Some (VBytes [42; 3]); Some (VBytes [5; 0])].
Definition ex_crl : value :=
  VSeq [Some (VSeq [Some (VBytes [1]); Some ex_algorithm;
          Some (VChoice 0 (VOf [VOf [VSeq [Some (VBytes [85; 29; 3]); Some (VBytes [19; 1; 65])]]]));
          Some (VChoice 0 (VBytes (cstr "240102030405Z"))); Some (VChoice 1 (VBytes (cstr "20500102030405Z")));
          Some (VOf [VSeq [Some (VBytes [7]); Some (VChoice 0 (VBytes (cstr "240101000000Z"))); None]]);
          Some (VOf [VSeq [Some (VBytes [85; 29; 20]); None; Some (VBytes [2; 1; 9])]; VSeq [Some (VBytes [85; 29; 35]); Some (VBool 255); Some (VBytes [48; 0])]])]);
        Some ex_algorithm; Some (VBits [171; 205] 0)].
Example C99_crl_example : shaped t_CertificateList ex_crl /\
  encode_json (jt_CertificateList crl_nid crl_sn) (Some ex_crl) =
  let alg := JObj [(cstr "algorithm", JStr (cstr "1.2.3")); (cstr "parameters", JStr (cstr "0500"))] in
  Ok (JObj [(cstr "tbsCertList", JObj [(cstr "version", JInt 1); (cstr "signature", alg);
              (cstr "issuer", JArr [JArr [JObj [(cstr "type", JStr (cstr "CN")); (cstr "value", JStr (cstr "130141"))]]]);
              (cstr "thisUpdate", JStr (cstr "2024-01-02 03:04:05Z")); (cstr "nextUpdate", JStr (cstr "2050-01-02 03:04:05Z"));
              (cstr "revokedCertificates", JArr [JObj [(cstr "userCertificate", JInt 7); (cstr "revocationDate", JStr (cstr "2024-01-01 00:00:00Z"))]]);
              (cstr "crlExtensions", JArr [JObj [(cstr "extnID", JStr (cstr "crlNumber")); (cstr "critical", JBool false); (cstr "extnValue", JStr (cstr "020109"))];
                                           JObj [(cstr "extnID", JStr (cstr "authorityKeyIdentifier")); (cstr "critical", JBool true); (cstr "extnValue", JStr (cstr "3000"))]])]);
            (cstr "signatureAlgorithm", alg); (cstr "signature", JStr (cstr "abcd"))]).
Proof.
  split; [|vm_compute; reflexivity].
  assert (B : forall l, forallb (fun b => (0 <=? b) && (b <? 256)) l = true -> bytes l).
  { intros l H. apply Forall_forall. intros x Hx. rewrite forallb_forall in H. specialize (H x Hx). apply andb_prop in H. rewrite Z.leb_le, Z.ltb_lt in H. exact H. }
  repeat match goal with
  | |- bytes _ => apply B; reflexivity
  | |- is_byte _ => unfold is_byte; lia
  | |- True => exact I
  | |- (_ < _)%nat => lia
  | |- exists raw, bit_string raw 0 [171; 205] => exists [171; 205]; exact (bits_some [171] 205 0 ltac:(lia))
  | |- _ /\ _ => split
  | |- shaped _ _ => progress cbn
  | |- _ => progress cbn
  end.
  all: try (apply B; reflexivity).
Qed.

Print Assumptions C99_short_date.
Print Assumptions C99_crl.
Print Assumptions C99_signer.
Print Assumptions C99_whole_object.
