(** The encoders of JsonEnc.v don't crash on what was decoded. *)
From Coq Require Import String Lia.
From Verif Require Import Base BaseLemmas PduWireSpec CString Slurm Oid Ntop NtopSpec NtopProofs Address AddressSpec AddressProofs ResourcesSpec Roa Manifest ManifestSpec.
From Verif Require Import BerSpec BerProofs Asn1Dec Asn1Types Asn1DecSpec Asn1DecProofs6 Asn1DecProofs7 Asn1DecProofs9 Asn1DecProps Asn1CheckSpec Asn1CheckProofs ObjectsSpec ObjectsProofs ObjectsProofs2 ObjectsProofs4 ObjectsProofs5.
From Verif Require Import JsonEnc JsonEncSpec JsonEncProofs JsonEncProofs2 JsonEncProofs3 JsonEncProofs4.
Notation length := List.length.
Open Scope list_scope.
Open Scope Z_scope.

Inductive agree : jty -> ty -> Prop :=
| ag_op op t : (forall v, shaped t v -> op (Some v) <> UB) -> agree (JtOp op) t
| ag_seq jms tags t2e ms : agree_members jms ms -> agree (JtSeq jms) (TSeq tags t2e ms)
| ag_of j tags etag t : agree j t -> agree (JtOf j) (TOf tags etag t)
| ag_choice js tags t2e ms : agree_alternatives js ms -> agree (JtChoice js) (TChoice tags t2e ms)
with agree_members : list (list Z * bool * option value * jty) -> list member -> Prop :=
| am_nil : agree_members [] []
| am_cons name optional zero j tag mode opt any t jms ms : agree j t ->
    opt = 0%nat \/ (zero = None /\ optional = true) \/ (exists z, zero = Some z /\ encode_json j (Some z) <> UB) ->
    agree_members jms ms -> agree_members ((name, optional, zero, j) :: jms) (Member tag mode opt any t :: ms)
with agree_alternatives : list jty -> list member -> Prop :=
| aa_nil js : agree_alternatives js []
| aa_cons j js tag mode opt any t ms : agree j t -> agree_alternatives js ms -> agree_alternatives (j :: js) (Member tag mode opt any t :: ms).
Scheme agree_ind3 := Minimality for agree Sort Prop
  with agree_members_ind3 := Minimality for agree_members Sort Prop
  with agree_alternatives_ind3 := Minimality for agree_alternatives Sort Prop.

Definition alternatives := fix member (v : value) (ms : list jty) (k : nat) : res json :=
  match ms, k with
  | t :: _, O => encode_json t (Some v)
  | _ :: ms, S k => member v ms k
  | [], _ => json_null
  end.
Lemma add_not_ub acc name r : r <> UB -> json_object_add acc name r <> UB.
Proof. destruct r; cbn; congruence. Qed.

Theorem agree_safe j t : agree j t -> forall v, shaped t v -> encode_json j (Some v) <> UB.
Proof.
  apply (agree_ind3
    (fun j t => forall v, shaped t v -> encode_json j (Some v) <> UB)
    (fun jms ms => forall vs acc, shaped_members ms vs -> members jms vs acc <> UB)
    (fun js ms => forall k v', (fix alternatives (ms : list member) (n : nat) : Prop :=
         match ms, n with [], _ => False | Member _ _ _ _ t' :: _, O => shaped t' v' | _ :: ms', S n' => alternatives ms' n' end) ms k ->
       (fix member (ms : list jty) (k : nat) : res json :=
            match ms, k with
            | t :: _, O => encode_json t (Some v')
            | _ :: ms, S k => member ms k
            | [], _ => json_null
            end) js k <> UB)).
  - intros op t0 H v Hv. exact (H v Hv).
  - intros jms tags t2e ms _ IH v Hv. destruct v as [ | | | |vs| | ]; try contradiction. rewrite encode_seq. specialize (IH vs [] Hv). destruct (members jms vs []); cbn; congruence.
  - intros j0 tags etag t0 _ IH v Hv. apply shaped_of in Hv. destruct Hv as (vs & -> & Hv). rewrite encode_of.
    assert (G : forall acc, elements j0 vs acc <> UB).
    { induction Hv as [|v vs Hv Hvs IHvs]; intros acc; cbn [elements]; [discriminate|]. specialize (IH v Hv).
      destruct (encode_json j0 (Some v)); cbn [json_array_add]; [apply IHvs|discriminate|contradiction]. }
    specialize (G []). destruct (elements j0 vs []); cbn; congruence.
  - intros js tags t2e ms _ IH v Hv. destruct v as [ | | | | | |k v']; try contradiction. exact (IH k v' Hv).
  - intros vs acc H. destruct vs; [discriminate|contradiction].
  - intros name optional zero j0 tag mode opt any t0 jms ms _ IH Hz _ IHm vs acc H. destruct vs as [|v vs]; [contradiction|].
    destruct v as [v|]; cbn [shaped_members] in H; destruct H as (H1 & H2); cbn [members].
    + specialize (IH v H1). pose proof (add_not_ub acc name _ IH) as A. destruct (json_object_add acc name (encode_json j0 (Some v))); [apply IHm; assumption|discriminate|contradiction].
    + destruct Hz as [Hz|[(-> & ->)|(z & -> & Hz)]]; [lia|apply IHm; assumption|].
      pose proof (add_not_ub acc name _ Hz) as A. destruct (json_object_add acc name (encode_json j0 (Some z))); [apply IHm; assumption|discriminate|contradiction].
  - intros js k v' H. contradiction.
  - intros j0 js tag mode opt any t0 ms _ IH _ IHa k v' H. destruct k as [|k]; [apply IH; assumption|apply IHa; assumption].
Qed.

(** Decoding and encoding. *)
Lemma ber2json_safe turns t j bs : wf t = true -> usable t 0 -> no_tagged_choice t 0 = true -> agree j t -> bytes bs -> ber2json turns t j bs <> UB.
Proof.
  intros Hwf Hu Hn Ha Hb. unfold ber2json. pose proof (decode_no_fault turns t 0 Hwf Hu bs Hb) as Nf.
  pose proof (decode_no_spin bytes turns bytes_closed t 0 Hwf Hu (or_introl Hn) bs Hb) as Ns. fold (ber_decode turns t bs) in *.
  destruct (ber_decode turns t bs) as [n v| | |] eqn:E; [|discriminate|contradiction|contradiction].
  destruct (decode_sound turns t 0 Hwf Hu bs n v Hb E) as (Hn' & He). eapply agree_safe; [exact Ha|]. eapply enc_shaped; [exact He|].
  rewrite <- (firstn_skipn n bs) in Hb. apply Forall_app in Hb. apply Hb.
Qed.

(** ** The encoders *)
Lemma strn_safe s : json_strn_new s <> UB.
Proof. unfold json_strn_new. destruct (utf8_check_string s); discriminate. Qed.
Lemma integer_safe b : INTEGER_encode_json (Some (VBytes b)) <> UB.
Proof. cbn [INTEGER_encode_json]. destruct (asn_INTEGER2imax b); discriminate. Qed.
Lemma ag_integer tags : agree jt_INTEGER (TPrim tags).
Proof. apply ag_op. intros v Hv. apply shaped_prim in Hv. destruct Hv as (b & -> & _). apply integer_safe. Qed.
Lemma ag_octets v tags all : agree jt_OCTET_STRING (TString v tags all).
Proof.
  apply ag_op. intros x Hx. destruct v; destruct x; try contradiction; cbn [OCTET_STRING_encode_json]; apply strn_safe.
Qed.
Lemma ag_utf8 tags all : agree jt_IA5String (TString STR tags all).
Proof. apply ag_op. intros x Hx. destruct x; try contradiction. cbn. apply strn_safe. Qed.
Lemma outcome_safe r P : outcome r P -> r <> UB.
Proof. destruct r; cbn; [discriminate|discriminate|contradiction]. Qed.
Lemma ag_gt tags all : agree jt_GeneralizedTime (TString STR tags all).
Proof. apply ag_op. intros x Hx. destruct x; try contradiction. cbn [GeneralizedTime_encode_json]. eapply outcome_safe. apply time_spec. Qed.
Lemma ag_ut tags all : agree jt_UTCTime (TString STR tags all).
Proof.
  apply ag_op. intros x Hx. destruct x as [st| | | | | | ]; try contradiction. cbn [UTCTime_encode_json]. unfold asn_UT2time.
  destruct ((length st <? 11)%nat || (22 <=? length st)%nat) eqn:E; [discriminate|]. destruct st as [|c st]; [discriminate E|]. eapply outcome_safe. apply time_spec.
Qed.
Lemma ag_bool tags : agree jt_BOOLEAN (TBool tags).
Proof. apply ag_op. intros x Hx. destruct x; try contradiction. cbn. discriminate. Qed.

Lemma addresses_safe pref2json l : (forall s, bit_string_ok s -> pref2json s <> UB) -> Forall (shaped t_ROAIPAddress) l -> forall acc, addresses2json pref2json l acc <> UB.
Proof.
  intros Hp Hl. induction Hl as [|v l Hv Hl IH]; intros acc; cbn [addresses2json]; [discriminate|].
  destruct v as [ | | | |vs| | ]; try contradiction. cbn [shaped t_ROAIPAddress t_IPAddress t_INTEGER] in Hv.
  destruct vs as [|a vs]; [contradiction|]. destruct a as [a|]; [|destruct Hv as (Hv & _); lia]. destruct Hv as (Ha & Hv).
  destruct a as [ |buf unused| | | | | ]; try contradiction. destruct vs as [|m vs]; [contradiction|].
  assert (Hm : vs = [] /\ match m with Some (VBytes _) | None => True | _ => False end).
  { destruct m as [m|]; destruct Hv as (Hm & Hv); (destruct vs; [|contradiction]); (split; [reflexivity|]); [|exact I]. destruct m; try contradiction. exact I. }
  destruct Hm as (-> & Hm). destruct Ha as (Ha & _). specialize (Hp {| bs_buf := buf; bs_unused := unused |} Ha).
  destruct (pref2json _) as [pfx|e|]; cbn [bind]; [|discriminate|contradiction].
  assert (I : INTEGER_encode_json m <> UB) by (destruct m as [[]|]; try contradiction; [apply integer_safe|discriminate]).
  destruct (INTEGER_encode_json m) as [j|e|]; cbn [json_object_add bind]; [apply IH|discriminate|contradiction].
Qed.
Lemma pfx4_safe s : bit_string_ok s -> prefix4_to_json s <> UB.
Proof. intros H. pose proof (pfx4_spec s H). destruct (prefix4_to_json s); [discriminate|discriminate|contradiction]. Qed.
Lemma pfx6_safe s : bit_string_ok s -> prefix6_to_json s <> UB.
Proof. intros H. pose proof (pfx6_spec s H). destruct (prefix6_to_json s); [discriminate|discriminate|contradiction]. Qed.
Lemma block_safe name pref2json l : (forall s, bit_string_ok s -> pref2json s <> UB) -> Forall (shaped t_ROAIPAddress) l -> AddrBlock2json name pref2json l <> UB.
Proof.
  intros Hp Hl. unfold AddrBlock2json, json_str_new. pose proof (strn_safe name) as N. destruct (json_strn_new name) as [j|e|]; cbn [json_object_add bind finish]; [|discriminate|contradiction].
  pose proof (addresses_safe pref2json l Hp Hl []) as A. destruct (addresses2json pref2json l []) as [r|e|]; cbn; [discriminate|discriminate|contradiction].
Qed.
Lemma ag_address : agree jt_ROAIPAddress t_ROAIPAddress.
Proof.
  apply ag_seq. apply am_cons; [apply ag_octets|left; reflexivity|]. apply am_cons; [apply ag_integer|right; left; split; reflexivity|]. apply am_nil.
Qed.
Lemma ag_family : agree (JtOp ROAIPAddressFamily_encode_json) t_ROAIPAddressFamily.
Proof.
  apply ag_op. intros v Hv. pose proof Hv as Hs. destruct v as [ | | | |vs| | ]; try contradiction.
  destruct vs as [|a vs]; [contradiction|]. destruct a as [a|]; [|destruct Hv as (Hv & _); lia]. destruct Hv as (Ha & Hv). destruct a as [af| | | | | | ]; try contradiction.
  destruct vs as [|b vs]; [contradiction|]. destruct b as [b|]; [|destruct Hv as (Hv & _); lia]. destruct Hv as (Hb & Hv). destruct vs; [|contradiction].
  apply shaped_of in Hb. destruct Hb as (l & -> & Hl). unfold ROAIPAddressFamily_encode_json.
  destruct (list_eqb Z.eqb af [0; 1]); [apply block_safe; [apply pfx4_safe|assumption]|]. destruct (list_eqb Z.eqb af [0; 2]); [apply block_safe; [apply pfx6_safe|assumption]|].
  apply (agree_safe jt_ROAIPAddressFamily_sequence t_ROAIPAddressFamily); [|assumption].
  apply ag_seq. apply am_cons; [apply ag_octets|left; reflexivity|]. apply am_cons; [apply ag_of; apply ag_address|left; reflexivity|]. apply am_nil.
Qed.
Lemma ag_roa : agree jt_RouteOriginAttestation t_RouteOriginAttestation.
Proof.
  apply ag_seq. apply am_cons; [apply ag_integer|right; left; split; reflexivity|]. apply am_cons; [apply ag_integer|left; reflexivity|].
  apply am_cons; [apply ag_of; apply ag_family|left; reflexivity|]. apply am_nil.
Qed.

Section LIBCRYPTO.
  Variable nid : list Z -> Z.
  Variable sn : Z -> option (list Z).
  Variable certificate : list Z -> res json.
  Hypothesis certificate_safe : forall b, bytes b -> certificate b <> UB.
  Variable turns : nat.
  Variables NID_pkcs7_signed NID_pkcs9_contentType NID_pkcs9_messageDigest NID_pkcs9_signingTime nid_ct_mft nid_ct_roa nid_ct_gbr : Z.

  Lemma oid_safe b : OBJECT_IDENTIFIER_encode_json nid sn (Some (VBytes b)) <> UB.
  Proof. unfold OBJECT_IDENTIFIER_encode_json. destruct (match sn (nid b) with Some s => Some s | None => OBJECT_IDENTIFIER_to_literal b end); [apply strn_safe|discriminate]. Qed.
  Lemma ag_oid tags : agree (jt_OBJECT_IDENTIFIER nid sn) (TPrim tags).
  Proof. apply ag_op. intros v Hv. apply shaped_prim in Hv. destruct Hv as (b & -> & _). apply oid_safe. Qed.

  Ltac must := apply am_cons; [|left; reflexivity|].
  Ltac may := apply am_cons; [|right; left; split; reflexivity|].
  Ltac done := apply am_nil.

  Lemma ag_file : agree jt_FileAndHash t_FileAndHash.
  Proof. apply ag_seq. must; [apply ag_utf8|]. must; [apply ag_octets|done]. Qed.
  Lemma ag_manifest : agree (jt_Manifest nid sn) t_Manifest.
  Proof.
    apply ag_seq. may; [apply ag_integer|]. must; [apply ag_integer|]. must; [apply ag_gt|]. must; [apply ag_gt|]. must; [apply ag_oid|]. must; [apply ag_of; apply ag_file|]. done.
  Qed.
  Lemma ag_alg : agree (jt_AlgorithmIdentifier nid sn) t_AlgorithmIdentifier.
  Proof. apply ag_seq. must; [apply ag_oid|]. may; [apply ag_octets|]. done. Qed.
  Lemma ag_name : agree (jt_Name nid sn) t_Name.
  Proof.
    apply ag_choice. apply aa_cons; [|apply aa_nil]. apply ag_of, ag_of, ag_seq. must; [apply ag_oid|]. must; [apply ag_octets|]. done.
  Qed.
  Lemma ag_time : agree jt_Time t_Time.
  Proof. apply ag_choice. apply aa_cons; [apply ag_ut|]. apply aa_cons; [apply ag_gt|]. apply aa_nil. Qed.
  Lemma ag_extension : agree (jt_Extension nid sn) t_Extension.
  Proof.
    apply ag_seq. must; [apply ag_oid|]. apply am_cons; [apply ag_bool| |].
    - right; right. exists (VBool 0). split; [reflexivity|discriminate].
    - must; [apply ag_octets|]. done.
  Qed.
  Lemma ag_crl : agree (jt_CertificateList nid sn) t_CertificateList.
  Proof.
    apply ag_seq. must.
    - apply ag_seq. may; [apply ag_integer|]. must; [apply ag_alg|]. must; [apply ag_name|]. must; [apply ag_time|]. may; [apply ag_time|].
      may; [|may; [apply ag_of; apply ag_extension|done]]. apply ag_of, ag_seq. must; [apply ag_integer|]. must; [apply ag_time|]. may; [apply ag_of; apply ag_extension|]. done.
    - must; [apply ag_alg|]. must; [apply ag_octets|]. done.
  Qed.
  Lemma ag_revocation : agree (jt_RevocationInfoChoice nid sn) t_RevocationInfoChoice.
  Proof.
    apply ag_choice. apply aa_cons; [apply ag_crl|]. apply aa_cons; [|apply aa_nil]. apply ag_seq. must; [apply ag_oid|]. must; [apply ag_octets|]. done.
  Qed.
  Lemma ag_sid : agree (jt_SignerIdentifier nid sn) t_SignerIdentifier.
  Proof.
    apply ag_choice. apply aa_cons; [|apply aa_cons; [apply ag_octets|apply aa_nil]]. apply ag_seq. must; [apply ag_name|]. must; [apply ag_integer|]. done.
  Qed.

  Let td := attribute_type nid sn NID_pkcs9_contentType NID_pkcs9_messageDigest NID_pkcs9_signingTime.
  Lemma attribute_safe type b : bytes b -> ber2json turns (fst (td type)) (snd (td type)) b <> UB.
  Proof.
    intros Hb. unfold td, attribute_type.
    destruct (type =? NID_pkcs9_contentType); [apply ber2json_safe; [reflexivity|exact I|reflexivity|apply ag_oid|assumption]|].
    destruct (type =? NID_pkcs9_messageDigest); [apply ber2json_safe; [reflexivity|exact I|reflexivity|apply ag_octets|assumption]|].
    destruct (type =? NID_pkcs9_signingTime); [apply ber2json_safe; [reflexivity|left; reflexivity|reflexivity|apply ag_time|assumption]|].
    apply ber2json_safe; [reflexivity|left; reflexivity|reflexivity|apply ag_octets|assumption].
  Qed.
  Lemma ag_attribute : agree (JtOp (CMSAttribute_encode_json nid sn turns NID_pkcs9_contentType NID_pkcs9_messageDigest NID_pkcs9_signingTime)) t_CMSAttribute.
  Proof.
    apply ag_op. intros v Hv. destruct v as [ | | | |vs| | ]; try contradiction.
    destruct vs as [|a vs]; [contradiction|]. destruct a as [a|]; [|destruct Hv as (Hv & _); lia]. destruct Hv as (Ha & Hv). destruct a as [ty| | | | | | ]; try contradiction.
    destruct vs as [|b vs]; [contradiction|]. destruct b as [b|]; [|destruct Hv as (Hv & _); lia]. destruct Hv as (Hb & Hv). destruct vs; [|contradiction].
    apply shaped_of in Hb. destruct Hb as (l & -> & Hl). unfold CMSAttribute_encode_json. fold td.
    pose proof (oid_safe ty) as O. destruct (OBJECT_IDENTIFIER_encode_json nid sn (Some (VBytes ty))) as [j|e|]; cbn [json_object_add bind finish]; [|discriminate|contradiction].
    assert (G : forall acc, values2json turns (td (nid ty)) l acc <> UB).
    { induction Hl as [|v l Hv' Hl IH]; intros acc; cbn [values2json]; [discriminate|]. destruct v as [b| | | | | | ]; try contradiction.
      pose proof (attribute_safe (nid ty) b Hv') as A. destruct (ber2json turns (fst (td (nid ty))) (snd (td (nid ty))) b); cbn [json_array_add]; [apply IH|discriminate|contradiction]. }
    specialize (G []). destruct (values2json turns (td (nid ty)) l []); cbn; [discriminate|discriminate|contradiction].
  Qed.
  Lemma ag_signer : agree (jt_SignerInfo nid sn turns NID_pkcs9_contentType NID_pkcs9_messageDigest NID_pkcs9_signingTime) t_SignerInfo.
  Proof.
    apply ag_seq. must; [apply ag_integer|]. must; [apply ag_sid|]. must; [apply ag_alg|]. may; [apply ag_of; apply ag_attribute|]. must; [apply ag_alg|].
    must; [apply ag_octets|]. may; [apply ag_of; apply ag_attribute|]. done.
  Qed.
  Lemma ag_certificates : agree (JtOp (CertificateSet_encode_json certificate)) t_CertificateSet.
  Proof.
    apply ag_op. intros v Hv. apply shaped_of in Hv. destruct Hv as (l & -> & Hl). cbn [CertificateSet_encode_json].
    assert (G : forall acc, certificates2json certificate l acc <> UB).
    { induction Hl as [|v l Hv' Hl IH]; intros acc; cbn [certificates2json]; [discriminate|]. destruct v as [b| | | | | | ]; try contradiction.
      pose proof (certificate_safe b Hv') as A. destruct (certificate b); cbn [json_array_add]; [apply IH|discriminate|contradiction]. }
    specialize (G []). destruct (certificates2json certificate l []); cbn; [discriminate|discriminate|contradiction].
  Qed.

  (** An eContent that isn't optional. *)
  Definition t_strict_content : ty := TSeq [64] [(24, 0%nat); (2, 1%nat)] [Member (Some 24) 0 0 false t_ContentType; Member (Some 2) 1 0 false t_OCTET_STRING].
  Definition t_strict : ty :=
    TSeq [64] [(8, 0%nat); (64, 2%nat); (68, 1%nat); (68, 5%nat); (2, 3%nat); (6, 4%nat)]
      [Member (Some 8) 0 0 false t_CMSVersion; Member (Some 68) 0 0 false t_DigestAlgorithmIdentifiers; Member (Some 64) 0 0 false t_strict_content;
       Member (Some 2) (-1) 2 false t_CertificateSet; Member (Some 6) (-1) 1 false t_RevocationInfoChoices; Member (Some 68) 0 0 false t_SignerInfos].
  Lemma ag_content : agree (JtOp (EncapsulatedContentInfo_encode_json nid sn turns nid_ct_mft nid_ct_roa nid_ct_gbr)) t_strict_content.
  Proof.
    apply ag_op. intros v Hv. destruct v as [ | | | |vs| | ]; try contradiction.
    destruct vs as [|a vs]; [contradiction|]. destruct a as [a|]; [|destruct Hv as (Hv & _); lia]. destruct Hv as (Ha & Hv). destruct a as [ty| | | | | | ]; try contradiction.
    destruct vs as [|b vs]; [contradiction|]. destruct b as [b|]; [|destruct Hv as (Hv & _); lia]. destruct Hv as (Hb & Hv). destruct vs; [|contradiction].
    destruct b as [b| | | | | | ]; try contradiction. unfold EncapsulatedContentInfo_encode_json.
    pose proof (oid_safe ty) as O. destruct (OBJECT_IDENTIFIER_encode_json nid sn (Some (VBytes ty))) as [j|e|]; cbn [json_object_add bind finish]; [|discriminate|contradiction].
    assert (G : (if nid ty =? nid_ct_mft then OCTET_STRING_to_json turns t_Manifest (jt_Manifest nid sn) (Some (VBytes b))
                 else if nid ty =? nid_ct_roa then OCTET_STRING_to_json turns t_RouteOriginAttestation jt_RouteOriginAttestation (Some (VBytes b))
                 else if nid ty =? nid_ct_gbr then OCTET_STRING_encode_json_utf8 (Some (VBytes b))
                 else OCTET_STRING_encode_json (Some (VBytes b))) <> UB).
    { destruct (nid ty =? nid_ct_mft); [apply ber2json_safe; [reflexivity|exact I|reflexivity|apply ag_manifest|assumption]|].
      destruct (nid ty =? nid_ct_roa); [apply ber2json_safe; [reflexivity|exact I|reflexivity|apply ag_roa|assumption]|].
      destruct (nid ty =? nid_ct_gbr); apply strn_safe. }
    cbv zeta. set (g := if nid ty =? nid_ct_mft then _ else _) in *. clearbody g. destruct g; cbn; [discriminate|discriminate|contradiction].
  Qed.
  Lemma ag_signed_data :
    agree (jt_SignedData nid sn certificate turns NID_pkcs9_contentType NID_pkcs9_messageDigest NID_pkcs9_signingTime nid_ct_mft nid_ct_roa nid_ct_gbr) t_strict.
  Proof.
    apply ag_seq. must; [apply ag_integer|]. must; [apply ag_of; apply ag_alg|]. must; [apply ag_content|]. may; [apply ag_certificates|].
    may; [apply ag_of; apply ag_revocation|]. must; [apply ag_of; apply ag_signer|]. done.
  Qed.

  (** The only crash. *)
  Definition no_econtent (sd : value) : Prop := exists a b ty c d e, sd = VSeq [a; b; Some (VSeq [ty; None]); c; d; e].
  Lemma strict_or_none v : shaped t_SignedData v -> shaped t_strict v \/ no_econtent v.
  Proof.
    intros Hv. destruct v as [ | | | |vs| | ]; try contradiction.
    change (shaped t_SignedData (VSeq vs)) with (shaped_members [Member (Some 8) 0 0 false t_CMSVersion; Member (Some 68) 0 0 false t_DigestAlgorithmIdentifiers; Member (Some 64) 0 0 false t_EncapsulatedContentInfo;
       Member (Some 2) (-1) 2 false t_CertificateSet; Member (Some 6) (-1) 1 false t_RevocationInfoChoices; Member (Some 68) 0 0 false t_SignerInfos] vs) in Hv.
    change (shaped t_strict (VSeq vs)) with (shaped_members [Member (Some 8) 0 0 false t_CMSVersion; Member (Some 68) 0 0 false t_DigestAlgorithmIdentifiers; Member (Some 64) 0 0 false t_strict_content;
       Member (Some 2) (-1) 2 false t_CertificateSet; Member (Some 6) (-1) 1 false t_RevocationInfoChoices; Member (Some 68) 0 0 false t_SignerInfos] vs).
    destruct vs as [|a vs]; [contradiction|]. destruct vs as [|b vs]; [destruct a; destruct Hv; contradiction|].
    destruct vs as [|x vs]; [destruct a; destruct b; destruct Hv as (_ & _ & Hv); contradiction|].
    assert (L : exists c d e, vs = [c; d; e]).
    { destruct vs as [|c [|d [|e [|f vs]]]]; try (exfalso; destruct a, b, x; try destruct c; try destruct d; try destruct e; cbn [shaped_members] in Hv; tauto). eexists _, _, _. reflexivity. }
    destruct L as (c & d & e & ->).
    destruct x as [x|]; [|exfalso; destruct a, b; cbn [shaped_members] in Hv; destruct Hv as (_ & _ & Hv & _); lia].
    assert (Hx : shaped t_EncapsulatedContentInfo x) by (destruct a, b; cbn [shaped_members] in Hv; apply Hv).
    destruct x as [ | | | |ws| | ]; try contradiction. destruct ws as [|ty ws]; [contradiction|].
    destruct ws as [|w ws]; [destruct ty; destruct Hx; contradiction|]. destruct ws; [|destruct ty, w; destruct Hx as (_ & _ & Hx); contradiction].
    destruct w as [w|].
    - left. destruct a, b; cbn [shaped_members] in *; destruct Hv as (H1 & H2 & Hv); (split; [exact H1|]); (split; [exact H2|]); destruct Hv as (_ & Hv); (split; [|exact Hv]); clear - Hx; exact Hx.
    - right. eexists _, _, _, _, _, _. reflexivity.
  Qed.

  Theorem json_safe v : shaped t_ContentInfo v ->
    json_encode nid sn certificate turns NID_pkcs7_signed NID_pkcs9_contentType NID_pkcs9_messageDigest NID_pkcs9_signingTime nid_ct_mft nid_ct_roa nid_ct_gbr (Some v) = UB ->
    exists type content n sd, v = VSeq [Some (VBytes type); Some (VBytes content)] /\ nid type = NID_pkcs7_signed /\ ber_decode turns t_SignedData content = Done n sd /\ no_econtent sd.
  Proof.
    intros Hv. destruct v as [ | | | |vs| | ]; try contradiction.
    destruct vs as [|a vs]; [contradiction|]. destruct a as [a|]; [|destruct Hv as (Hv & _); lia]. destruct Hv as (Ha & Hv). destruct a as [ty| | | | | | ]; try contradiction.
    destruct vs as [|b vs]; [contradiction|]. destruct b as [b|]; [|destruct Hv as (Hv & _); lia]. destruct Hv as (Hb & Hv). destruct vs; [|contradiction].
    destruct b as [b| | | | | | ]; try contradiction. unfold json_encode, ContentInfo_encode_json.
    pose proof (oid_safe ty) as O. destruct (OBJECT_IDENTIFIER_encode_json nid sn (Some (VBytes ty))) as [j|e|]; cbn [json_object_add bind finish]; [|discriminate|contradiction].
    cbv zeta. destruct (Z.eqb_spec (nid ty) NID_pkcs7_signed) as [E|E].
    - intros U. unfold ber2json in U.
      assert (Hd : In t_SignedData decoded_types) by (unfold decoded_types; cbn; tauto). destruct (decoded_ok t_SignedData Hd) as (Hwf & Hu).
      pose proof (C64_decoder_in_bounds t_SignedData turns b Hd Hb) as Nf.
      pose proof (C65_decoder_ends_partial t_SignedData turns b Hd ltac:(discriminate) Hb) as Ns.
      destruct (ber_decode turns t_SignedData b) as [n v| | |] eqn:D; [|discriminate U|contradiction|contradiction].
      destruct (decode_sound turns t_SignedData 0 Hwf Hu b n v Hb D) as (Hn & He).
      assert (Hs : shaped t_SignedData v).
      { eapply enc_shaped; [exact He|]. rewrite <- (firstn_skipn n b) in Hb. apply Forall_app in Hb. apply Hb. }
      destruct (strict_or_none v Hs) as [S|S]; [|exists ty, b, n, v; repeat split; assumption].
      exfalso. pose proof (agree_safe _ _ ag_signed_data v S) as A.
      match type of A with ?r <> UB => destruct r; cbn in U; [discriminate|discriminate|contradiction] end.
    - cbn [OCTET_STRING_encode_json]. pose proof (strn_safe (hex_of b)) as N. destruct (json_strn_new (hex_of b)); cbn; [discriminate|discriminate|contradiction].
  Qed.
End LIBCRYPTO.
