(** The types of a signed object (JsonEnc.v) against JsonEncSpec2.v. *)
From Coq Require Import String Lia.
From Verif Require Import Base BaseLemmas PduWireSpec CString Slurm Oid Ntop NtopSpec NtopProofs Address AddressSpec AddressProofs ResourcesSpec Roa Manifest ManifestSpec.
From Verif Require Import BerSpec BerProofs Asn1Dec Asn1Types Asn1DecSpec Asn1DecProofs6 Asn1DecProofs7 Asn1DecProofs9 Asn1DecProps Asn1CheckSpec Asn1CheckProofs ObjectsSpec ObjectsProofs ObjectsProofs2 ObjectsProofs4 ObjectsProofs5.
From Verif Require Import JsonEnc JsonEncSpec JsonEncSpec2 JsonEncProofs JsonEncProofs2 JsonEncProofs3 JsonEncProofs4 JsonEncProofs5 JsonEncProofs6.
Notation length := List.length.
Open Scope list_scope.
Open Scope Z_scope.

(** What's decoded, with the decoder of Asn1Dec.v. *)
Definition decoded (turns : nat) (t : ty) (b : list Z) (v : value) : Prop := exists n, ber_decode turns t b = Done n v.

(** The shape of what is decoded. *)
Lemma decoded_shaped turns t b v : wf t = true -> usable t 0 -> bytes b -> decoded turns t b v -> shaped t v.
Proof.
  intros Hwf Hu Hb (n & E). destruct (decode_sound turns t 0 Hwf Hu b n v Hb E) as (Hn' & He). eapply enc_shaped; [exact He|].
  rewrite <- (firstn_skipn n b) in Hb. apply Forall_app in Hb. apply Hb.
Qed.

Section Types.
  Variable nid : list Z -> Z.
  Variable sn : Z -> option (list Z).
  Hypothesis sn_bytes : forall n s, sn n = Some s -> bytes s.
  Variable certificate : list Z -> res json.
  Hypothesis certificate_safe : forall b, bytes b -> certificate b <> UB.
  Variable turns : nat.
  Variables NID_pkcs7_signed NID_pkcs9_contentType NID_pkcs9_messageDigest NID_pkcs9_signingTime nid_ct_mft nid_ct_roa nid_ct_gbr : Z.

  Definition the_name (oid : list Z) : option (list Z) := match sn (nid oid) with Some s => Some s | None => OBJECT_IDENTIFIER_to_literal oid end.
  Notation renders := (renders the_name 54).
  Notation disp := (displays the_name 54).

  Lemma identifier_spec oid : outcome (OBJECT_IDENTIFIER_encode_json nid sn (Some (VBytes oid))) (shows_identifier the_name oid).
  Proof.
    pose proof (oid_spec nid sn sn_bytes oid) as O. cbv zeta in O. fold (the_name oid) in O. destruct (OBJECT_IDENTIFIER_encode_json nid sn (Some (VBytes oid))) as [j|e|]; cbn [outcome]; [| |contradiction].
    - destruct O as (s & -> & E & U). exists s. repeat split; assumption.
    - intros j (s & E & U & _). eapply O; eassumption.
  Qed.
  Lemma r_oid tags : renders (jt_OBJECT_IDENTIFIER nid sn) (TPrim tags) Identifier.
  Proof.
    intros v Hv. apply shaped_prim in Hv. destruct Hv as (b & -> & Hb). eapply outcome_impl; [|exact (identifier_spec b)].
    intros j. split; [intros H; exists b; split; [reflexivity|assumption]|intros (b' & E & H); injection E as <-; assumption].
  Qed.

  Ltac must := apply rm_req; [|].
  Ltac may := apply rm_opt; [|].
  Ltac done := apply rm_nil.
  Ltac seq := apply r_seq; [vm_compute; reflexivity|].

  Lemma r_file : renders jt_FileAndHash t_FileAndHash (Struct [("file"%string, Required, Utf8Text); ("hash"%string, Required, Hexadecimal)]).
  Proof. seq. must; [apply r_utf8|]. must; [apply r_octets|done]. Qed.
  Lemma r_manifest : renders (jt_Manifest nid sn) t_Manifest manifest.
  Proof.
    seq. may; [apply r_integer|]. must; [apply r_integer|]. must; [apply r_date|]. must; [apply r_date|]. must; [apply r_oid|]. must; [apply r_of; apply r_file|]. done.
  Qed.
  Lemma r_family : renders (JtOp ROAIPAddressFamily_encode_json) t_ROAIPAddressFamily roa_block.
  Proof.
    intros v Hv. destruct (shaped_roa_block v Hv) as (b & -> & Hb & Ha). eapply outcome_impl; [|exact (family_spec b Hb Ha)]. intros j. split.
    - intros H. exists b. split; [reflexivity|assumption].
    - intros (b' & E & H). assert (b' = b); [|subst; assumption]. destruct b as [f l], b' as [f' l']. injection E as <- E'. f_equal. clear - E'.
      revert l' E'. induction l as [|a l IH]; intros [|a' l'] E; try discriminate E; [reflexivity|]. cbn [map] in E. injection E as E1 E2 E3 E4. f_equal; [|apply IH; assumption].
      destruct a as [[b u] m], a' as [[b' u'] m']. cbn [ra_address ra_max bs_buf bs_unused] in *. subst. f_equal. destruct m, m'; cbn in E3; congruence.
  Qed.
  Lemma r_roa : renders jt_RouteOriginAttestation t_RouteOriginAttestation roa.
  Proof. seq. may; [apply r_integer|]. must; [apply r_integer|]. must; [apply r_of; apply r_family|]. done. Qed.
  Lemma r_alg : renders (jt_AlgorithmIdentifier nid sn) t_AlgorithmIdentifier algorithm_identifier.
  Proof. seq. must; [apply r_oid|]. may; [apply r_octets|]. done. Qed.
  Lemma r_name : renders (jt_Name nid sn) t_Name name.
  Proof. apply r_choice. apply ra_cons; [|apply ra_nil]. apply r_of, r_of. seq. must; [apply r_oid|]. must; [apply r_octets|]. done. Qed.
  Lemma r_time : renders jt_Time t_Time time.
  Proof. apply r_choice. apply ra_cons; [apply r_short_date|]. apply ra_cons; [apply r_date|]. apply ra_nil. Qed.
  Lemma r_extension : renders (jt_Extension nid sn) t_Extension extension.
  Proof.
    seq. must; [apply r_oid|]. apply rm_def; [apply r_bool| |].
    - cbn. exists 0. split; reflexivity.
    - must; [apply r_octets|]. done.
  Qed.
  Lemma r_crl : renders (jt_CertificateList nid sn) t_CertificateList certificate_list.
  Proof.
    seq. must.
    - seq. may; [apply r_integer|]. must; [apply r_alg|]. must; [apply r_name|]. must; [apply r_time|]. may; [apply r_time|].
      may; [|may; [apply r_of; apply r_extension|done]]. apply r_of. seq. must; [apply r_integer|]. must; [apply r_time|]. may; [apply r_of; apply r_extension|]. done.
    - must; [apply r_alg|]. must; [apply r_octets|]. done.
  Qed.
  Lemma r_revocation : renders (jt_RevocationInfoChoice nid sn) t_RevocationInfoChoice revocation_info.
  Proof.
    apply r_choice. apply ra_cons; [apply r_crl|]. apply ra_cons; [|apply ra_nil]. seq. must; [apply r_oid|]. must; [apply r_octets|]. done.
  Qed.
  Lemma r_sid : renders (jt_SignerIdentifier nid sn) t_SignerIdentifier signer_identifier.
  Proof.
    apply r_choice. apply ra_cons; [|apply ra_cons; [apply r_octets|apply ra_nil]]. seq. must; [apply r_name|]. must; [apply r_integer|]. done.
  Qed.

  (** ** Encoded values *)
  Notation encoded := (shows_encoded the_name 54 (decoded turns)).
  Lemma ber2json_spec t j d bs : wf t = true -> usable t 0 -> no_tagged_choice t 0 = true -> renders j t d -> bytes bs ->
    outcome (ber2json turns t j bs) (encoded t d bs).
  Proof.
    intros Hwf Hu Hn Ha Hb. unfold ber2json. pose proof (decode_no_fault turns t 0 Hwf Hu bs Hb) as Nf.
    pose proof (decode_no_spin bytes turns bytes_closed t 0 Hwf Hu (or_introl Hn) bs Hb) as Ns. fold (ber_decode turns t bs) in *.
    destruct (ber_decode turns t bs) as [n v| | |] eqn:E; [| |contradiction|contradiction].
    - assert (D : decoded turns t bs v) by (exists n; exact E).
      eapply outcome_impl; [|apply Ha; eapply decoded_shaped; eassumption]. intros x. split; [intros H; exists v; split; assumption|].
      intros (v' & (n' & E') & H). rewrite E in E'. injection E' as _ <-. assumption.
    - cbn. intros x (v' & (n' & E') & _). rewrite E in E'. discriminate E'.
  Qed.

  Definition attribute_of (type : list Z) : attribute_kind :=
    if nid type =? NID_pkcs9_contentType then ContentTypeAttribute
    else if nid type =? NID_pkcs9_messageDigest then MessageDigestAttribute
    else if nid type =? NID_pkcs9_signingTime then SigningTimeAttribute
    else OtherAttribute.
  Definition content_of (type : list Z) : content_kind :=
    if nid type =? nid_ct_mft then ManifestContent
    else if nid type =? nid_ct_roa then RoaContent
    else if nid type =? nid_ct_gbr then GhostbustersContent
    else OtherContent.
  Let td := attribute_type nid sn NID_pkcs9_contentType NID_pkcs9_messageDigest NID_pkcs9_signingTime.
  Notation shows_value := (shows_attribute_value the_name 54 (decoded turns)).
  Lemma attribute_value_spec type b : bytes b -> outcome (ber2json turns (fst (td (nid type))) (snd (td (nid type))) b) (shows_value (attribute_of type) b).
  Proof.
    intros Hb. unfold td, attribute_type, attribute_of.
    destruct (nid type =? NID_pkcs9_contentType); [apply ber2json_spec; [reflexivity|exact I|reflexivity|apply r_oid|assumption]|].
    destruct (nid type =? NID_pkcs9_messageDigest); [apply ber2json_spec; [reflexivity|exact I|reflexivity|apply r_octets|assumption]|].
    destruct (nid type =? NID_pkcs9_signingTime); [apply ber2json_spec; [reflexivity|left; reflexivity|reflexivity|apply r_time|assumption]|].
    apply ber2json_spec; [reflexivity|left; reflexivity|reflexivity|apply r_octets|assumption].
  Qed.
  Notation attribute := (attribute the_name 54 (decoded turns) attribute_of).
  Lemma bytes_values vs : Forall (shaped t_ANY) vs -> exists l, vs = map VBytes l /\ Forall bytes l.
  Proof.
    induction 1 as [|v vs Hv Hvs IH]; [exists []; split; [reflexivity|constructor]|]. destruct IH as (l & -> & Hl). apply shaped_any in Hv. destruct Hv as (b & -> & Hb).
    exists (b :: l). split; [reflexivity|constructor; assumption].
  Qed.
  Lemma map_VBytes_inj l l' : map VBytes l = map VBytes l' -> l = l'.
  Proof. revert l'. induction l as [|a l IH]; intros [|a' l'] E; try discriminate E; [reflexivity|]. injection E as -> E. f_equal. apply IH. assumption. Qed.
  Lemma identifier_json type j : shows_identifier the_name type j -> exists s, j = JStr s.
  Proof. intros (s & _ & _ & ->). exists s. reflexivity. Qed.
  Lemma identifier_fun type j j' : shows_identifier the_name type j -> shows_identifier the_name type j' -> j = j'.
  Proof. intros (s & E & _ & ->) (s' & E' & _ & ->). congruence. Qed.

  Lemma r_attribute : renders (JtOp (CMSAttribute_encode_json nid sn turns NID_pkcs9_contentType NID_pkcs9_messageDigest NID_pkcs9_signingTime)) t_CMSAttribute attribute.
  Proof.
    intros v Hv. destruct v as [ | | | |vs| | ]; try contradiction.
    destruct vs as [|a vs]; [contradiction|]. destruct a as [a|]; [|destruct Hv as (Hv & _); lia]. destruct Hv as (Ha & Hv). destruct a as [type| | | | | | ]; try contradiction.
    destruct vs as [|b vs]; [contradiction|]. destruct b as [b|]; [|destruct Hv as (Hv & _); lia]. destruct Hv as (Hb & Hv). destruct vs; [|contradiction].
    apply shaped_of in Hb. destruct Hb as (l & -> & Hl). apply bytes_values in Hl. destruct Hl as (l' & -> & Hl). rename l' into l.
    change (encode_json (JtOp ?f) ?x) with (f x). unfold CMSAttribute_encode_json. fold td.
    pose proof (identifier_spec type) as O. destruct (OBJECT_IDENTIFIER_encode_json nid sn (Some (VBytes type))) as [j|e|]; cbn [json_object_add json_object_set bind finish outcome] in *; [| |contradiction].
    2: { intros j (ty' & l' & s & js & E & -> & S & _). injection E as <- _. eapply O; eassumption. }
    assert (G : forall acc, match values2json turns (td (nid type)) (map VBytes l) acc with
        | Ok r => exists js, r = acc ++ js /\ Forall2 (shows_value (attribute_of type)) l js
        | Err _ => forall js, ~ Forall2 (shows_value (attribute_of type)) l js | UB => False end).
    { induction Hl as [|b l Hb Hl IH]; intros acc; cbn [map values2json].
      - exists []. rewrite app_nil_r. split; [reflexivity|constructor].
      - pose proof (attribute_value_spec type b Hb) as A. destruct (ber2json turns (fst (td (nid type))) (snd (td (nid type))) b) as [x|e|]; cbn [json_array_add outcome] in *; [| |contradiction].
        + specialize (IH (acc ++ [x])). destruct (values2json _ _ _ _) as [r|e|]; [| |contradiction].
          * destruct IH as (js & -> & F). exists (x :: js). rewrite <- app_assoc. split; [reflexivity|constructor; assumption].
          * intros js F. inversion F; subst. eapply IH; eassumption.
        + intros js F. inversion F; subst. eapply A; eassumption. }
    specialize (G []). destruct (values2json turns (td (nid type)) (map VBytes l) []) as [r|e|]; cbn [bind json_object_add finish outcome]; [| |contradiction].
    - destruct G as (js & -> & F). destruct (identifier_json _ _ O) as (s & ->). exists type, l, s, js. repeat split; assumption.
    - intros x (ty' & l' & s & js & E & -> & _ & F). injection E as <- E'. apply map_VBytes_inj in E'. subst l'. eapply G; eassumption.
  Qed.
  Notation signer_info := (signer_info the_name 54 (decoded turns) attribute_of).
  Lemma r_signer : renders (jt_SignerInfo nid sn turns NID_pkcs9_contentType NID_pkcs9_messageDigest NID_pkcs9_signingTime) t_SignerInfo signer_info.
  Proof.
    seq. must; [apply r_integer|]. must; [apply r_sid|]. must; [apply r_alg|]. may; [apply r_of; apply r_attribute|]. must; [apply r_alg|].
    must; [apply r_octets|]. may; [apply r_of; apply r_attribute|]. done.
  Qed.
  Definition shows_certificate (b : list Z) (j : json) : Prop := certificate b = Ok j.
  Lemma r_certificates : renders (JtOp (CertificateSet_encode_json certificate)) t_CertificateSet (certificates shows_certificate).
  Proof.
    intros v Hv. apply shaped_of in Hv. destruct Hv as (l & -> & Hl). apply bytes_values in Hl. destruct Hl as (l' & -> & Hl). rename l' into l.
    change (encode_json (JtOp ?f) ?x) with (f x). cbn [CertificateSet_encode_json].
    assert (G : forall acc, match certificates2json certificate (map VBytes l) acc with
        | Ok r => exists js, r = acc ++ js /\ Forall2 shows_certificate l js
        | Err _ => forall js, ~ Forall2 shows_certificate l js | UB => False end).
    { induction Hl as [|b l Hb Hl IH]; intros acc; cbn [map certificates2json].
      - exists []. rewrite app_nil_r. split; [reflexivity|constructor].
      - pose proof (certificate_safe b Hb) as A. destruct (certificate b) as [x|e|] eqn:E; cbn [json_array_add] in *; [| |contradiction].
        + specialize (IH (acc ++ [x])). destruct (certificates2json _ _ _) as [r|e|]; [| |contradiction].
          * destruct IH as (js & -> & F). exists (x :: js). rewrite <- app_assoc. split; [reflexivity|constructor; assumption].
          * intros js F. inversion F; subst. eapply IH; eassumption.
        + intros js F. inversion F as [|? ? ? ? K]; subst. unfold shows_certificate in K. congruence. }
    specialize (G []). destruct (certificates2json certificate (map VBytes l) []) as [r|e|]; cbn [finish_array outcome]; [| |contradiction].
    - destruct G as (js & -> & F). exists l, js. repeat split; assumption.
    - intros x (l' & js & E & -> & F). injection E as E'. apply map_VBytes_inj in E'. subst l'. eapply G; eassumption.
  Qed.

  Notation content := (encapsulated_content the_name 54 (decoded turns) content_of).
  Lemma r_content : renders (JtOp (EncapsulatedContentInfo_encode_json nid sn turns nid_ct_mft nid_ct_roa nid_ct_gbr)) t_strict_content content.
  Proof.
    intros v Hv. destruct v as [ | | | |vs| | ]; try contradiction.
    destruct vs as [|a vs]; [contradiction|]. destruct a as [a|]; [|destruct Hv as (Hv & _); lia]. destruct Hv as (Ha & Hv). destruct a as [type| | | | | | ]; try contradiction.
    destruct vs as [|b vs]; [contradiction|]. destruct b as [b|]; [|destruct Hv as (Hv & _); lia]. destruct Hv as (Hb & Hv). destruct vs; [|contradiction].
    destruct b as [b| | | | | | ]; try contradiction. change (encode_json (JtOp ?f) ?x) with (f x). unfold EncapsulatedContentInfo_encode_json.
    pose proof (identifier_spec type) as O. destruct (OBJECT_IDENTIFIER_encode_json nid sn (Some (VBytes type))) as [j|e|]; cbn [json_object_add json_object_set bind finish outcome] in *; [| |contradiction].
    2: { intros j (ty' & l' & s & js & E & -> & S & _). injection E as <- _. eapply O; eassumption. }
    assert (G : outcome (if nid type =? nid_ct_mft then OCTET_STRING_to_json turns t_Manifest (jt_Manifest nid sn) (Some (VBytes b))
                 else if nid type =? nid_ct_roa then OCTET_STRING_to_json turns t_RouteOriginAttestation jt_RouteOriginAttestation (Some (VBytes b))
                 else if nid type =? nid_ct_gbr then OCTET_STRING_encode_json_utf8 (Some (VBytes b))
                 else OCTET_STRING_encode_json (Some (VBytes b))) (shows_content the_name 54 (decoded turns) (content_of type) b)).
    { unfold content_of. destruct (nid type =? nid_ct_mft); [apply ber2json_spec; [reflexivity|exact I|reflexivity|apply r_manifest|assumption]|].
      destruct (nid type =? nid_ct_roa); [apply ber2json_spec; [reflexivity|exact I|reflexivity|apply r_roa|assumption]|].
      destruct (nid type =? nid_ct_gbr).
      - cbn [OCTET_STRING_encode_json_utf8 shows_content]. pose proof (strn_spec b Hb) as S. destruct (json_strn_new b) as [x|e|]; cbn [outcome]; [| |contradiction].
        + destruct S as (-> & U). split; [assumption|reflexivity].
        + intros x (U & _). contradiction.
      - destruct (hex_json b Hb) as (s & -> & T). exists s. split; [assumption|reflexivity]. }
    cbv zeta. set (g := if nid type =? nid_ct_mft then _ else _) in *. clearbody g. destruct g as [c|e|]; cbn [json_object_add finish outcome] in *; [| |contradiction].
    - destruct (identifier_json _ _ O) as (s & ->). exists type, b, s, c. repeat split; assumption.
    - intros x (ty' & b' & s & c & E & -> & _ & K). injection E as <- <-. eapply G; eassumption.
  Qed.
  Notation signed_data := (signed_data the_name 54 (decoded turns) shows_certificate attribute_of content_of).
  Let jt_sd := jt_SignedData nid sn certificate turns NID_pkcs9_contentType NID_pkcs9_messageDigest NID_pkcs9_signingTime nid_ct_mft nid_ct_roa nid_ct_gbr.
  Lemma r_signed_data : renders jt_sd t_strict signed_data.
  Proof.
    seq. must; [apply r_integer|]. must; [apply r_of; apply r_alg|]. must; [apply r_content|]. may; [apply r_certificates|].
    may; [apply r_of; apply r_revocation|]. must; [apply r_of; apply r_signer|]. done.
  Qed.

  (** ** The object *)
  Definition without_content (turns : nat) (content : list Z) : Prop := exists sd, decoded turns t_SignedData content sd /\ no_econtent sd.
  Theorem object_spec type content : bytes type -> bytes content -> ~ (nid type = NID_pkcs7_signed /\ without_content turns content) ->
    outcome (json_encode nid sn certificate turns NID_pkcs7_signed NID_pkcs9_contentType NID_pkcs9_messageDigest NID_pkcs9_signingTime nid_ct_mft nid_ct_roa nid_ct_gbr
               (Some (VSeq [Some (VBytes type); Some (VBytes content)])))
            (shows_object the_name 54 (decoded turns) shows_certificate attribute_of content_of (fun type => nid type = NID_pkcs7_signed) type content).
  Proof.
    intros Ht Hb Hne. unfold json_encode, ContentInfo_encode_json.
    pose proof (identifier_spec type) as O. destruct (OBJECT_IDENTIFIER_encode_json nid sn (Some (VBytes type))) as [j|e|]; cbn [json_object_add json_object_set bind finish outcome] in *; [| |contradiction].
    2: { intros j (s & c & -> & S & _). eapply O; eassumption. }
    destruct (identifier_json _ _ O) as (s & ->). cbv zeta. destruct (Z.eqb_spec (nid type) NID_pkcs7_signed) as [E|E].
    - fold jt_sd. assert (G : outcome (ber2json turns t_SignedData jt_sd content) (encoded t_SignedData signed_data content)).
      { assert (Hd : In t_SignedData decoded_types) by (unfold decoded_types; cbn; tauto). destruct (decoded_ok t_SignedData Hd) as (Hwf & Hu).
        pose proof (C64_decoder_in_bounds t_SignedData turns content Hd Hb) as Nf.
        pose proof (C65_decoder_ends_partial t_SignedData turns content Hd ltac:(discriminate) Hb) as Ns.
        unfold ber2json. destruct (ber_decode turns t_SignedData content) as [n v| | |] eqn:D; [| |contradiction|contradiction].
        - assert (Dv : decoded turns t_SignedData content v) by (exists n; exact D).
          pose proof (decoded_shaped turns t_SignedData content v Hwf Hu Hb Dv) as Hs.
          destruct (strict_or_none nid sn 0 0 0 0 0 v Hs) as [S|S]; [|exfalso; apply Hne; split; [assumption|]; exists v; split; assumption].
          eapply outcome_impl; [|exact (r_signed_data v S)]. intros x. split; [intros H; exists v; split; assumption|].
          intros (v' & (n' & E') & H). rewrite D in E'. injection E' as _ <-. assumption.
        - cbn. intros x (v' & (n' & E') & _). rewrite D in E'. discriminate E'. }
      destruct (ber2json turns t_SignedData jt_sd content) as [c|e|]; cbn [json_object_add finish outcome] in *; [| |contradiction].
      + exists s, c. split; [reflexivity|]. split; [assumption|]. split; [intros _; assumption|]. intros K. contradiction.
      + intros x (s' & c & -> & _ & K & _). eapply G. apply K. assumption.
    - destruct (hex_json content Hb) as (h & -> & T). cbn. exists s, (JStr h). split; [reflexivity|]. split; [assumption|]. split; [intros K; contradiction|]. intros _. exists h. split; [assumption|reflexivity].
  Qed.
End Types.
