(** C70: signed objects, from the bytes of the file. *)
From Coq Require Import Lia Permutation.
From Verif Require Import Base BaseLemmas ResourcesSpec OidSpec Oid OidProofs BerSpec Ber BerProofs BerProofs4 BerProps Manifest SignedData SignedDataSpec SignedDataProofs SignedDataProps.
From Verif Require Import Asn1Dec Asn1DecSpec Asn1Types Asn1Check Asn1Constraints Asn1CheckProofs Asn1CheckProps Objects ObjectsSpec ObjectsProofs
  ObjectsProofs3 ObjectsProofs4 ObjectsProofs5 ObjectsProps CertBytesProps SignedObject SignedObjectSpec SignedObjectProofs SignedObjectProofs2 SignedObjectProofs3.
Notation length := List.length.

(** ** The decoders' outcomes *)
Lemma content_info_cases slack nobuf turns file : bytes file -> (2 <= turns)%nat ->
  decode_content_info slack nobuf turns file = None \/
  exists type content, decode_content_info slack nobuf turns file = Some (type, content ++ slack, length content)
    /\ bytes type /\ bytes content /\ (length content <= length file)%nat.
Proof.
  intros Hb Hturns. destruct (asn1_decode nobuf turns t_ContentInfo k_ContentInfo file) as [v| | |] eqn:A;
    [right|left; unfold decode_content_info; rewrite A; reflexivity..].
  destruct (C67_signed_data_complete nobuf turns file Hb Hturns) as (_ & _ & H). destruct (H slack v A) as (t & c & D & Ht & _ & Hc).
  exists t, c. split; [exact D|]. split; [assumption|]. split; [assumption|].
  unfold decode_content_info in D. rewrite A in D. apply accepted_iff in A; [|cbn; tauto|assumption..]. destruct A as ((n & Hn & He) & _).
  assert (L : (length (firstn n file) <= length file)%nat) by (rewrite firstn_length; lia).
  apply inv_seq in He. destruct He as (indef & body & vs & Hf & Hms & ->). apply framed_body in Hf.
  apply inv_required in Hms. destruct Hms as (b1 & b2 & x1 & vs1 & -> & -> & _ & _ & Hms).
  apply inv_required in Hms. destruct Hms as (b3 & b4 & x2 & vs2 & -> & -> & _ & He & Hms). inversion Hms; subst.
  cbn [got view_content_info] in D. destruct x1 as [y1| | | | | |]; try discriminate. destruct x2 as [y2| | | | | |]; try discriminate.
  injection D as -> D _. apply app_inv_tail in D. subst y2. rewrite !app_length in *.
  enough (length c <= length b3)%nat by lia. inversion He; subst; cbn [Z.eqb Pos.eqb]; rewrite ?app_length; [lia|].
  match goal with H : constructed_string _ _ _ _ |- _ => destruct H as (i & Hf' & _) end. apply framed_body in Hf'. lia.
Qed.

Definition kinds (e : ty) : Prop := wf e = true /\ no_end e = true.
Lemma view_first v sd : view_signed_data v = Some sd -> sd_signers sd <> [] ->
  has_signer v /\ forall av, first_attributes v = Some av -> exists si sis attrs, sd_signers sd = si :: sis /\ si_attrs si = Some attrs /\ view_attributes av = Some attrs.
Proof.
  intros H Hs. destruct v as [| | | |vs| |]; try discriminate. cbn [view_signed_data] in H.
  destruct vs as [|[[ver| | | | | |]|] [|[digests|] [|[[| | | |[|[[t| | | | | |]|] [|content [|]]]| |]|] [|certs [|crls [|[signers|] [|]]]]]]]; try discriminate.
  destruct (view_algs digests); [|discriminate]. destruct (view_optional view_bytes content); [|discriminate].
  destruct (view_optional view_anys certs); [|discriminate]. destruct (view_optional view_crls crls); [|discriminate].
  destruct (view_signers signers) as [sg|] eqn:Esg; [|discriminate]. injection H as <-. cbn [sd_signers] in *.
  destruct signers as [| | | | |ss|]; try discriminate. cbn [view_signers] in Esg. destruct ss as [|s ss]; [injection Esg as <-; congruence|].
  split; [exact I|]. intros av Hav. cbn [first_attributes] in Hav.
  cbn [view_list] in Esg. destruct (view_signer s) as [si|] eqn:Es; [|discriminate]. destruct (view_list view_signer ss) as [sis|]; [|discriminate].
  injection Esg as <-. exists si, sis. destruct s as [| | | |ws| |]; try discriminate. cbn [view_signer] in Es.
  destruct ws as [|[[ver'| | | | | |]|] [|[sid|] [|[dalg|] [|attrs [|[salg|] [|[[sig| | | | | |]|] [|unsigned [|]]]]]]]]; try discriminate.
  subst attrs. cbn [view_optional] in Es. destruct (view_sid sid); [|discriminate]. destruct (view_alg dalg); [|discriminate].
  destruct (view_attributes av) as [attrs|]; [|discriminate]. cbn [option_map] in Es. destruct (view_alg salg); [|discriminate].
  destruct (view_optional view_attributes unsigned); [|discriminate]. injection Es as <-. exists attrs. cbn. auto.
Qed.

Section C70.
  Context (sha256 : list Z -> option (list Z)).
  Context (act : action).
  Context {cert refs resources : Type}.
  Context (d2i_X509 : list Z -> option (cert * nat)).
  Context (validate_chain validate_rfc6487 : cert -> res unit).
  Context (validate_extensions_ee : cert -> list Z -> res (refs * rpki_policy)).
  Context (validate_aia : refs -> cert -> res unit).
  Context (evp_verify : cert -> list Z -> list Z -> bool).
  Context (get_resources : cert -> rpki_policy -> res resources).
  Context (slack : list Z) (nobuf : bool) (turns : nat).

  Local Notation dec_oid := (decode_oid nobuf turns).
  Local Notation dec_octets := (decode_octets nobuf turns).
  Local Notation holds := (contains (decode_signed_data nobuf turns) (decode_signed_data_pkcs7 nobuf turns) dec_octets).
  Local Notation okay := (rfc6488 dec_oid dec_octets sha256 act d2i_X509 validate_chain validate_rfc6487 validate_extensions_ee validate_aia evp_verify get_resources).
  Local Notation read := (read_signed_object sha256 act d2i_X509 validate_chain validate_rfc6487 validate_extensions_ee validate_aia evp_verify get_resources slack nobuf turns).

  (** What a SignedData decodes from: an encoding of one of the two types, with
      the same signers. *)
  Lemma holds_encoding content sd : bytes content -> (2 <= turns)%nat -> holds content sd ->
    signed_data_bytes_only sd /\ exists e n v sd0, wf e = true /\ no_end e = true /\ enc (sd_type e) 0 (firstn n content) v /\
      view_signed_data v = Some sd0 /\ sd_signers sd0 = sd_signers sd.
  Proof.
    intros Hb Hturns Hc. destruct (C67_signed_data_complete nobuf turns content Hb Hturns) as (C1 & C2 & _).
    destruct Hc as [D|(_ & sd7 & any & e & D & De & E0 & E1 & E2 & E3 & E4 & E5 & E6)].
    - unfold decode_signed_data in D. destruct (asn1_decode nobuf turns t_SignedData k_SignedData content) as [v| | |] eqn:A; try discriminate.
      destruct (C1 v eq_refl) as (sd' & D' & B & _). unfold decode_signed_data in D'. rewrite A in D'. rewrite D in D'. injection D' as <-.
      split; [assumption|]. apply accepted_iff in A; [|cbn; tauto|assumption..]. destruct A as ((n & Hn & He) & _).
      exists t_EncapsulatedContentInfo, n, v, sd. split; [reflexivity|]. split; [reflexivity|]. split; [exact He|]. split; [exact D|reflexivity].
    - pose proof D as D'. unfold decode_signed_data_pkcs7 in D'. destruct (asn1_decode nobuf turns t_SignedDataPKCS7 k_SignedDataPKCS7 content) as [v| | |] eqn:A; try discriminate.
      destruct (C2 v eq_refl) as (sd' & D2 & B & _). rewrite D2 in D. injection D as -> Ea. cbn [got] in D'.
      destruct (view_signed_data v) as [sdv|] eqn:Ev; [|discriminate]. injection D' as -> D'. split.
      + destruct B as (B1 & B2 & B3 & B4 & B5 & B6). unfold signed_data_bytes_only. rewrite E0, E1, E2, E3, E4, E6. rewrite Ea in B4.
        repeat (split; [assumption|]). split; [|auto].
        unfold decode_octets in De. destruct (asn1_decode nobuf turns t_MessageDigest k_MessageDigest any) as [w| | |] eqn:Aw; try discriminate.
        apply accepted_shaped in Aw; [|cbn; tauto|assumption..]. destruct Aw as (Aw & _). apply shaped_octets in Aw. destruct Aw as (c & -> & Hcb).
        injection De as <-. exact Hcb.
      + apply accepted_iff in A; [|cbn; tauto|assumption..]. destruct A as ((n & Hn & He) & _).
        exists t_EncapsulatedContentInfoPKCS7, n, v, sd7. split; [reflexivity|]. split; [reflexivity|]. split; [exact He|]. split; [exact Ev|]. congruence.
  Qed.

  (** Accepted exactly if RFC 6488's conditions hold of what the bytes are
      decoded to. *)
  Theorem C70_exact oid frames file sd rf rs : bytes file -> (2 <= turns)%nat ->
    (read oid frames file = Ok (sd, rf, rs) <->
     exists type content, decode_content_info (0 :: slack) nobuf turns file = Some (type, content ++ 0 :: slack, length content) /\
       names type [1; 2; 840; 113549; 1; 7; 2] /\ holds content sd /\
       okay oid frames (content ++ 0 :: slack) (length content) sd rf rs).
  Proof.
    intros Hb Hturns. unfold read_signed_object. rewrite C63_file.
    - destruct (content_info_cases (0 :: slack) nobuf turns file Hb Hturns) as [->|(ty & c & -> & _)].
      + split; [intros (? & ? & ? & Q & _); discriminate|intros (? & ? & Q & _); discriminate].
      + split.
        * intros (ctype & mem & size & Q & H1 & H2 & H3). injection Q as <- <- <-. rewrite firstn_app_exact in H2. eauto 10.
        * intros (type & content & Q & H1 & H2 & H3). injection Q as -> Q _. apply app_inv_tail in Q. subst content.
          exists type, (c ++ 0 :: slack), (length c). rewrite firstn_app_exact. auto.
    - intros t m n D. destruct (content_info_cases (0 :: slack) nobuf turns file Hb Hturns) as [E|(ty & c & E & Ht & Hc & _)]; rewrite E in D; [discriminate|].
      injection D as <- <- <-. split; [assumption|]. intros sd' H. rewrite firstn_app_exact in H.
      destruct (holds_encoding c sd' Hc Hturns H) as (B & _). apply bytes_only_sd_bytes. assumption.
  Qed.

  Lemma check_indefinite verify frames content sig L rest : bytes content -> bytes slack ->
    (length content < frames)%nat -> Z.of_nat (length content) <= 2147483647 ->
    signed_attributes_at content L None rest ->
    L = [128] /\ certificate_validate_signature verify frames (content ++ 0 :: slack) (length content) sig
    = if verify [49] sig then Ok tt else Err EINVAL.
  Proof.
    intros Hb Hsl Hfr Hi Hat. assert (Hn : bytes (0 :: slack)) by (constructor; [unfold is_byte; lia|exact Hsl]).
    assert (L = [128]) as ->.
    { destruct Hat as (? & ? & ? & ? & ? & ? & ? & ? & ? & ? & _ & _ & _ & _ & _ & _ & _ & _ & _ & _ & _ & HL & _). inversion HL. reflexivity. }
    split; [reflexivity|]. unfold certificate_validate_signature, digested.
    destruct (find_complete frames content (0 :: slack) [128] None _ Hb Hn ltac:(discriminate) Hfr Hi Hat) as [off [-> Hoff]].
    cbn [code]. change (-1 + Z.of_nat (length [128])) with 0. change (0 <? 0) with false. cbn iota.
    change (Z.to_nat 0) with 0%nat.
    assert (Hlen : (off <= length (content ++ 0%Z :: slack))%nat).
    { destruct (Nat.le_gt_cases off (length (content ++ 0 :: slack))); [assumption|].
      rewrite skipn_all2 in Hoff by lia. discriminate. }
    destruct (Nat.ltb_spec (length (content ++ 0 :: slack)) (off + 0)); [lia|]. reflexivity.
  Qed.

  (** The signature check of decoded content: it does not crash, and covers
      the attributes that were decoded -- or, if their length is indefinite,
      nothing. *)
  Lemma signature_check content sd x sig frames : bytes content -> bytes slack -> (2 <= turns)%nat ->
    (length content < frames)%nat -> Z.of_nat (length content) <= 2147483647 ->
    holds content sd -> sd_signers sd <> [] ->
    certificate_validate_signature (evp_verify x) frames (content ++ 0 :: slack) (length content) sig <> UB /\
    (certificate_validate_signature (evp_verify x) frames (content ++ 0 :: slack) (length content) sig = Ok tt ->
     exists si sis attrs m, sd_signers sd = si :: sis /\ si_attrs si = Some attrs /\ evp_verify x m sig = true /\
       (encodes_attributes m attrs \/ (m = [49] /\ exists rest, signed_attributes_at content [128] None rest))).
  Proof.
    intros Hb Hsl Hturns Hfr Hi Hc Hs. destruct (holds_encoding content sd Hb Hturns Hc) as (_ & e & n & v & sd0 & Hw & Hne & He & Hv & Es).
    rewrite <- Es in *. destruct (view_first v sd0 Hv Hs) as (Hhs & Hfa).
    assert (St : stored_as content (content ++ 0 :: slack)) by (split; [assumption|exists slack; split; [assumption|reflexivity]]).
    assert (A : forall L len rest, signed_attributes_at content L len rest ->
      exists av si sis attrs, sd_signers sd0 = si :: sis /\ si_attrs si = Some attrs /\ view_attributes av = Some attrs /\
        (len = None \/ exists V r, rest = V ++ r /\ len = Some (Z.of_nat (length V)) /\ enc t_SignedAttributes 0 (49 :: L ++ V) av)).
    { intros L len rest Hat. destruct (agree e n content v L len rest Hw Hne Hb He Hhs Hat) as (av & F & G).
      destruct (Hfa av F) as (si & sis & attrs & H1 & H2 & H3). exists av, si, sis, attrs. auto. }
    destruct (certificate_validate_signature (evp_verify x) frames (content ++ 0 :: slack) (length content) sig) as [[]|err|] eqn:E.
    - split; [discriminate|]. intros _. destruct (C61_accepted _ _ _ _ _ St E) as (L & len & rest & Hat & _).
      destruct (A L len rest Hat) as (av & si & sis & attrs & H1 & H2 & H3 & H4). exists si, sis, attrs.
      destruct H4 as [->|(V & r & -> & -> & Henc)].
      + destruct (check_indefinite (evp_verify x) frames content sig L rest Hb Hsl Hfr Hi Hat) as (-> & Q). rewrite E in Q.
        destruct (evp_verify x [49] sig) eqn:Ev; [|discriminate]. exists [49]. split; [assumption|]. split; [assumption|]. split; [assumption|].
        right. split; [reflexivity|]. exists rest. assumption.
      + destruct (C61_covers (evp_verify x) frames content _ sig L V r St Hfr Hi Hat) as (Q & _). apply Q in E. exists (49 :: L ++ V).
        split; [assumption|]. split; [assumption|]. split; [assumption|]. left. exists av. auto.
    - split; [discriminate|discriminate].
    - exfalso. enough (certificate_validate_signature (evp_verify x) frames (content ++ 0 :: slack) (length content) sig <> UB) by congruence. clear E.
      assert (Hn : bytes (0 :: slack)) by (constructor; [unfold is_byte; lia|exact Hsl]).
      destruct (find_no_ub frames content (0 :: slack) Hb Hn ltac:(discriminate) Hfr Hi) as [E|[[off k] E]].
      + unfold certificate_validate_signature, digested. rewrite E. discriminate.
      + destruct (find_sound frames content (0 :: slack) k off Hb Hn ltac:(discriminate) E) as (L & len & rest & Hat & _).
        destruct (A L len rest Hat) as (av & si & sis & attrs & _ & _ & _ & H4). destruct H4 as [->|(V & r & -> & -> & _)].
        * destruct (check_indefinite (evp_verify x) frames content sig L rest Hb Hsl Hfr Hi Hat) as (-> & ->). destruct (evp_verify x [49] sig); discriminate.
        * apply (C61_covers (evp_verify x) frames content _ sig L V r St Hfr Hi Hat).
  Qed.

  (** In an accepted object, whatever its bytes, the attributes that were
      checked are those the signature covers: the only certificate's key
      verified it over an encoding of them (as RFC 5652 5.4 says) -- or, if
      they came with an indefinite length, over the octet 49. *)
  Theorem C70_signed_partial oid frames file sd rf rs : bytes file -> bytes slack -> (2 <= turns)%nat ->
    (length file < frames)%nat -> Z.of_nat (length file) <= 2147483647 ->
    read oid frames file = Ok (sd, rf, rs) ->
    exists si attrs c x m, sd_signers sd = [si] /\ si_attrs si = Some attrs /\
      attributes_ok dec_oid dec_octets sha256 sd attrs /\
      sd_certs sd = Some [c] /\ d2i_X509 c = Some (x, length c) /\
      evp_verify x m (si_signature si) = true /\
      (encodes_attributes m attrs \/
       (m = [49] /\ exists type content rest, decode_content_info (0 :: slack) nobuf turns file = Some (type, content ++ 0 :: slack, length content) /\
          signed_attributes_at content [128] None rest)).
  Proof.
    intros Hb Hsl Hturns Hfr Hi E. apply C70_exact in E; [|assumption..]. destruct E as (ty & content & D & Hn & Hc & Hok).
    destruct (content_info_cases (0 :: slack) nobuf turns file Hb Hturns) as [Q|(ty' & c' & Q & _ & Hcb & Hl)]; rewrite Q in D; [discriminate|].
    injection D as -> D _. apply app_inv_tail in D. subst c'.
    destruct Hok as [_ _ _ _ (si & ski & attrs & c & Esi & _ & _ & _ & Eat & Hat & _ & _ & Ece & x & pol & Ex & _ & _ & _ & _ & Esig & _)].
    destruct (signature_check content sd x (si_signature si) frames Hcb Hsl Hturns ltac:(lia) ltac:(lia) Hc) as (_ & G); [rewrite Esi; discriminate|].
    destruct (G Esig) as (si' & sis & attrs' & m & E1 & E2 & E3 & E4). rewrite Esi in E1. injection E1 as <- <-. rewrite Eat in E2. injection E2 as <-.
    exists si, attrs, c, x, m. split; [assumption|]. split; [assumption|]. split; [assumption|]. split; [assumption|]. split; [assumption|]. split; [assumption|].
    destruct E4 as [E4|(-> & rest & E4)]; [left; assumption|]. right. split; [reflexivity|]. exists ty, content, rest. auto.
  Qed.

  (** If the checks of the certificate don't crash, no file crashes the
      process. *)
  Theorem C70_no_crash oid frames file : bytes file -> bytes slack -> (2 <= turns)%nat ->
    (length file < frames)%nat -> Z.of_nat (length file) <= 2147483647 ->
    (forall c x n, d2i_X509 c = Some (x, n) -> validate_chain x <> UB /\ validate_rfc6487 x <> UB /\
       (forall i, validate_extensions_ee x i <> UB) /\ (forall r, validate_aia r x <> UB) /\ (forall p, get_resources x p <> UB)) ->
    read oid frames file <> UB.
  Proof.
    intros Hb Hsl Hturns Hfr Hi N. unfold read_signed_object, signed_object, content_info_decode.
    destruct (content_info_cases (0 :: slack) nobuf turns file Hb Hturns) as [->|(ty & content & -> & Ht & Hcb & Hl)]; [discriminate|].
    destruct (is_oid ty OID_SIGNED_DATA) as [[|]| |] eqn:Eo; cbn [bind fst snd]; try discriminate; [|exfalso; exact (is_oid_not_ub _ _ Ht Eo)].
    rewrite firstn_app_exact.
    destruct (signed_data_decode (decode_signed_data nobuf turns) (decode_signed_data_pkcs7 nobuf turns) dec_octets content) as [sd| |] eqn:Es; cbn [bind]; try discriminate.
    2: { unfold signed_data_decode, signed_data_decode_pkcs7 in Es. destruct (decode_signed_data nobuf turns content); [discriminate|].
         destruct (decode_signed_data_pkcs7 nobuf turns content) as [[s [a|]]|]; try discriminate. destruct (dec_octets a); discriminate. }
    assert (Hc : holds content sd).
    { unfold signed_data_decode, signed_data_decode_pkcs7 in Es. unfold contains. destruct (decode_signed_data nobuf turns content) as [s0|]; [injection Es as ->; auto|].
      right. split; [reflexivity|]. destruct (decode_signed_data_pkcs7 nobuf turns content) as [[s7 [any|]]|]; try discriminate. destruct (dec_octets any) as [e|] eqn:Ee; [|discriminate].
      injection Es as <-. exists s7, any, e. cbn. auto 10. }
    destruct (holds_encoding content sd Hcb Hturns Hc) as (B & _).
    match goal with |- (bind ?m ?f) <> UB => destruct m as [[r1 r2]| |] eqn:Ev; cbn [bind]; try discriminate end.
    exfalso. revert Ev. apply C63_no_crash; try assumption.
    - apply bytes_only_sd_bytes. assumption.
    - destruct B as (_ & _ & _ & _ & _ & B). intros si attrs a v o Hsi Ea Ha Hv Ho. rewrite Forall_forall in B. destruct (B si Hsi) as (_ & _ & _ & Bat & _).
      rewrite Ea in Bat. cbn in Bat. rewrite Forall_forall in Bat. destruct (Bat a Ha) as (_ & Bv). rewrite Forall_forall in Bv.
      unfold decode_oid in Ho. destruct (asn1_decode nobuf turns t_OBJECT_IDENTIFIER k_OBJECT_IDENTIFIER v) as [w| | |] eqn:Aw; try discriminate.
      apply accepted_shaped in Aw; [|cbn; tauto|auto..]. destruct Aw as (Aw & _). apply shaped_prim in Aw. destruct Aw as (c & -> & Hc'). injection Ho as <-. assumption.
    - intros Hne x sg. apply (signature_check content sd x sg frames Hcb Hsl Hturns ltac:(lia) ltac:(lia) Hc Hne).
  Qed.

  (** A DER object: accepted exactly if it is valid, the signature being one of
      the SET OF encoding of its attributes. *)
  Theorem C70_der oid frames sd si ski rest sd' rf rs : (2 <= turns)%nat -> bytes slack -> bytes rest ->
    let content := der_signed_data sd [(si, ski)] in
    let file := der_content_info id_signed_data content in
    signed_data_fine sd [(si, ski)] -> Z.of_nat (length file) < 536870912 -> (length file < frames)%nat ->
    (** X.690 10.2: in DER there are no constructed OCTET STRINGs. *)
    (forall attrs a v, si_attrs si = Some attrs -> In a attrs -> In v (at_values a) -> nth 0 v 0 <> 36) ->
    (read oid frames (file ++ rest) = Ok (sd', rf, rs) <->
     sd' = sd /\ rfc6488_der sha256 act d2i_X509 validate_chain validate_rfc6487 validate_extensions_ee validate_aia evp_verify get_resources oid sd si ski rf rs).
  Proof.
    intros Hturns Hsl Hrest content file Hf Hr Hfr H36.
    assert (Hany : any_der content) by (apply any_signed_data; assumption).
    assert (Hcb : bytes content) by (apply any_bytes; assumption).
    assert (Hid : bytes id_signed_data) by (apply Forall_forall; unfold is_byte; cbn [In id_signed_data]; lia).
    assert (Hrf : reasonable file) by (unfold reasonable; lia).
    assert (Hfb : bytes file) by (apply content_info_bytes; assumption).
    assert (Hl : (length content < length file)%nat).
    { unfold file, der_content_info, SEQUENCE. cbn [concat]. pose proof (tlv_length 48 (OBJECT_IDENTIFIER id_signed_data ++ CONTEXT 0 content ++ [])) as Q1.
      rewrite !app_length in Q1. pose proof (tlv_length (160 + 0) content) as Q2. unfold CONTEXT in Q1 at 1. lia. }
    assert (Hrc : reasonable content) by (unfold reasonable in *; lia).
    rewrite C70_exact by (try assumption; apply Forall_app; split; assumption).
    pose proof (C67_content_info (0 :: slack) nobuf turns id_signed_data content rest Hturns Hrest Hid Hany Hrf) as Eci.
    change (der_content_info id_signed_data content) with file in Eci. rewrite Eci.
    assert (D : decode_signed_data nobuf turns content = Some sd).
    { rewrite <- (app_nil_r content). apply C67_signed_data; [assumption|constructor|assumption|assumption]. }
    assert (Hh : forall s, holds content s <-> s = sd).
    { intros s. unfold contains. rewrite D. split; [intros [Q|(Q & _)]; [congruence|discriminate]|intros ->; left; reflexivity]. }
    assert (Nm : names id_signed_data [1; 2; 840; 113549; 1; 7; 2]).
    { apply is_oid_names; [assumption|]. vm_compute. reflexivity. }
    pose proof Hf as (F1 & F2 & F3 & F4 & F5 & F6 & F7 & F8). inversion F8 as [|? ? F9 _]; subst. cbn [fst snd] in F9.
    pose proof F9 as (G1 & G2 & G3 & G4 & G5 & G6 & G7 & G8).
    assert (Small : forall attrs a v, si_attrs si = Some attrs -> In a attrs -> In v (at_values a) -> any_der v /\ Z.of_nat (length v) < 536870912).
    { intros attrs a v Ea Ha Hv. rewrite Ea in G5. cbn in G5. rewrite Forall_forall in G5. destruct (G5 a Ha) as (_ & G). rewrite Forall_forall in G.
      split; [apply G; assumption|]. enough (length v <= length content)%nat by lia.
      assert (P : forall T l p, In p l -> (length p <= length (ObjectsSpec.tlv T (concat l)))%nat).
      { intros T l p Hp. pose proof (tlv_length T (concat l)). enough (length p <= length (concat l))%nat by lia. clear - Hp.
        induction l as [|q l IH]; [contradiction|]. cbn [concat]. rewrite app_length. destruct Hp as [->|Hp]; [lia|]. apply IH in Hp. lia. }
      transitivity (length (SET (at_values a))); [apply P; assumption|].
      transitivity (length (der_attribute a)); [apply P; right; left; reflexivity|].
      transitivity (length (der_attributes 0 attrs)); [apply P; apply in_map; assumption|].
      transitivity (length (der_signer si ski)); [apply P; rewrite Ea; cbn [In OPTIONAL]; tauto|].
      transitivity (length (SET (map (fun s => der_signer (fst s) (snd s)) [(si, ski)]))); [apply P; left; reflexivity|].
      apply P. cbn [In]. tauto. }
    assert (At : forall attrs, si_attrs si = Some attrs -> sd_ectype sd <> [] ->
      (attributes_ok dec_oid dec_octets sha256 sd attrs <-> exists ks, Forall2 (attribute_der sha256 sd) attrs ks /\ Permutation ks [ContentType; SignedDataSpec.MessageDigest; SigningTime])).
    { intros attrs Ea Hne.
      assert (K : forall a k, In a attrs -> (attribute_ok dec_oid dec_octets sha256 sd a k <-> attribute_der sha256 sd a k)).
      { intros a k Ha. unfold attribute_ok, attribute_der. split; intros (N & v & Ev & H); (split; [assumption|]); exists v; (split; [assumption|]);
          (destruct (Small attrs a v Ea Ha ltac:(rewrite Ev; left; reflexivity)) as (S1 & S2)); destruct k; try exact I.
        - apply oid_value in H; [apply H|assumption..].
        - destruct H as (c & d & H1 & H2 & H3). exists c, d. apply octets_value in H2; [auto|assumption..|]. eapply H36; [exact Ea|exact Ha|rewrite Ev; left; reflexivity].
        - apply oid_value; [assumption..|]. split; assumption.
        - destruct H as (c & d & H1 & H2 & H3). exists c, d. split; [assumption|]. split; [|assumption]. apply octets_value; [assumption..| |assumption].
          eapply H36; [exact Ea|exact Ha|rewrite Ev; left; reflexivity]. }
      unfold attributes_ok. split; intros (ks & H1 & H2); exists ks; (split; [|assumption]); clear - H1 K;
        (induction H1 as [|a k l ks' Hak H1 IH]; [constructor|]; constructor; [apply K; [left; reflexivity|assumption]|apply IH; intros; apply K; right; assumption]). }
    assert (Ne : names (sd_ectype sd) oid -> sd_ectype sd <> []).
    { intros (v & vs & Hs & _) Q. rewrite Q in Hs. inversion Hs as [|b bs v' vs' Hs1 Hs2 Es]; subst. apply app_eq_nil in Es. destruct Es as (-> & _).
      inversion Hs1 as [cont ? _ _ Ec]. destruct cont; discriminate. }
    assert (Sig : forall x attrs certs, si_attrs si = Some attrs -> sd_certs sd = Some certs ->
      (certificate_validate_signature (evp_verify x) frames (content ++ 0 :: slack) (length content) (si_signature si) = Ok tt
       <-> evp_verify x (SET (map der_attribute attrs)) (si_signature si) = true)).
    { intros x attrs certs Ea Ec. destruct (attributes_at OCTET_STRING sd si ski certs attrs Ec Ea Hcb Hrc) as (r & Hat).
      apply (C61_covers (evp_verify x) frames content (content ++ 0 :: slack) (si_signature si) _ _ r) in Hat; [apply Hat| |lia|lia].
      split; [assumption|]. exists slack. auto. }
    change (match id_signed_data with [] => None | _ => Some (id_signed_data, content ++ 0 :: slack, length content) end)
      with (Some (id_signed_data, content ++ 0 :: slack, length content)).
    clearbody file. clearbody content. generalize id_signed_data Nm. clear Nm. intros idsd Nm. split.
    - intros (type & c & Q & _ & Hc & Hok). injection Q as <- Q _. apply app_inv_tail in Q. subst c. apply Hh in Hc. subst sd'. split; [reflexivity|].
      destruct Hok as [O1 O2 O3 O4 (si' & ski' & attrs & c & P1 & P2 & P3 & P4 & P5 & P6 & P7 & P8 & P9 & x & pol & Q1 & Q2 & Q3 & Q4 & Q5 & Q6 & Q7)].
      rewrite F7 in P1. cbn [map fst] in P1. injection P1 as <-. rewrite G2 in P3. injection P3 as <-.
      apply (At attrs P5 (Ne O3)) in P6. destruct P6 as (ks & K1 & K2). apply (Sig x attrs [c] P5 P9) in Q6.
      constructor; try assumption. exists attrs, ks, c, x, pol. auto 20.
    - intros (-> & [O1 O2 O3 P2 P4 P7 P8 (attrs & ks & c & x & pol & P5 & K1 & K2 & P9 & Q1 & Q2 & Q3 & Q4 & Q5 & Q6 & Q7)]).
      exists idsd, content. split; [reflexivity|]. split; [assumption|]. split; [apply Hh; reflexivity|].
      constructor; try assumption; [left; assumption|].
      exists si, ski, attrs, c. rewrite F7. cbn [map fst]. split; [reflexivity|]. split; [assumption|]. split; [assumption|]. split; [assumption|]. split; [assumption|].
      split; [apply (At attrs P5 (Ne O3)); exists ks; auto|]. split; [assumption|]. split; [assumption|]. split; [assumption|].
      exists x, pol. split; [assumption|]. split; [assumption|]. split; [assumption|]. split; [assumption|]. split; [assumption|]. split; [|assumption].
      apply (Sig x attrs [c] P5 P9). assumption.
  Qed.
End C70.

(** ** Examples *)

Definition toy_sha256 (c : list Z) : option (list Z) := Some [Z.of_nat (length c); fold_left Z.add c 0 mod 256].
Definition ex_roa_oid : list Z := [42; 134; 72; 134; 247; 13; 1; 9; 16; 1; 24].
Definition ex_attr (n : Z) (value : list Z) : attribute := {| at_type := [42; 134; 72; 134; 247; 13; 1; 9; n]; at_values := [value] |}.
Definition ex_attrs : list attribute :=
  [ex_attr 3 (OBJECT_IDENTIFIER ex_roa_oid); ex_attr 5 [23; 1; 48]; ex_attr 4 (OCTET_STRING [3; 6])].
Definition ex_si : signer_info :=
  {| si_version := [3]; si_sid := SidSKI [7; 7]; si_digest := {| al_oid := sha256_bytes; al_params := None |};
     si_attrs := Some ex_attrs; si_sigalg := {| al_oid := rsa_bytes; al_params := Some SignedDataSpec.null_bytes |};
     si_signature := [99]; si_unsigned := None |}.
Definition ex_signed : signed_data :=
  {| sd_version := [3]; sd_digests := [{| al_oid := sha256_bytes; al_params := None |}];
     sd_ectype := ex_roa_oid; sd_econtent := Some [1; 2; 3]; sd_certs := Some [[48; 3; 2; 1; 5]];
     sd_crls := None; sd_signers := [ex_si] |}.

Section Toy.
  Context (verify : unit -> list Z -> list Z -> bool).
  Definition toy_read := read_signed_object toy_sha256 INAC_IGNORE (fun c => Some (tt, length c)) (fun _ : unit => Ok tt) (fun _ => Ok tt)
    (fun _ ski => Ok (ski, RPKI_POLICY_RFC6484)) (fun _ _ => Ok tt) verify (fun _ _ => Ok tt) [] false 2 [1; 2; 840; 113549; 1; 9; 16; 1; 24] 400.
End Toy.

Lemma ex_fine : signed_data_fine ex_signed [(ex_si, [7; 7])].
Proof.
  split; [all_bytes|]. split; [constructor; [split; [all_bytes|exact I]|constructor]|]. split; [all_bytes|]. split; [all_bytes|].
  split. { constructor; [|constructor]. change [48; 3; 2; 1; 5] with (ObjectsSpec.tlv (0 * 64 + 32 + 16) (concat [ObjectsSpec.tlv (0 * 64 + 2) [5]])).
    apply any_constructed; [lia|lia|]. constructor; [|constructor]. constructor; [lia|lia|all_bytes]. }
  split; [reflexivity|]. split; [reflexivity|]. constructor; [|constructor]. cbn [fst snd].
  split; [all_bytes|]. split; [reflexivity|]. split; [all_bytes|]. split; [split; [all_bytes|exact I]|]. split.
  { assert (P : forall T c, 0 <= T < 31 -> bytes c -> any_der (ObjectsSpec.tlv (0 * 64 + T) c)) by (intros; constructor; [lia|lia|assumption]).
    constructor; [|constructor; [|constructor; [|constructor]]]; (split; [all_bytes|]); (constructor; [|constructor]).
    - apply (P 6); [lia|all_bytes].
    - apply (P 23 [48]); [lia|all_bytes].
    - apply (P 4); [lia|all_bytes]. }
  split; [split; [all_bytes|exact ex_any_null]|]. split; [all_bytes|exact I].
Qed.

Example C70_example :
  let file := der_content_info id_signed_data (der_signed_data ex_signed [(ex_si, [7; 7])]) in
  signed_data_fine ex_signed [(ex_si, [7; 7])] /\
  toy_read (fun _ m _ => list_eqb Z.eqb m (SET (map der_attribute ex_attrs))) file = Ok (ex_signed, [7; 7], tt) /\
  toy_read (fun _ m _ => negb (list_eqb Z.eqb m (SET (map der_attribute ex_attrs)))) file = Err EINVAL.
Proof. split; [exact ex_fine|]. split; vm_compute; reflexivity. Qed.

(** The same object, its attributes with the indefinite length. *)
Definition ex_content_indefinite (digest : list Z) (content : list Z) : list Z :=
  SEQUENCE [INTEGER [3]; SET (map der_alg (sd_digests ex_signed));
            SEQUENCE [OBJECT_IDENTIFIER ex_roa_oid; CONTEXT 0 (OCTET_STRING content)];
            CONTEXT 0 [48; 3; 2; 1; 5];
            SET [SEQUENCE [INTEGER [3]; CONTEXT_PRIMITIVE 0 [7; 7]; der_alg (si_digest ex_si);
              [160; 128] ++ concat (map der_attribute [ex_attr 3 (OBJECT_IDENTIFIER ex_roa_oid); ex_attr 5 [23; 1; 48]; ex_attr 4 (OCTET_STRING digest)]) ++ [0; 0];
              der_alg (si_sigalg ex_si); OCTET_STRING [99]]]].
Definition ex_indefinite (digest content : list Z) : list Z := der_content_info id_signed_data (ex_content_indefinite digest content).

(** The attributes of an accepted file need not be signed: with the indefinite
    length, a signature of the single octet 49 lets any attributes, and hence
    any content, through. *)
Theorem C70_indefinite_refuted :
  let verify (_ : unit) m (_ : list Z) := list_eqb Z.eqb m [49] in
  ~ (forall file sd rf rs, bytes file -> toy_read verify file = Ok (sd, rf, rs) ->
       exists si attrs m, sd_signers sd = [si] /\ si_attrs si = Some attrs /\ encodes_attributes m attrs /\ verify tt m (si_signature si) = true)
  /\ (exists sd1 sd2, toy_read verify (ex_indefinite [3; 6] [1; 2; 3]) = Ok (sd1, [7; 7], tt)
       /\ toy_read verify (ex_indefinite [2; 12] [5; 7]) = Ok (sd2, [7; 7], tt)
       /\ sd_econtent sd1 = Some [1; 2; 3] /\ sd_econtent sd2 = Some [5; 7]
       /\ map si_signature (sd_signers sd1) = map si_signature (sd_signers sd2)).
Proof.
  intros verify.
  assert (E1 : exists sd, toy_read verify (ex_indefinite [3; 6] [1; 2; 3]) = Ok (sd, [7; 7], tt) /\ sd_econtent sd = Some [1; 2; 3] /\ map si_signature (sd_signers sd) = [[99]])
    by (eexists; split; [vm_compute; reflexivity|split; reflexivity]).
  assert (E2 : exists sd, toy_read verify (ex_indefinite [2; 12] [5; 7]) = Ok (sd, [7; 7], tt) /\ sd_econtent sd = Some [5; 7] /\ map si_signature (sd_signers sd) = [[99]])
    by (eexists; split; [vm_compute; reflexivity|split; reflexivity]).
  destruct E1 as (sd1 & E1 & F1 & G1). destruct E2 as (sd2 & E2 & F2 & G2). split.
  - intros H. assert (B : bytes (ex_indefinite [3; 6] [1; 2; 3])).
    { assert (B : forallb (fun b => (0 <=? b) && (b <? 256)) (ex_indefinite [3; 6] [1; 2; 3]) = true) by (vm_compute; reflexivity).
      apply Forall_forall. intros b Hb. rewrite forallb_forall in B. apply B in Hb. unfold is_byte. lia. }
    destruct (H _ _ _ _ B E1) as (si & attrs & m & _ & _ & (v & He & _) & V).
    unfold verify in V. apply (list_eqb_spec Z.eqb Z.eqb_eq) in V. subst m.
    apply (proj1 enc_tlv) in He; [|all_bytes|reflexivity|reflexivity]. destruct He as ((T & cl & cb & num & X & Q & HT & _ & HX) & _).
    assert (L1 : (1 <= length T)%nat) by (destruct HT; cbn [length]; lia). assert (L2 : (1 <= length X)%nat).
    { inversion HX as [? L ? ? HL|]; subst; [|cbn [length]; lia]. rewrite app_length. enough (1 <= length L)%nat by lia. destruct L; [|cbn [length]; lia]. exfalso. destruct HL as [HL|HL]; [inversion HL|destruct HL as (_ & HL & _); discriminate]. }
    apply (f_equal (@List.length Z)) in Q. rewrite app_length in Q. cbn [length] in Q. lia.
  - exists sd1, sd2. rewrite G1, G2. auto.
Qed.

Print Assumptions C70_exact.
Print Assumptions C70_signed_partial.
Print Assumptions C70_no_crash.
Print Assumptions C70_der.
Print Assumptions C70_indefinite_refuted.
