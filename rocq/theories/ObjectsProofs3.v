(** Proofs for C67: CMS. *)
From Coq Require Import Lia.
From Verif Require Import Base BaseLemmas Ber BerSpec BerProofs BerProofs4 Address Resources Roa Manifest SignedData.
From Verif Require Import Asn1Dec Asn1DecSpec Asn1Types Asn1Check Asn1Constraints Asn1CheckSpec Asn1CheckProofs Objects ObjectsSpec ObjectsProofs ObjectsProofs2.
Notation length := List.length.

Scheme any_mut := Induction for any_der Sort Prop with anys_mut := Induction for any_ders Sort Prop.
Combined Scheme any_mutind from any_mut, anys_mut.

Lemma octet_primitive cl num : 0 <= cl < 4 -> 0 <= num < 31 ->
  low (cl * 64 + num) /\ constructed_octet (cl * 64 + num) = false.
Proof.
  intros Hc Hn. unfold low, constructed_octet.
  assert (E : (cl * 64 + num) mod 32 = num) by (Z.div_mod_to_equations; lia).
  assert (E' : ((cl * 64 + num) / 32) mod 2 = 0) by (Z.div_mod_to_equations; lia).
  rewrite E, E'. split; [lia|reflexivity].
Qed.

Lemma octet_constructed cl num : 0 <= cl < 4 -> 0 <= num < 31 ->
  low (cl * 64 + 32 + num) /\ constructed_octet (cl * 64 + 32 + num) = true.
Proof.
  intros Hc Hn. unfold low, constructed_octet.
  assert (E : (cl * 64 + 32 + num) mod 32 = num) by (Z.div_mod_to_equations; lia).
  assert (E' : ((cl * 64 + 32 + num) / 32) mod 2 = 1) by (Z.div_mod_to_equations; lia).
  rewrite E, E'. split; [lia|reflexivity].
Qed.

Lemma any_bytes : (forall b, any_der b -> bytes b) /\ (forall ps, any_ders ps -> bytes (concat ps)).
Proof.
  apply any_mutind.
  - intros cl num body Hc Hn Hb. apply tlv_bytes; [|assumption]. destruct (octet_primitive cl num Hc Hn) as ((H & _) & _). unfold is_byte; lia.
  - intros cl num parts Hc Hn _ Hb. apply tlv_bytes; [|assumption]. destruct (octet_constructed cl num Hc Hn) as ((H & _) & _). unfold is_byte; lia.
  - constructor.
  - intros p ps _ H1 _ H2. cbn [concat]. apply Forall_app. split; assumption.
Qed.

Lemma any_segments : (forall b, any_der b -> reasonable b -> forall d, exists cs, segment (fun _ => None) d b cs)
  /\ (forall ps, any_ders ps -> reasonable (concat ps) -> forall d, exists cs, segments (fun _ => None) false d (concat ps) cs).
Proof.
  apply any_mutind.
  - intros cl num body Hc Hn Hb Hr d. destruct (octet_primitive cl num Hc Hn) as (HT & HC).
    exists [body]. rewrite tlv_app. constructor. rewrite <- HC. apply hdr_tlv; [assumption| |discriminate].
    unfold reasonable in Hr. pose proof (tlv_length (cl * 64 + num) body). lia.
  - intros cl num parts Hc Hn _ IH Hr d. destruct (octet_constructed cl num Hc Hn) as (HT & HC).
    destruct (IH (reasonable_inside _ _ Hr) (S d)) as (cs & Hcs). exists cs. rewrite tlv_app.
    eapply seg_constructed; [|exact Hcs]. constructor. rewrite <- HC. apply dchain_one; [assumption|assumption|discriminate].
  - intros _ d. exists []. constructor.
  - intros p ps _ IH1 _ IH2 Hr d. cbn [concat] in *. unfold reasonable in Hr. rewrite app_length in Hr.
    destruct (IH1 ltac:(unfold reasonable; lia) d) as (cs1 & H1). destruct (IH2 ltac:(unfold reasonable; lia) d) as (cs2 & H2).
    exists (cs1 ++ cs2). constructor; [assumption|discriminate|assumption].
Qed.

Lemma enc_any_der b : any_der b -> reasonable b -> enc t_ANY 0 b (VBytes b).
Proof.
  intros Hb Hr. destruct Hb as [cl num body Hc Hn Hb|cl num parts Hc Hn Hp].
  - destruct (octet_primitive cl num Hc Hn) as (HT & HC). rewrite tlv_app.
    apply (enc_any [] [] 0 (cl * 64 + num :: len_octets (Z.of_nat (length body))) body).
    + change (chain [] 0) with [@None Z]. rewrite <- HC. apply dchain_one; [assumption|assumption|discriminate].
    + exact Hr.
  - destruct (octet_constructed cl num Hc Hn) as (HT & HC).
    destruct (proj2 any_segments parts Hp (reasonable_inside _ _ Hr) 0%nat) as (cs & Hcs).
    assert (Hd : dchain [None] true (Z.of_nat (length (concat parts)))
              (cl * 64 + 32 + num :: len_octets (Z.of_nat (length (concat parts))))).
    { rewrite <- HC. apply dchain_one; [assumption|assumption|discriminate]. }
    rewrite tlv_app.
    apply (enc_any_constructed [] [] 0 _ (concat parts) cs).
    + left. eexists _, _. split; [reflexivity|]. exact Hd.
    + exists false. split; [|exact Hcs]. constructor. exact Hd.
    + exact Hr.
Qed.

(** EXPLICIT ANY. *)
Lemma enc_explicit_any n b : 0 <= n < 31 -> any_der b -> reasonable (CONTEXT n b) -> enc t_ANY 1 (CONTEXT n b) (VBytes b).
Proof.
  intros Hn Hb Hr.
  assert (E1 : (160 + n) mod 32 = n) by (Z.div_mod_to_equations; lia).
  assert (E2 : (160 + n) / 32 = 5) by (Z.div_mod_to_equations; lia).
  assert (Hd : dchain [None] true (Z.of_nat (length b)) (160 + n :: len_octets (Z.of_nat (length b)))).
  { replace true with (constructed_octet (160 + n)) by (unfold constructed_octet; rewrite E2; reflexivity).
    apply dchain_one; [split; lia|assumption|discriminate]. }
  pose proof (reasonable_inside _ _ Hr) as Hr'.
  destruct (proj2 any_segments [b] (any_more b [] Hb any_none)) with (d := 0%nat) as (cs & Hcs).
  { cbn [concat]. rewrite app_nil_r. assumption. }
  cbn [concat] in Hcs. rewrite app_nil_r in Hcs. unfold CONTEXT. rewrite tlv_app.
  apply (enc_any_constructed [] [] 1 _ b cs).
  - left. eexists _, _. split; [reflexivity|]. exact Hd.
  - exists false. split; [|exact Hcs]. constructor. exact Hd.
  - exact Hr'.
Qed.

Definition val_alg (a : alg_id) : value := VSeq [Some (VBytes (al_oid a)); option_map VBytes (al_params a)].

Lemma enc_alg a : alg_fine a -> reasonable (der_alg a) -> enc t_AlgorithmIdentifier 0 (der_alg a) (val_alg a).
Proof.
  destruct a as [oid p]. unfold alg_fine, der_alg, val_alg, SEQUENCE. cbn [al_oid al_params]. intros (Hb & Hp) Hr.
  apply enc_seq_tlv; [lia|reflexivity|lowtag|reflexivity|assumption|].
  cbn [concat]. unfold OBJECT_IDENTIFIER. present; [prim; part Hr|].
  destruct p as [p|]; cbn [OPTIONAL option_map].
  - constructor; [apply starts_none| |discriminate|constructor]. apply enc_any_der; [assumption|part Hr].
  - constructor; [lia|constructor].
Qed.

Definition val_attribute (a : attribute) : value := VSeq [Some (VBytes (at_type a)); Some (VOf (map VBytes (at_values a)))].

Lemma enc_anys etag l : (forall b, In b l -> starts etag b) -> Forall any_der l -> (forall b, In b l -> reasonable b) ->
  enc_elements false etag t_ANY (concat l) (map VBytes l).
Proof.
  intros Hs Hl Hr. rewrite Forall_forall in Hl. pose proof (elements_map etag t_ANY (fun b => b) VBytes l) as E. rewrite map_id in E.
  apply E. intros x Hx. split; [auto|]. apply enc_any_der; auto.
Qed.

Lemma enc_attribute a : attribute_fine a -> reasonable (der_attribute a) -> enc t_CMSAttribute 0 (der_attribute a) (val_attribute a).
Proof.
  destruct a as [t l]. unfold attribute_fine, der_attribute, val_attribute, SEQUENCE. cbn [at_type at_values]. intros (Hb & Hl) Hr.
  apply enc_seq_tlv; [lia|reflexivity|lowtag|reflexivity|assumption|].
  cbn [concat]. unfold OBJECT_IDENTIFIER. present; [prim; part Hr|].
  assert (Hs : reasonable (SET l)) by part Hr.
  unfold SET in *. present; [|constructor].
  apply enc_of_tlv; [lia|reflexivity|lowtag|reflexivity|assumption|].
  apply enc_anys; [intros; apply starts_none|assumption|]. intros b Hin. eapply reasonable_part; [exact Hs|assumption].
Qed.

Definition val_attributes (l : list attribute) : value := VOf (map val_attribute l).

Lemma enc_attributes n l : 0 <= n < 31 -> Forall attribute_fine l -> reasonable (der_attributes n l) ->
  enc t_SignedAttributes (-1) (der_attributes n l) (val_attributes l).
Proof.
  intros Hn Hl Hr. unfold der_attributes, CONTEXT, val_attributes in *.
  assert (E1 : (160 + n) mod 32 = n) by (Z.div_mod_to_equations; lia).
  assert (E2 : (160 + n) / 32 = 5) by (Z.div_mod_to_equations; lia).
  apply enc_of_tlv; [lia|lia|split; lia|unfold constructed_octet; rewrite E2; reflexivity|assumption|].
  apply elements_map. intros a Ha. split; [apply starts_seq|]. rewrite Forall_forall in Hl.
  apply enc_attribute; [auto|]. eapply reasonable_part; [exact Hr|]. apply in_map. assumption.
Qed.

Definition val_signer (s : signer_info * list Z) : value :=
  VSeq [Some (VBytes (si_version (fst s))); Some (VChoice 1 (VBytes (snd s))); Some (val_alg (si_digest (fst s)));
        option_map val_attributes (si_attrs (fst s)); Some (val_alg (si_sigalg (fst s))); Some (VBytes (si_signature (fst s)));
        option_map val_attributes (si_unsigned (fst s))].

Lemma enc_signer s : signer_fine (fst s) (snd s) -> reasonable (der_signer (fst s) (snd s)) ->
  enc t_SignerInfo 0 (der_signer (fst s) (snd s)) (val_signer s).
Proof.
  destruct s as [[ver sid dalg attrs salg sig unsigned] ski]. unfold signer_fine, der_signer, val_signer. cbn [fst snd si_version si_sid si_digest si_attrs si_sigalg si_signature si_unsigned].
  intros (Hv & _ & Hk & Hd & Ha & Hs & Hg & Hu) Hr. unfold SEQUENCE at 1. unfold SEQUENCE at 1 in Hr.
  apply enc_seq_tlv; [lia|reflexivity|lowtag|reflexivity|assumption|]. cbn [concat].
  unfold INTEGER. present; [prim; part Hr|].
  constructor; [apply starts_none| |discriminate|].
  { unfold CONTEXT_PRIMITIVE. eapply enc_choice; [reflexivity|apply leading_tlv; [lowtag|reflexivity]|].
    apply enc_octets_tlv; [lia|lia|lowtag|reflexivity|part Hr]. }
  unfold der_alg at 1, SEQUENCE at 1. present; [apply enc_alg; [assumption|part Hr]|].
  assert (Hlast : enc_members false
     [Member (Some 64) 0 0 false t_SignatureAlgorithmIdentifier; Member (Some 16) 0 0 false t_SignatureValue;
      Member (Some 6) (-1) 1 false t_UnsignedAttributes]
     (der_alg salg ++ OCTET_STRING sig ++ OPTIONAL (der_attributes 1) unsigned ++ [])
     [Some (val_alg salg); Some (VBytes sig); option_map val_attributes unsigned]).
  { unfold der_alg at 1, SEQUENCE at 1. present; [apply enc_alg; [assumption|part Hr]|].
    unfold OCTET_STRING. present; [prim; part Hr|].
    destruct unsigned as [l|]; cbn [OPTIONAL option_map].
    - unfold der_attributes at 1, CONTEXT. present; [|constructor]. apply (enc_attributes 1); [lia|assumption|part Hr].
    - constructor; [lia|constructor]. }
  destruct attrs as [l|]; cbn [OPTIONAL option_map].
  - unfold der_attributes at 1, CONTEXT. present; [|exact Hlast]. apply (enc_attributes 0); [lia|assumption|part Hr].
  - cbn [app]. constructor; [lia|exact Hlast].
Qed.

Definition val_signed_data (sd : signed_data) (signers : list (signer_info * list Z)) : value :=
  VSeq [Some (VBytes (sd_version sd)); Some (VOf (map val_alg (sd_digests sd)));
        Some (VSeq [Some (VBytes (sd_ectype sd)); option_map VBytes (sd_econtent sd)]);
        option_map (fun l => VOf (map VBytes l)) (sd_certs sd); None; Some (VOf (map val_signer signers))].

Lemma enc_signed_data_with f t_eci sd signers : signed_data_fine sd signers -> reasonable (der_signed_data_with f sd signers) ->
  (let eci := SEQUENCE [OBJECT_IDENTIFIER (sd_ectype sd); OPTIONAL (fun c => CONTEXT 0 (f c)) (sd_econtent sd)] in
   reasonable eci -> enc t_eci 0 eci (VSeq [Some (VBytes (sd_ectype sd)); option_map VBytes (sd_econtent sd)])) ->
  enc (TSeq [64] [(8, 0%nat); (64, 2%nat); (68, 1%nat); (68, 5%nat); (2, 3%nat); (6, 4%nat)]
    [Member (Some 8) 0 0 false t_CMSVersion; Member (Some 68) 0 0 false t_DigestAlgorithmIdentifiers;
     Member (Some 64) 0 0 false t_eci; Member (Some 2) (-1) 2 false t_CertificateSet;
     Member (Some 6) (-1) 1 false t_RevocationInfoChoices; Member (Some 68) 0 0 false t_SignerInfos])
    0 (der_signed_data_with f sd signers) (val_signed_data sd signers).
Proof.
  destruct sd as [ver digests ectype econtent certs crls sgn]. unfold signed_data_fine, der_signed_data_with, val_signed_data.
  cbn [sd_version sd_digests sd_ectype sd_econtent sd_certs sd_crls sd_signers]. cbn zeta.
  intros (Hv & Hd & He & Hc & Hce & Hcr & Hsg & Hs) Hr Heci. unfold SEQUENCE at 1. unfold SEQUENCE at 1 in Hr.
  apply enc_seq_tlv; [lia|reflexivity|lowtag|reflexivity|assumption|]. cbn [concat].
  unfold INTEGER. present; [prim; part Hr|].
  assert (R1 : reasonable (SET (map der_alg digests))) by part Hr.
  unfold SET at 1. present.
  { apply enc_of_tlv; [lia|reflexivity|lowtag|reflexivity|assumption|]. apply elements_map. intros a Ha. split; [apply starts_seq|].
    rewrite Forall_forall in Hd. apply enc_alg; [auto|]. eapply reasonable_part; [exact R1|]. apply in_map. assumption. }
  assert (R2 : reasonable (SEQUENCE [OBJECT_IDENTIFIER ectype; OPTIONAL (fun c => CONTEXT 0 (f c)) econtent])) by part Hr.
  unfold SEQUENCE at 1. present; [exact (Heci R2)|].
  assert (R3 : reasonable (SET (map (fun s => der_signer (fst s) (snd s)) signers))) by part Hr.
  assert (Hlast : enc_members false [Member (Some 6) (-1) 1 false t_RevocationInfoChoices; Member (Some 68) 0 0 false t_SignerInfos]
    (SET (map (fun s => der_signer (fst s) (snd s)) signers) ++ []) [None; Some (VOf (map val_signer signers))]).
  { constructor; [lia|]. unfold SET. present; [|constructor].
    apply enc_of_tlv; [lia|reflexivity|lowtag|reflexivity|assumption|]. apply elements_map. intros s Hin. split; [apply starts_seq|].
    rewrite Forall_forall in Hs. apply enc_signer; [apply (Hs s Hin)|]. eapply reasonable_part; [exact R3|].
    apply (in_map (fun s => der_signer (fst s) (snd s))). assumption. }
  destruct certs as [l|]; cbn [OPTIONAL option_map].
  - assert (R4 : reasonable (CONTEXT 0 (concat l))) by part Hr. unfold CONTEXT at 1. present; [|exact Hlast].
    apply enc_of_tlv; [lia|lia|lowtag|reflexivity|assumption|].
    apply enc_anys; [intros; apply starts_none|assumption|]. intros b Hin. eapply reasonable_part; [exact R4|assumption].
  - cbn [app]. constructor; [lia|exact Hlast].
Qed.

Lemma enc_signed_data sd signers : signed_data_fine sd signers -> reasonable (der_signed_data sd signers) ->
  enc t_SignedData 0 (der_signed_data sd signers) (val_signed_data sd signers).
Proof.
  intros Hs Hr. apply (enc_signed_data_with OCTET_STRING t_EncapsulatedContentInfo); [assumption..|]. cbn zeta. intros R2.
  unfold SEQUENCE in *. apply enc_seq_tlv; [lia|reflexivity|lowtag|reflexivity|assumption|]. cbn [concat]. revert R2.
  generalize (sd_econtent sd). intros econtent R2.
  unfold OBJECT_IDENTIFIER. present; [prim; part R2|]. destruct econtent as [c|]; cbn [OPTIONAL option_map].
  - unfold CONTEXT at 1. present; [|constructor]. apply (enc_explicit_octets 0); [lia|part R2].
  - constructor; [lia|constructor].
Qed.

Lemma enc_signed_data_pkcs7 sd signers : signed_data_fine sd signers ->
  match sd_econtent sd with Some c => any_der c | None => True end -> reasonable (der_signed_data_pkcs7 sd signers) ->
  enc t_SignedDataPKCS7 0 (der_signed_data_pkcs7 sd signers) (val_signed_data sd signers).
Proof.
  intros Hs Hc Hr. apply (enc_signed_data_with (fun c => c) t_EncapsulatedContentInfoPKCS7); [assumption..|]. cbn zeta. intros R2.
  unfold SEQUENCE in *. apply enc_seq_tlv; [lia|reflexivity|lowtag|reflexivity|assumption|]. cbn [concat]. revert R2 Hc.
  generalize (sd_econtent sd). intros econtent R2 Hc.
  unfold OBJECT_IDENTIFIER. present; [prim; part R2|]. destruct econtent as [c|]; cbn [OPTIONAL option_map].
  - unfold CONTEXT at 1. present; [|constructor]. apply (enc_explicit_any 0); [lia|assumption|part R2].
  - constructor; [lia|constructor].
Qed.

Lemma enc_content_info type content : any_der content -> reasonable (der_content_info type content) ->
  enc t_ContentInfo 0 (der_content_info type content) (VSeq [Some (VBytes type); Some (VBytes content)]).
Proof.
  intros Hc Hr. unfold der_content_info, SEQUENCE in *.
  apply enc_seq_tlv; [lia|reflexivity|lowtag|reflexivity|assumption|]. cbn [concat].
  unfold OBJECT_IDENTIFIER. present; [prim; part Hr|]. unfold CONTEXT at 1. present; [|constructor].
  apply (enc_explicit_any 0); [lia|assumption|part Hr].
Qed.

(** ** The views *)
Lemma view_list_ext {A B} (f : value -> option B) (g : A -> value) (h : A -> B) l :
  (forall x, In x l -> f (g x) = Some (h x)) -> view_list f (map g l) = Some (map h l).
Proof.
  induction l as [|x l IH]; intros H; [reflexivity|]. cbn [map view_list]. rewrite (H x (or_introl eq_refl)).
  rewrite IH by (intros y Hy; apply H; right; assumption). reflexivity.
Qed.

Lemma view_bytes_list l : view_list view_bytes (map VBytes l) = Some l.
Proof. rewrite (view_list_map view_bytes VBytes (fun x => x)), map_id by reflexivity. reflexivity. Qed.

Lemma view_alg_val a : view_alg (val_alg a) = Some a.
Proof. destruct a as [o p]. unfold view_alg, val_alg. cbn [al_oid al_params]. rewrite view_optional_bytes. reflexivity. Qed.

Lemma view_attributes_val l : view_attributes (val_attributes l) = Some l.
Proof.
  unfold view_attributes, val_attributes. rewrite (view_list_map view_attribute val_attribute (fun x => x)), map_id; [reflexivity|].
  intros [t vs]. unfold view_attribute, val_attribute. cbn [at_type at_values]. rewrite view_bytes_list. reflexivity.
Qed.

Lemma view_optional_attributes o : view_optional view_attributes (option_map val_attributes o) = Some o.
Proof. destruct o as [l|]; [|reflexivity]. cbn [option_map view_optional]. rewrite view_attributes_val. reflexivity. Qed.

Lemma view_signer_val s : si_sid (fst s) = SidSKI (snd s) -> view_signer (val_signer s) = Some (fst s).
Proof.
  destruct s as [[ver sid dalg attrs salg sig unsigned] ski]. cbn [fst snd si_sid]. intros ->.
  unfold view_signer, val_signer. cbn [fst snd si_version si_digest si_attrs si_sigalg si_signature si_unsigned view_sid].
  rewrite !view_alg_val, !view_optional_attributes. reflexivity.
Qed.

Lemma view_signed_data_val sd signers : signed_data_fine sd signers -> view_signed_data (val_signed_data sd signers) = Some sd.
Proof.
  destruct sd as [ver digests ectype econtent certs crls sgn]. unfold signed_data_fine.
  cbn [sd_version sd_digests sd_ectype sd_econtent sd_certs sd_crls sd_signers].
  intros (_ & _ & _ & _ & _ & -> & -> & Hs).
  unfold view_signed_data, val_signed_data. cbn [sd_version sd_digests sd_ectype sd_econtent sd_certs sd_crls sd_signers view_algs view_signers].
  rewrite (view_list_map view_alg val_alg (fun x => x)), map_id by apply view_alg_val.
  rewrite view_optional_bytes. rewrite (view_list_ext view_signer val_signer fst).
  2: { intros s Hin. rewrite Forall_forall in Hs. apply view_signer_val. apply (Hs s Hin). }
  cbn [view_optional]. destruct certs as [l|]; cbn [option_map view_optional view_anys]; [rewrite view_bytes_list|]; reflexivity.
Qed.
