(** C67: the objects, from their DER bytes to the records the validator works on. *)
From Coq Require Import Lia.
From Verif Require Import Base BaseLemmas Asn1 Ber BerSpec BerProofs BerProofs4 Address Resources Roa Manifest ManifestSpec ManifestProofs SignedData SignedDataSpec.
From Verif Require Import Asn1Dec Asn1DecSpec Asn1Types Asn1DecProps Asn1Check Asn1Constraints Asn1CheckSpec Asn1CheckProofs Asn1CheckProps.
From Verif Require Import Objects ObjectsSpec ObjectsProofs ObjectsProofs2 ObjectsProofs3 ObjectsProofs4 ObjectsProofs5.
Notation length := List.length.

Ltac known := cbn [decoded_types In]; tauto.

(** The encodings the RFCs prescribe are decoded to what they say. *)
Theorem C67_roa nobuf turns version asid blocks rest : (2 <= turns)%nat -> bytes rest ->
  roa_fine version asid blocks -> reasonable (der_roa version asid blocks) ->
  decode_roa nobuf turns (der_roa version asid blocks ++ rest) = Some (roa_of version asid blocks).
Proof.
  intros Hturns Hrest Hf Hr. unfold decode_roa. pose proof (enc_roa _ _ _ Hf Hr) as He.
  rewrite (decode_known nobuf turns t_RouteOriginAttestation _ _ rest _ ltac:(known) (roa_bytes _ _ _ Hf) Hrest Hturns He).
  rewrite roa_check by (eapply enc_shaped; [exact He|apply roa_bytes; assumption]). apply view_roa_val.
Qed.

Lemma manifest_check nobuf version number this next alg files : bytes number ->
  (check nobuf k_Manifest (val_manifest version number this next alg files) = Pass /\ manifest_passes version number this)
  \/ (check nobuf k_Manifest (val_manifest version number this next alg files) = Reject /\ ~ manifest_passes version number this).
Proof.
  intros Hb. unfold manifest_passes. destruct version as [v|]; [left; split; [reflexivity|discriminate]|].
  change (check nobuf k_Manifest (val_manifest None number this next alg files))
    with (match (match number with [] => Pass | b :: _ => if Z.land b 128 =? 0 then Pass else Reject end) with
        | Pass => match asn_GT2time this with Ok (Some _) => Pass | Ok None => Reject | _ => Aborts end
        | r => r end).
  assert (E : (match number with [] => Pass | b :: _ => if Z.land b 128 =? 0 then Pass else Reject end = Pass
               /\ (number = [] \/ exists b number', number = b :: number' /\ b < 128))
           \/ (match number with [] => Pass | b :: _ => if Z.land b 128 =? 0 then Pass else Reject end = Reject
               /\ ~ (number = [] \/ exists b number', number = b :: number' /\ b < 128))).
  { destruct number as [|b number]; [left; tauto|]. inversion Hb as [|x l Hx Hl]; subst. rewrite land128 by assumption.
    destruct (Z.ltb_spec b 128); [left|right]; (split; [reflexivity|]).
    - right. eauto.
    - intros [Q|(x & l & E & Hlt)]; [discriminate|]. injection E as <- <-. lia. }
  destruct E as [(-> & E)|(-> & E)]; [|right; split; [reflexivity|]; intros Q; destruct (Q eq_refl); contradiction].
  destruct (gt_cases this) as [E'|(y & mo & d & h & mi & se & Ht & Hr & ->)].
  - rewrite E'. right. split; [reflexivity|]. intros Q. destruct (Q eq_refl) as (_ & y & mo & d & h & mi & s & Ht & Hr).
    pose proof (gt_complete _ _ _ _ _ _ _ Ht Hr) as Q'. congruence.
  - left. split; [reflexivity|]. intros _. split; [assumption|]. exists y, mo, d, h, mi, se. split; [assumption|exact Hr].
Qed.

Definition manifest_of (version : option (list Z)) (number this next alg : list Z) (files : list fah) : manifest :=
  {| m_version := option_map asn_INTEGER2ulong version; m_number := number; m_this := this; m_next := next;
     m_alg := match validate_cms_hashing_algorithm_oid alg with Ok tt => 0 | _ => -22 end; m_files := files |}.

Theorem C67_manifest nobuf turns version number this next alg files rest : (2 <= turns)%nat -> bytes rest ->
  manifest_fine version number this next alg files -> reasonable (der_manifest version number this next alg files) ->
  let bs := der_manifest version number this next alg files ++ rest in
  (manifest_passes version number this -> decode_manifest nobuf turns bs = Some (manifest_of version number this next alg files))
  /\ (~ manifest_passes version number this -> decode_manifest nobuf turns bs = None).
Proof.
  intros Hturns Hrest (Hv & Hn & Ht & Hx & Ha & Hf) Hr. cbn zeta. unfold decode_manifest.
  rewrite (decode_known nobuf turns t_Manifest _ _ rest _ ltac:(known) (manifest_bytes _ _ _ _ _ _ Hv Hn Ht Hx Ha Hf) Hrest Hturns
    (enc_manifest _ _ _ _ _ _ Hf Hr)).
  destruct (manifest_check nobuf version number this next alg files Hn) as [(-> & P)|(-> & P)].
  - split; [intros _; apply view_manifest_val|contradiction].
  - split; [contradiction|reflexivity].
Qed.

Lemma empty_prefix_val a : aor_fine a -> empty_prefix (val_aor a) <-> begins_empty a.
Proof. destruct a as [[[|b p] u]|[[|b lo] u] hi|]; intros Ha; cbn; [tauto|split; [contradiction|discriminate]|tauto|split; [contradiction|discriminate]|contradiction]. Qed.

Lemma family_fine_val nobuf f : ip_family_fine f -> family_fine nobuf (val_ip_family f) <-> family_passes nobuf f.
Proof.
  destruct f as [f c]. intros (_ & Hc). cbn [f_choice] in Hc. unfold family_fine, family_passes, val_ip_family. cbn [f_family f_choice]. split.
  - intros (f' & b & E & Hl & H). injection E as <- <-. split; [assumption|]. intros Hn l -> a Ha. rewrite Forall_forall in Hc.
    rewrite <- empty_prefix_val by auto. apply (H Hn _ eq_refl). apply in_map. assumption.
  - intros (Hl & H). exists f, (val_ip_choice c). split; [reflexivity|]. split; [assumption|]. intros Hn vs E x Hx.
    destruct c as [| |l]; [contradiction|discriminate|]. injection E as <-. apply in_map_iff in Hx. destruct Hx as (a & <- & Ha).
    rewrite Forall_forall in Hc. rewrite empty_prefix_val by auto. apply (H Hn l eq_refl a Ha).
Qed.

Theorem C67_ip_blocks nobuf turns l rest : (2 <= turns)%nat -> bytes rest ->
  Forall ip_family_fine l -> reasonable (der_ip_blocks l) ->
  (Forall (family_passes nobuf) l -> decode_ip_blocks nobuf turns (der_ip_blocks l ++ rest) = Some l)
  /\ (~ Forall (family_passes nobuf) l -> decode_ip_blocks nobuf turns (der_ip_blocks l ++ rest) = None).
Proof.
  intros Hturns Hrest Hl Hr. unfold decode_ip_blocks. pose proof (enc_ip_blocks _ Hl Hr) as He. pose proof (ip_blocks_bytes _ Hl) as Hb.
  rewrite (decode_known nobuf turns t_IPAddrBlocks _ _ rest _ ltac:(known) Hb Hrest Hturns He).
  apply enc_shaped in He; [|assumption]. destruct (blocks_check nobuf _ He) as (vs & E & Q). injection E as <-.
  assert (F : Forall (family_fine nobuf) (map val_ip_family l) <-> Forall (family_passes nobuf) l).
  { rewrite !Forall_forall. rewrite Forall_forall in Hl. split; intros H.
    - intros f Hf. apply family_fine_val; [auto|]. apply H. apply in_map. assumption.
    - intros v Hv. apply in_map_iff in Hv. destruct Hv as (f & <- & Hf). apply family_fine_val; auto. }
  destruct Q as [(-> & Q)|(-> & Q)].
  - split; [intros _; apply view_ip_blocks_val; assumption|tauto].
  - split; [tauto|reflexivity].
Qed.

Theorem C67_as_ids nobuf turns num rdi rest : (2 <= turns)%nat -> bytes rest ->
  match num with Some c => as_choice_fine c | None => True end -> match rdi with Some c => as_choice_fine c | None => True end ->
  reasonable (der_as_ids num rdi) ->
  decode_as_ids nobuf turns (der_as_ids num rdi ++ rest)
  = Some {| as_num := num; as_rdi := match rdi with Some _ => true | None => false end |}.
Proof.
  intros Hturns Hrest Hn Hd Hr. unfold decode_as_ids. pose proof (enc_as_ids _ _ Hn Hd Hr) as He. pose proof (as_ids_bytes _ _ Hn Hd) as Hb.
  rewrite (decode_known nobuf turns t_ASIdentifiers _ _ rest _ ltac:(known) Hb Hrest Hturns He).
  rewrite asidentifiers_check by (eapply enc_shaped; [exact He|assumption]). apply view_as_ids_val. assumption.
Qed.

Theorem C67_signed_data nobuf turns sd signers rest : (2 <= turns)%nat -> bytes rest ->
  signed_data_fine sd signers -> reasonable (der_signed_data sd signers) ->
  decode_signed_data nobuf turns (der_signed_data sd signers ++ rest) = Some sd.
Proof.
  intros Hturns Hrest Hs Hr. unfold decode_signed_data. pose proof (enc_signed_data _ _ Hs Hr) as He. pose proof (signed_data_bytes _ _ Hs) as Hb.
  rewrite (decode_known nobuf turns t_SignedData _ _ rest _ ltac:(known) Hb Hrest Hturns He).
  rewrite signed_data_check by (eapply enc_shaped; [exact He|assumption]). apply view_signed_data_val. assumption.
Qed.

(** The content of a PKCS #7 object may be anything encoded. *)
Theorem C67_signed_data_pkcs7 nobuf turns sd signers rest : (2 <= turns)%nat -> bytes rest ->
  signed_data_fine sd signers -> match sd_econtent sd with Some c => any_der c | None => True end ->
  reasonable (der_signed_data_pkcs7 sd signers) ->
  decode_signed_data_pkcs7 nobuf turns (der_signed_data_pkcs7 sd signers ++ rest) = Some (sd, sd_econtent sd).
Proof.
  intros Hturns Hrest Hs Hc Hr. unfold decode_signed_data_pkcs7. pose proof (enc_signed_data_pkcs7 _ _ Hs Hc Hr) as He.
  pose proof (signed_data_pkcs7_bytes _ _ Hs) as Hb.
  rewrite (decode_known nobuf turns t_SignedDataPKCS7 _ _ rest _ ltac:(known) Hb Hrest Hturns He).
  rewrite signed_data_pkcs7_check by (eapply enc_shaped; [exact He|assumption]). cbn [got]. rewrite view_signed_data_val by assumption. reflexivity.
Qed.

Theorem C67_content_info slack nobuf turns type content rest : (2 <= turns)%nat -> bytes rest ->
  bytes type -> any_der content -> reasonable (der_content_info type content) ->
  decode_content_info slack nobuf turns (der_content_info type content ++ rest)
  = match type with [] => None | _ => Some (type, content ++ slack, length content) end.
Proof.
  intros Hturns Hrest Ht Hc Hr. unfold decode_content_info.
  rewrite (decode_known nobuf turns t_ContentInfo _ _ rest _ ltac:(known) (content_info_bytes _ _ Ht Hc) Hrest Hturns (enc_content_info _ _ Hc Hr)).
  destruct type; reflexivity.
Qed.

Theorem C67_primitives nobuf turns b rest : (2 <= turns)%nat -> bytes rest -> bytes b -> Z.of_nat (length b) < 536870912 ->
  decode_oid nobuf turns (OBJECT_IDENTIFIER b ++ rest) = match b with [] => None | _ => Some b end
  /\ decode_octets nobuf turns (OCTET_STRING b ++ rest) = Some b.
Proof.
  intros Hturns Hrest Hb Hl.
  assert (Hr : forall T, reasonable (tlv T b)).
  { intros T. unfold reasonable, tlv. cbn [length]. rewrite app_length.
    assert (length (len_octets (Z.of_nat (length b))) <= 9)%nat; [|lia]. unfold len_octets.
    destruct (Z.of_nat (length b) <? 128); cbn [length]; [lia|].
    pose proof (digits256_length 8 (Z.of_nat (length b)) []). cbn [length] in *. lia. }
  split.
  - unfold decode_oid. rewrite (decode_known nobuf turns t_OBJECT_IDENTIFIER _ (OBJECT_IDENTIFIER b) rest (VBytes b));
      [destruct b; reflexivity|known|apply tlv_bytes; [octet|assumption]|assumption|assumption|].
    unfold OBJECT_IDENTIFIER. prim. apply Hr.
  - unfold decode_octets. rewrite (decode_known nobuf turns t_MessageDigest _ (OCTET_STRING b) rest (VBytes b));
      [reflexivity|known|apply tlv_bytes; [octet|assumption]|assumption|assumption|].
    unfold OCTET_STRING. prim. apply Hr.
Qed.

(** And whatever else the decoder accepts, it leaves a complete structure, of
    bytes, and bit strings whose unused bits are zero. *)
Lemma accepted_shaped nobuf turns t k bs v : In t decoded_types -> bytes bs -> (2 <= turns)%nat ->
  asn1_decode nobuf turns t k bs = Accepted v -> shaped t v /\ check nobuf k v = Pass.
Proof.
  intros Ht Hb Hturns H. apply accepted_iff in H; [|assumption..]. destruct H as ((n & _ & He) & Hc). split; [|assumption].
  eapply enc_shaped; [exact He|apply bytes_firstn; assumption].
Qed.

Ltac accepted H := apply accepted_shaped in H; [|known|assumption..]; destruct H as (H & Hc).

Theorem C67_roa_complete nobuf turns bs v : bytes bs -> (2 <= turns)%nat ->
  asn1_decode nobuf turns t_RouteOriginAttestation k_RouteOriginAttestation bs = Accepted v ->
  exists version asid blocks, decode_roa nobuf turns bs = Some (roa_of version asid blocks) /\ roa_fine version asid blocks.
Proof.
  intros Hb Hturns H. unfold decode_roa. rewrite H. accepted H. apply shaped_roa in H.
  destruct H as (version & asid & blocks & -> & Hf). exists version, asid, blocks. split; [apply view_roa_val|assumption].
Qed.

Theorem C67_manifest_complete nobuf turns bs v : bytes bs -> (2 <= turns)%nat ->
  asn1_decode nobuf turns t_Manifest k_Manifest bs = Accepted v ->
  exists version number this next alg files,
    decode_manifest nobuf turns bs = Some (manifest_of version number this next alg files)
    /\ manifest_fine version number this next alg files /\ manifest_passes version number this.
Proof.
  intros Hb Hturns H. unfold decode_manifest. rewrite H. accepted H. apply shaped_manifest in H.
  destruct H as (version & number & this & next & alg & files & -> & Hf). exists version, number, this, next, alg, files.
  split; [apply view_manifest_val|]. split; [assumption|].
  destruct (manifest_check nobuf version number this next alg files) as [(_ & P)|(Q & _)]; [apply Hf|assumption|congruence].
Qed.

Theorem C67_resources_complete nobuf turns bs : bytes bs -> (2 <= turns)%nat ->
  (forall v, asn1_decode nobuf turns t_IPAddrBlocks k_IPAddrBlocks bs = Accepted v ->
    exists l, decode_ip_blocks nobuf turns bs = Some l /\ Forall ip_family_fine l /\ Forall (family_passes nobuf) l)
  /\ (forall v, asn1_decode nobuf turns t_ASIdentifiers k_ASIdentifiers bs = Accepted v ->
    exists num rdi, decode_as_ids nobuf turns bs = Some {| as_num := num; as_rdi := rdi |}
      /\ match num with Some c => as_choice_fine c | None => True end).
Proof.
  intros Hb Hturns. split; intros v H.
  - unfold decode_ip_blocks. rewrite H. accepted H. pose proof (shaped_ip_blocks _ H) as (l & -> & Hl).
    exists l. split; [apply view_ip_blocks_val; assumption|]. split; [assumption|].
    destruct (blocks_check nobuf _ H) as (vs & E & Q). injection E as <-. destruct Q as [(_ & Q)|(Q & _)]; [|congruence].
    rewrite Forall_forall in Q, Hl |- *. intros f Hf. apply family_fine_val; [auto|]. apply Q. apply in_map. assumption.
  - unfold decode_as_ids. rewrite H. accepted H. apply shaped_as_ids in H. destruct H as (num & rdi & -> & Hn & Hd).
    eexists _, _. split; [apply view_as_ids_val; assumption|assumption].
Qed.

Theorem C67_signed_data_complete nobuf turns bs : bytes bs -> (2 <= turns)%nat ->
  (forall v, asn1_decode nobuf turns t_SignedData k_SignedData bs = Accepted v ->
    exists sd, decode_signed_data nobuf turns bs = Some sd /\ signed_data_bytes_only sd /\ sd_bytes sd)
  /\ (forall v, asn1_decode nobuf turns t_SignedDataPKCS7 k_SignedDataPKCS7 bs = Accepted v ->
    exists sd, decode_signed_data_pkcs7 nobuf turns bs = Some (sd, sd_econtent sd) /\ signed_data_bytes_only sd /\ sd_bytes sd)
  /\ (forall slack v, asn1_decode nobuf turns t_ContentInfo k_ContentInfo bs = Accepted v ->
    exists type content, decode_content_info slack nobuf turns bs = Some (type, content ++ slack, length content)
      /\ bytes type /\ type <> [] /\ bytes content).
Proof.
  intros Hb Hturns. split; [|split].
  - intros v H. unfold decode_signed_data. rewrite H. accepted H. apply shaped_signed_data in H. destruct H as (sd & E & Hs).
    exists sd. split; [exact E|]. split; [assumption|]. apply bytes_only_sd_bytes. assumption.
  - intros v H. unfold decode_signed_data_pkcs7. rewrite H. accepted H. apply shaped_signed_data_pkcs7 in H. destruct H as (sd & E & Hs).
    exists sd. cbn [got]. rewrite E. split; [reflexivity|]. split; [assumption|]. apply bytes_only_sd_bytes. assumption.
  - intros slack v H. unfold decode_content_info. rewrite H. accepted H. seq H. req H x Hx. req H y Hy. fin H.
    apply shaped_prim in Hx. destruct Hx as (t & -> & Ht). apply shaped_any in Hy. destruct Hy as (c & -> & Hcb).
    exists t, c. split; [reflexivity|]. split; [assumption|]. split; [|assumption]. intros ->. discriminate.
Qed.

(** ** A ROA, a manifest, resources and a signed object *)
Definition ex_addr : roa_addr := {| ra_address := {| bs_buf := [10; 64]; bs_unused := 6 |}; ra_max := Some [24] |}.
Definition ex_fah : fah := {| Manifest.f_file := [97; 46; 114; 111; 97]; Manifest.f_hash := [1; 2; 3]; Manifest.f_unused := 0 |}.
Definition ex_alg : alg_id := {| al_oid := [96; 134; 72; 1; 101; 3; 4; 2; 1]; al_params := Some [5; 0] |}.
Definition ex_signer : signer_info :=
  {| si_version := [3]; si_sid := SidSKI [1; 2; 3]; si_digest := ex_alg;
     si_attrs := Some [{| at_type := [42; 134; 72; 134; 247; 13; 1; 9; 3]; at_values := [[6; 3; 42; 3; 4]] |}];
     si_sigalg := ex_alg; si_signature := [7; 7; 7]; si_unsigned := None |}.
Definition ex_sd : signed_data :=
  {| sd_version := [3]; sd_digests := [ex_alg]; sd_ectype := [42; 3]; sd_econtent := Some [5; 5];
     sd_certs := Some [[48; 3; 2; 1; 5]]; sd_crls := None; sd_signers := [ex_signer] |}.

Ltac all_bytes := repeat (constructor; [unfold is_byte; lia|]); constructor.
Lemma ex_any_null : any_der [5; 0].
Proof. change [5; 0] with (tlv (0 * 64 + 5) []). constructor; [lia|lia|constructor]. Qed.

Example C67_example :
  (roa_fine None [1; 0; 0] [([0; 1], [ex_addr])] /\ reasonable (der_roa None [1; 0; 0] [([0; 1], [ex_addr])])
   /\ decode_roa false 2 (der_roa None [1; 0; 0] [([0; 1], [ex_addr])])
      = Some {| roa_version := None; roa_asid := [1; 0; 0];
                roa_blocks := Some [Some {| rb_family := [0; 1]; rb_addresses := Some [ex_addr] |}] |})
  /\ (signed_data_fine ex_sd [(ex_signer, [1; 2; 3])] /\ reasonable (der_signed_data ex_sd [(ex_signer, [1; 2; 3])])
      /\ decode_signed_data false 2 (der_signed_data ex_sd [(ex_signer, [1; 2; 3])]) = Some ex_sd)
  /\ (manifest_fine (Some [0]) [5] [50; 48] [50; 48] [42; 3] [ex_fah] /\ manifest_passes (Some [0]) [5] [50; 48]
      /\ decode_manifest false 2 (der_manifest (Some [0]) [5] [50; 48] [50; 48] [42; 3] [ex_fah])
         = Some {| m_version := Some (Some 0); m_number := [5]; m_this := [50; 48]; m_next := [50; 48]; m_alg := -22; m_files := [ex_fah] |})
  /\ decode_ip_blocks false 2 (der_ip_blocks [{| f_family := [0; 1]; f_choice := IPC_aors [AOR_range {| bs_buf := [10]; bs_unused := 0 |} {| bs_buf := [12]; bs_unused := 1 |}] |}])
     = Some [{| f_family := [0; 1]; f_choice := IPC_aors [AOR_range {| bs_buf := [10]; bs_unused := 0 |} {| bs_buf := [12]; bs_unused := 1 |}] |}]
  /\ decode_as_ids false 2 (der_as_ids (Some (ASC_iors [ASI_id [5]; ASI_range [7] [9]])) None)
     = Some {| as_num := Some (ASC_iors [ASI_id [5]; ASI_range [7] [9]]); as_rdi := false |}
  /\ decode_content_info [] false 2 (der_content_info [42; 3] [5; 0]) = Some ([42; 3], [5; 0], 2%nat).
Proof.
  assert (N : any_der [5; 0]) by apply ex_any_null.
  assert (A : alg_fine ex_alg) by (split; [all_bytes|exact N]).
  split; [|split; [|split]].
  - split; [|split; [reflexivity|vm_compute; reflexivity]]. split; [exact I|]. split; [all_bytes|].
    constructor; [|constructor]. split; [all_bytes|]. constructor; [|constructor]. split; [|all_bytes].
    split; [all_bytes|]. split; [cbn; lia|]. reflexivity.
  - split; [|split; [reflexivity|vm_compute; reflexivity]].
    split; [all_bytes|]. split; [constructor; [exact A|constructor]|]. split; [all_bytes|]. split; [all_bytes|].
    split. { constructor; [|constructor].
      change [48; 3; 2; 1; 5] with (tlv (0 * 64 + 32 + 16) (concat [tlv (0 * 64 + 2) [5]])).
      apply any_constructed; [lia|lia|]. constructor; [|constructor]. constructor; [lia|lia|all_bytes]. }
    split; [reflexivity|]. split; [reflexivity|]. constructor; [|constructor].
    split; [all_bytes|]. split; [reflexivity|]. split; [all_bytes|]. split; [exact A|]. split.
    { constructor; [|constructor]. split; [all_bytes|]. constructor; [|constructor].
      change [6; 3; 42; 3; 4] with (tlv (0 * 64 + 6) [42; 3; 4]). constructor; [lia|lia|all_bytes]. }
    split; [exact A|]. split; [all_bytes|exact I].
  - split; [|split; [discriminate|vm_compute; reflexivity]]. repeat (split; [all_bytes|]). constructor; [|constructor].
    split; [all_bytes|]. split; [all_bytes|]. split; [cbn; lia|]. reflexivity.
  - repeat (split; [vm_compute; reflexivity|]). vm_compute; reflexivity.
Qed.

Print Assumptions C67_roa.
Print Assumptions C67_manifest.
Print Assumptions C67_ip_blocks.
Print Assumptions C67_as_ids.
Print Assumptions C67_signed_data.
Print Assumptions C67_signed_data_pkcs7.
Print Assumptions C67_content_info.
Print Assumptions C67_primitives.
Print Assumptions C67_roa_complete.
Print Assumptions C67_manifest_complete.
Print Assumptions C67_resources_complete.
Print Assumptions C67_signed_data_complete.
