(** Proofs for C67: whatever the decoder leaves is a structure of the type. *)
From Coq Require Import Lia.
From Verif Require Import Base BaseLemmas Asn1 Ber BerSpec BerProofs BerProofs4 Address Resources Roa Manifest SignedData SignedDataSpec.
From Verif Require Import Asn1Dec Asn1DecSpec Asn1Types Asn1Check Asn1Constraints Asn1CheckSpec Asn1CheckProofs.
From Verif Require Import Objects ObjectsSpec ObjectsProofs ObjectsProofs2 ObjectsProofs3 ObjectsProofs4.
Notation length := List.length.

Lemma shaped_of tags etag t v : shaped (TOf tags etag t) v -> exists vs, v = VOf vs /\ Forall (shaped t) vs.
Proof.
  destruct v as [| | | | |vs|]; try contradiction. intros H. exists vs. split; [reflexivity|].
  induction vs as [|x vs IH]; [constructor|]. destruct H. constructor; auto.
Qed.

Lemma shaped_prim tags v : shaped (TPrim tags) v -> exists bs, v = VBytes bs /\ bytes bs.
Proof. destruct v; try contradiction. intros H. eauto. Qed.
Lemma shaped_octets tags all v : shaped (TString STR tags all) v -> exists bs, v = VBytes bs /\ bytes bs.
Proof. destruct v; try contradiction. intros H. eauto. Qed.
Lemma shaped_any tags all v : shaped (TString ANY tags all) v -> exists bs, v = VBytes bs /\ bytes bs.
Proof. destruct v; try contradiction. intros H. eauto. Qed.

Lemma bit_string_der raw u bs : bytes bs -> Asn1DecSpec.bit_string raw u bs -> der_bits {| bs_buf := bs; bs_unused := u |}.
Proof.
  intros Hb H. unfold der_bits. cbn [bs_buf bs_unused]. split; [assumption|]. destruct H as [|bs b u Hu].
  - split; [lia|]. reflexivity.
  - split; [lia|]. rewrite rev_app_distr. cbn [rev app]. apply Z.mod_mul. assert (0 < 2 ^ u) by (apply Z.pow_pos_nonneg; lia). lia.
Qed.
Lemma shaped_bits tags all v : shaped (TString BIT tags all) v ->
  exists s, v = VBits (bs_buf s) (bs_unused s) /\ der_bits s.
Proof.
  destruct v as [|bs u| | | | |]; try contradiction. intros (Hb & raw & H). exists {| bs_buf := bs; bs_unused := u |}.
  split; [reflexivity|]. eapply bit_string_der; eassumption.
Qed.

(** One member of a sequence, present or not. *)
Lemma shaped_seq tags t2e ms v : shaped (TSeq tags t2e ms) v -> exists vs, v = VSeq vs /\ shaped (TSeq tags t2e ms) (VSeq vs).
Proof. destruct v; try contradiction. intros H. eauto. Qed.
Lemma shaped_member tags t2e tg md opt any t ms vs :
  shaped (TSeq tags t2e (Member tg md opt any t :: ms)) (VSeq vs) ->
  exists v vs', vs = v :: vs' /\ shaped (TSeq tags t2e ms) (VSeq vs')
    /\ match v with Some v => shaped t v | None => (0 < opt)%nat end.
Proof.
  destruct vs as [|[v|] vs]; [contradiction| |]; intros (H1 & H2); eexists _, vs; (split; [reflexivity|]); split; assumption.
Qed.
Lemma shaped_end tags t2e vs : shaped (TSeq tags t2e []) (VSeq vs) -> vs = [].
Proof. destruct vs; [reflexivity|contradiction]. Qed.
Lemma shaped_required tags t2e tg md any t ms vs :
  shaped (TSeq tags t2e (Member tg md 0 any t :: ms)) (VSeq vs) ->
  exists v vs', vs = Some v :: vs' /\ shaped (TSeq tags t2e ms) (VSeq vs') /\ shaped t v.
Proof. intros H. apply shaped_member in H. destruct H as ([v|] & vs' & -> & H1 & H2); [|lia]. eauto. Qed.

Ltac seq H := apply shaped_seq in H; let vs := fresh "vs" in destruct H as (vs & -> & H).
Ltac req H x Hx := apply shaped_required in H; let vs := fresh "vs" in destruct H as (x & vs & -> & H & Hx).
Ltac opt H x Hx := apply shaped_member in H; let vs := fresh "vs" in destruct H as (x & vs & -> & H & Hx).
Ltac fin H := apply shaped_end in H; subst.

(** A list of images. *)
Lemma images {A} (P : A -> Prop) (f : A -> value) t vs : (forall v, shaped t v -> exists x, v = f x /\ P x) ->
  Forall (shaped t) vs -> exists xs, vs = map f xs /\ Forall P xs.
Proof.
  intros H. induction 1 as [|v vs Hv _ (xs & -> & Hxs)].
  - exists []. split; [reflexivity|constructor].
  - destruct (H v Hv) as (x & -> & Hx). exists (x :: xs). split; [reflexivity|constructor; assumption].
Qed.

Lemma option_bytes tags v : match v with Some v => shaped (TPrim tags) v | None => (0 < 1)%nat end ->
  exists o, v = option_map VBytes o /\ match o with Some b => bytes b | None => True end.
Proof.
  destruct v as [v|]; intros H; [|exists None; split; [reflexivity|trivial]].
  apply shaped_prim in H. destruct H as (b & -> & Hb). exists (Some b). split; [reflexivity|assumption].
Qed.

(** ** ROAs *)
Lemma shaped_roa_addr v : shaped t_ROAIPAddress v -> exists a, v = val_roa_addr a /\ roa_addr_fine a.
Proof.
  intros H. seq H. req H x Hx. opt H y Hy. fin H. apply shaped_bits in Hx. destruct Hx as (s & -> & Hs).
  apply option_bytes in Hy. destruct Hy as (m & -> & Hm).
  exists {| ra_address := s; ra_max := m |}. split; [reflexivity|]. split; assumption.
Qed.
Lemma shaped_roa_block v : shaped t_ROAIPAddressFamily v ->
  exists b, v = val_roa_block b /\ bytes (fst b) /\ Forall roa_addr_fine (snd b).
Proof.
  intros H. seq H. req H x Hx. req H y Hy. fin H. apply shaped_octets in Hx. destruct Hx as (f & -> & Hf).
  apply shaped_of in Hy. destruct Hy as (l & -> & Hl). apply (images _ _ _ _ shaped_roa_addr) in Hl. destruct Hl as (xs & -> & Hxs).
  exists (f, xs). split; [reflexivity|]. split; assumption.
Qed.
Lemma shaped_roa v : shaped t_RouteOriginAttestation v ->
  exists version asid blocks, v = val_roa version asid blocks /\ roa_fine version asid blocks.
Proof.
  intros H. seq H. opt H x Hx. req H y Hy. req H z Hz. fin H. apply option_bytes in Hx. destruct Hx as (version & -> & Hv).
  apply shaped_prim in Hy. destruct Hy as (asid & -> & Ha). apply shaped_of in Hz. destruct Hz as (l & -> & Hl).
  apply (images _ _ _ _ shaped_roa_block) in Hl. destruct Hl as (xs & -> & Hxs).
  exists version, asid, xs. split; [reflexivity|]. split; [assumption|]. split; assumption.
Qed.

(** ** Manifests *)
Lemma shaped_file v : shaped t_FileAndHash v -> exists f, v = val_file f /\ file_fine f.
Proof.
  intros H. seq H. req H x Hx. req H y Hy. fin H. apply shaped_octets in Hx. destruct Hx as (f & -> & Hf).
  apply shaped_bits in Hy. destruct Hy as (s & -> & Hs). destruct s as [h u].
  exists {| Manifest.f_file := f; Manifest.f_hash := h; Manifest.f_unused := u |}. split; [reflexivity|]. split; assumption.
Qed.
Lemma shaped_manifest v : shaped t_Manifest v ->
  exists version number this next alg files, v = val_manifest version number this next alg files
    /\ manifest_fine version number this next alg files.
Proof.
  intros H. seq H. opt H x Hx. req H y Hy. req H z Hz. req H a Ha. req H b Hb. req H c Hc. fin H.
  apply option_bytes in Hx. destruct Hx as (version & -> & Hv).
  apply shaped_prim in Hy. destruct Hy as (number & -> & Hn). apply shaped_octets in Hz. destruct Hz as (this & -> & Ht).
  apply shaped_octets in Ha. destruct Ha as (next & -> & Hx). apply shaped_prim in Hb. destruct Hb as (alg & -> & Hg).
  apply shaped_of in Hc. destruct Hc as (l & -> & Hl). apply (images _ _ _ _ shaped_file) in Hl. destruct Hl as (xs & -> & Hxs).
  exists version, number, this, next, alg, xs. split; [reflexivity|]. repeat (split; [assumption|]). assumption.
Qed.

(** ** RFC 3779 *)
Lemma shaped_choice tags t2e ms v : shaped (TChoice tags t2e ms) v -> exists k v', v = VChoice k v'.
Proof. destruct v; try contradiction. eauto. Qed.

Lemma shaped_aor v : shaped t_IPAddressOrRange v -> exists a, v = val_aor a /\ aor_fine a.
Proof.
  intros H. destruct (shaped_choice _ _ _ _ H) as (k & x & ->). destruct k as [|[|k]]; [| |destruct k; contradiction].
  - change (shaped t_IPAddress x) in H. apply shaped_bits in H. destruct H as (s & -> & Hs). exists (AOR_prefix s). split; [reflexivity|assumption].
  - change (shaped t_IPAddressRange x) in H. seq H. req H a Ha. req H b Hb. fin H.
    apply shaped_bits in Ha. destruct Ha as (lo & -> & Hlo). apply shaped_bits in Hb. destruct Hb as (hi & -> & Hhi).
    exists (AOR_range lo hi). split; [reflexivity|]. split; assumption.
Qed.
Lemma shaped_null tags v : shaped (TNull tags) v -> v = VNull.
Proof. destruct v; try contradiction. reflexivity. Qed.

Lemma shaped_ip_family v : shaped t_IPAddressFamily v -> exists f, v = val_ip_family f /\ ip_family_fine f.
Proof.
  intros H. seq H. req H x Hx. req H y Hy. fin H. apply shaped_octets in Hx. destruct Hx as (f & -> & Hf).
  destruct (shaped_choice _ _ _ _ Hy) as (k & c & ->). destruct k as [|[|k]]; [| |destruct k; contradiction].
  - change (shaped (TNull [20]) c) in Hy. apply shaped_null in Hy. subst.
    exists {| f_family := f; f_choice := IPC_inherit |}. split; [reflexivity|]. split; [assumption|exact I].
  - change (shaped t_IPAddressChoice_addressesOrRanges c) in Hy. apply shaped_of in Hy. destruct Hy as (l & -> & Hl).
    apply (images _ _ _ _ shaped_aor) in Hl. destruct Hl as (xs & -> & Hxs).
    exists {| f_family := f; f_choice := IPC_aors xs |}. split; [reflexivity|]. split; assumption.
Qed.
Lemma shaped_ip_blocks v : shaped t_IPAddrBlocks v -> exists l, v = val_ip_blocks l /\ Forall ip_family_fine l.
Proof.
  intros H. apply shaped_of in H. destruct H as (l & -> & Hl). apply (images _ _ _ _ shaped_ip_family) in Hl.
  destruct Hl as (xs & -> & Hxs). exists xs. split; [reflexivity|assumption].
Qed.

Lemma shaped_asior v : shaped t_ASIdOrRange v -> exists a, v = val_asior a /\ asior_fine a.
Proof.
  intros H. destruct (shaped_choice _ _ _ _ H) as (k & x & ->). destruct k as [|[|k]]; [| |destruct k; contradiction].
  - change (shaped t_ASId x) in H. apply shaped_prim in H. destruct H as (i & -> & Hi). exists (ASI_id i). split; [reflexivity|assumption].
  - change (shaped t_ASRange x) in H. seq H. req H a Ha. req H b Hb. fin H.
    apply shaped_prim in Ha. destruct Ha as (lo & -> & Hlo). apply shaped_prim in Hb. destruct Hb as (hi & -> & Hhi).
    exists (ASI_range lo hi). split; [reflexivity|]. split; assumption.
Qed.
Lemma shaped_as_choice v : shaped t_ASIdentifierChoice v -> exists c, v = val_as_choice c /\ as_choice_fine c.
Proof.
  intros H. destruct (shaped_choice _ _ _ _ H) as (k & c & ->). destruct k as [|[|k]]; [| |destruct k; contradiction].
  - change (shaped (TNull [20]) c) in H. apply shaped_null in H. subst. exists ASC_inherit. split; [reflexivity|exact I].
  - change (shaped t_ASIdentifierChoice_asIdsOrRanges c) in H. apply shaped_of in H. destruct H as (l & -> & Hl).
    apply (images _ _ _ _ shaped_asior) in Hl. destruct Hl as (xs & -> & Hxs). exists (ASC_iors xs). split; [reflexivity|assumption].
Qed.
Lemma option_as_choice v : match v with Some v => shaped t_ASIdentifierChoice v | None => (0 < 1)%nat end ->
  exists o, v = option_map val_as_choice o /\ match o with Some c => as_choice_fine c | None => True end.
Proof.
  destruct v as [v|]; intros H; [|exists None; split; [reflexivity|trivial]].
  apply shaped_as_choice in H. destruct H as (c & -> & Hc). exists (Some c). split; [reflexivity|assumption].
Qed.
Lemma shaped_as_ids v : shaped t_ASIdentifiers v -> exists num rdi, v = val_as_ids num rdi
  /\ match num with Some c => as_choice_fine c | None => True end /\ match rdi with Some c => as_choice_fine c | None => True end.
Proof.
  intros H. seq H.
  opt H x Hx. opt H y Hy. fin H.
  assert (Hx' : match x with Some v => shaped t_ASIdentifierChoice v | None => (0 < 1)%nat end) by (destruct x; [assumption|lia]).
  apply option_as_choice in Hx'. apply option_as_choice in Hy.
  destruct Hx' as (num & -> & Hn). destruct Hy as (rdi & -> & Hr). exists num, rdi. split; [reflexivity|]. split; assumption.
Qed.

(** ** CMS *)
Lemma view_list_total {A} (f : value -> option A) (P : A -> Prop) t vs :
  (forall v, shaped t v -> exists x, f v = Some x /\ P x) -> Forall (shaped t) vs ->
  exists xs, view_list f vs = Some xs /\ Forall P xs.
Proof.
  intros H. induction 1 as [|v vs Hv _ (xs & E & Hxs)].
  - exists []. split; [reflexivity|constructor].
  - destruct (H v Hv) as (x & Ex & Hx). exists (x :: xs). cbn [view_list]. rewrite Ex, E. split; [reflexivity|constructor; assumption].
Qed.

Definition alg_bytes_only (a : alg_id) : Prop := bytes (al_oid a) /\ match al_params a with Some p => bytes p | None => True end.
Definition attribute_bytes_only (a : attribute) : Prop := bytes (at_type a) /\ Forall bytes (at_values a).
Definition optional_all {A} (P : A -> Prop) (l : option (list A)) : Prop := match l with Some l => Forall P l | None => True end.
Definition signer_bytes_only (s : signer_info) : Prop :=
  bytes (si_version s) /\ match si_sid s with SidSKI k => bytes k | _ => True end /\ alg_bytes_only (si_digest s)
  /\ optional_all attribute_bytes_only (si_attrs s) /\ alg_bytes_only (si_sigalg s) /\ bytes (si_signature s)
  /\ optional_all attribute_bytes_only (si_unsigned s).
Definition signed_data_bytes_only (sd : signed_data) : Prop :=
  bytes (sd_version sd) /\ Forall alg_bytes_only (sd_digests sd) /\ bytes (sd_ectype sd)
  /\ match sd_econtent sd with Some c => bytes c | None => True end /\ optional_all bytes (sd_certs sd)
  /\ Forall signer_bytes_only (sd_signers sd).

Lemma shaped_alg v : shaped t_AlgorithmIdentifier v -> exists a, view_alg v = Some a /\ alg_bytes_only a.
Proof.
  intros H. seq H. req H x Hx. opt H y Hy. fin H. apply shaped_prim in Hx. destruct Hx as (o & -> & Ho).
  destruct y as [y|].
  - apply shaped_any in Hy. destruct Hy as (p & -> & Hp). eexists. split; [reflexivity|]. split; assumption.
  - eexists. split; [reflexivity|]. split; [assumption|exact I].
Qed.
Lemma shaped_bytes v : shaped t_ANY v -> exists b, view_bytes v = Some b /\ bytes b.
Proof. intros H. apply shaped_any in H. destruct H as (b & -> & Hb). exists b. split; [reflexivity|assumption]. Qed.
Lemma shaped_attribute v : shaped t_CMSAttribute v -> exists a, view_attribute v = Some a /\ attribute_bytes_only a.
Proof.
  intros H. seq H. req H x Hx. req H y Hy. fin H. apply shaped_prim in Hx. destruct Hx as (o & -> & Ho).
  apply shaped_of in Hy. destruct Hy as (l & -> & Hl). destruct (view_list_total _ _ _ _ shaped_bytes Hl) as (xs & E & Hxs).
  cbn [view_attribute]. rewrite E. eexists. split; [reflexivity|]. split; assumption.
Qed.
Lemma shaped_attributes v : shaped t_SignedAttributes v -> exists l, view_attributes v = Some l /\ Forall attribute_bytes_only l.
Proof. intros H. apply shaped_of in H. destruct H as (l & -> & Hl). apply (view_list_total _ _ _ _ shaped_attribute Hl). Qed.
Lemma optional_attributes v : match v with Some v => shaped t_SignedAttributes v | None => (0 < 1)%nat end ->
  exists o, view_optional view_attributes v = Some o /\ optional_all attribute_bytes_only o.
Proof.
  destruct v as [v|]; intros H; [|exists None; split; [reflexivity|exact I]].
  apply shaped_attributes in H. destruct H as (l & E & Hl). cbn [view_optional]. rewrite E. exists (Some l). split; [reflexivity|assumption].
Qed.
Lemma shaped_signer v : shaped t_SignerInfo v -> exists s, view_signer v = Some s /\ signer_bytes_only s.
Proof.
  intros H. seq H. req H a Ha. req H b Hb. req H c Hc. opt H d Hd. req H e He. req H f Hf. opt H g Hg. fin H.
  apply shaped_prim in Ha. destruct Ha as (ver & -> & Hver).
  apply shaped_alg in Hc. destruct Hc as (dalg & Ec & Hdalg). apply shaped_alg in He. destruct He as (salg & Ee & Hsalg).
  apply shaped_octets in Hf. destruct Hf as (sig & -> & Hsig).
  apply optional_attributes in Hd. destruct Hd as (attrs & Ed & Hattrs). apply optional_attributes in Hg. destruct Hg as (un & Eg & Hun).
  assert (S : exists sid, view_sid b = Some sid /\ match sid with SidSKI k => bytes k | _ => True end).
  { destruct (shaped_choice _ _ _ _ Hb) as (k & x & ->). destruct k as [|[|k]]; [| |destruct k; contradiction].
    - eexists. split; [reflexivity|exact I].
    - change (shaped t_CMSSubjectKeyIdentifier x) in Hb. apply shaped_octets in Hb. destruct Hb as (ski & -> & Hk).
      eexists. split; [reflexivity|assumption]. }
  destruct S as (sid & Es & Hs). cbn [view_signer]. rewrite Es, Ec, Ed, Ee, Eg. eexists. split; [reflexivity|].
  repeat (split; [assumption|]). assumption.
Qed.

(** Common to SignedData and SignedDataPKCS7. *)
Lemma shaped_signed_data_parts ver digests t content certs crls signers :
  bytes ver -> shaped t_DigestAlgorithmIdentifiers digests -> bytes t ->
  match content with Some (VBytes c) => bytes c | Some _ => False | None => True end ->
  match certs with Some v => shaped t_CertificateSet v | None => True end ->
  match crls with Some v => shaped t_RevocationInfoChoices v | None => True end ->
  shaped t_SignerInfos signers ->
  exists sd, view_signed_data (VSeq [Some (VBytes ver); Some digests; Some (VSeq [Some (VBytes t); content]); certs; crls; Some signers]) = Some sd
    /\ signed_data_bytes_only sd.
Proof.
  intros Hver Hd Ht Hc Hce Hcr Hs. cbn [view_signed_data].
  apply shaped_of in Hd. destruct Hd as (ds & -> & Hd). destruct (view_list_total _ _ _ _ shaped_alg Hd) as (das & Ed & Hdas).
  apply shaped_of in Hs. destruct Hs as (ss & -> & Hs). destruct (view_list_total _ _ _ _ shaped_signer Hs) as (sis & Es & Hsis).
  cbn [view_algs view_signers]. rewrite Ed, Es.
  assert (C : exists o, view_optional view_bytes content = Some o /\ match o with Some c => bytes c | None => True end).
  { destruct content as [[c| | | | | |]|]; try contradiction; eexists; (split; [reflexivity|assumption]). }
  destruct C as (o & -> & Ho).
  assert (E : exists o, view_optional view_anys certs = Some o /\ optional_all bytes o).
  { destruct certs as [v|]; [|exists None; split; [reflexivity|exact I]]. apply shaped_of in Hce. destruct Hce as (l & -> & Hl).
    destruct (view_list_total _ _ _ _ shaped_bytes Hl) as (xs & Ex & Hxs). cbn [view_optional view_anys]. rewrite Ex.
    exists (Some xs). split; [reflexivity|assumption]. }
  destruct E as (ce & -> & Hce').
  assert (F : exists o, view_optional view_crls crls = Some o).
  { destruct crls as [v|]; [|exists None; reflexivity]. apply shaped_of in Hcr. destruct Hcr as (l & -> & Hl).
    cbn [view_optional view_crls]. eauto. }
  destruct F as (cr & ->). eexists. split; [reflexivity|]. unfold signed_data_bytes_only.
  cbn [sd_version sd_digests sd_ectype sd_econtent sd_certs sd_signers]. repeat (split; [assumption|]). assumption.
Qed.

Ltac to_optional x H := destruct x; [exact H|exact I].
Lemma shaped_signed_data v : shaped t_SignedData v -> exists sd, view_signed_data v = Some sd /\ signed_data_bytes_only sd.
Proof.
  intros H. seq H. req H a Ha. req H b Hb. req H c Hc. opt H d Hd. opt H e He. req H f Hf. fin H.
  apply shaped_prim in Ha. destruct Ha as (ver & -> & Hver). seq Hc. req Hc t Ht. opt Hc content Hcontent. fin Hc.
  apply shaped_prim in Ht. destruct Ht as (t' & -> & Ht). apply shaped_signed_data_parts; [assumption..| | | |assumption].
  - destruct content as [x|]; [|exact I]. apply shaped_octets in Hcontent. destruct Hcontent as (c & -> & Hc'). assumption.
  - to_optional d Hd.
  - to_optional e He.
Qed.
Lemma shaped_signed_data_pkcs7 v : shaped t_SignedDataPKCS7 v -> exists sd, view_signed_data v = Some sd /\ signed_data_bytes_only sd.
Proof.
  intros H. seq H. req H a Ha. req H b Hb. req H c Hc. opt H d Hd. opt H e He. req H f Hf. fin H.
  apply shaped_prim in Ha. destruct Ha as (ver & -> & Hver). seq Hc. req Hc t Ht. opt Hc content Hcontent. fin Hc.
  apply shaped_prim in Ht. destruct Ht as (t' & -> & Ht). apply shaped_signed_data_parts; [assumption..| | | |assumption].
  - destruct content as [x|]; [|exact I]. apply shaped_any in Hcontent. destruct Hcontent as (c & -> & Hc'). assumption.
  - to_optional d Hd.
  - to_optional e He.
Qed.

Lemma bytes_only_sd_bytes sd : signed_data_bytes_only sd -> sd_bytes sd.
Proof.
  intros (Hv & _ & Ht & _ & _ & Hs). split; [assumption|]. split; [assumption|]. eapply Forall_impl; [|exact Hs].
  intros s (H1 & _ & _ & H2 & _). split; [assumption|]. intros attrs E. rewrite E in H2. eapply Forall_impl; [|exact H2]. intros a (H & _). assumption.
Qed.
