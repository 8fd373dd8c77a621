(** Proofs for C67: each type's DER is an encoding of its value. *)
From Coq Require Import Lia.
From Verif Require Import Base BaseLemmas Ber BerSpec BerProofs BerProofs4 Address Resources Roa Manifest SignedData.
From Verif Require Import Asn1Dec Asn1DecSpec Asn1Types Asn1Check Asn1Constraints Asn1CheckSpec Asn1CheckProofs Objects ObjectsSpec ObjectsProofs.
Notation length := List.length.

Ltac here := first [left; reflexivity | right; here].
(** The size of a part. *)
Ltac part Hr := eapply (reasonable_part _ _ _ Hr); here.
Ltac samebytes := intros ? E; injection E as <-; reflexivity.
Ltac prim := first [apply enc_prim_tlv | apply enc_octets_tlv]; [lia|reflexivity|lowtag|reflexivity|].
Ltac present := apply member_present; [lowtag|samebytes| |].

(** ** ROAs *)
Definition val_roa_addr (a : roa_addr) : value :=
  VSeq [Some (VBits (bs_buf (ra_address a)) (bs_unused (ra_address a))); option_map VBytes (ra_max a)].

Lemma enc_roa_addr a : roa_addr_fine a -> reasonable (der_roa_addr a) -> enc t_ROAIPAddress 0 (der_roa_addr a) (val_roa_addr a).
Proof.
  intros (Hb & Hm) Hr. unfold der_roa_addr, SEQUENCE, val_roa_addr in *. revert Hr Hm. generalize (ra_max a). intros max Hr Hm.
  apply enc_seq_tlv; [lia|reflexivity|lowtag|reflexivity|assumption|].
  cbn [concat]. unfold BIT_STRING at 1. apply member_present; [lowtag|samebytes| |].
  - apply enc_bits_tlv; [assumption|part Hr].
  - destruct max as [m|]; cbn [OPTIONAL option_map] in *.
    + unfold INTEGER. present; [prim; part Hr|constructor].
    + cbn [app]. constructor; [lia|constructor].
Qed.

Definition val_roa_block (b : list Z * list roa_addr) : value :=
  VSeq [Some (VBytes (fst b)); Some (VOf (map val_roa_addr (snd b)))].

Lemma starts_seq parts : starts (Some 64) (SEQUENCE parts).
Proof. intros t E. injection E as <-. apply leading_tlv; [lowtag|reflexivity]. Qed.

Lemma enc_roa_block b : bytes (fst b) -> Forall roa_addr_fine (snd b) -> reasonable (der_roa_block (fst b) (snd b)) ->
  enc t_ROAIPAddressFamily 0 (der_roa_block (fst b) (snd b)) (val_roa_block b).
Proof.
  intros Hb Hl Hr. unfold der_roa_block, val_roa_block in *. unfold SEQUENCE at 1. unfold SEQUENCE at 1 in Hr.
  apply enc_seq_tlv; [lia|reflexivity|lowtag|reflexivity|assumption|].
  cbn [concat]. unfold OCTET_STRING. present; [prim; part Hr|]. unfold SEQUENCE. present; [|constructor].
  assert (Hs : reasonable (SEQUENCE (map der_roa_addr (snd b)))) by part Hr.
  apply enc_of_tlv; [lia|reflexivity|lowtag|reflexivity|assumption|].
  apply elements_map. intros a Ha. split; [apply starts_seq|]. rewrite Forall_forall in Hl.
  apply enc_roa_addr; [auto|]. eapply reasonable_part; [exact Hs|]. apply in_map. assumption.
Qed.

Definition val_roa (version : option (list Z)) (asid : list Z) (blocks : list (list Z * list roa_addr)) : value :=
  VSeq [option_map VBytes version; Some (VBytes asid); Some (VOf (map val_roa_block blocks))].

Lemma enc_roa version asid blocks : roa_fine version asid blocks -> reasonable (der_roa version asid blocks) ->
  enc t_RouteOriginAttestation 0 (der_roa version asid blocks) (val_roa version asid blocks).
Proof.
  intros (Hv & Ha & Hb) Hr. unfold der_roa, val_roa in *. unfold SEQUENCE at 1. unfold SEQUENCE at 1 in Hr.
  apply enc_seq_tlv; [lia|reflexivity|lowtag|reflexivity|assumption|].
  cbn [concat].
  assert (H2 : enc_members false
    [Member (Some 8) 0 0 false t_ASId; Member (Some 64) 0 0 false t_RouteOriginAttestation_ipAddrBlocks]
    (INTEGER asid ++ SEQUENCE (map (fun b => der_roa_block (fst b) (snd b)) blocks) ++ [])
    [Some (VBytes asid); Some (VOf (map val_roa_block blocks))]).
  { unfold INTEGER. present; [prim; part Hr|]. unfold SEQUENCE. present; [|constructor].
    assert (Hs : reasonable (SEQUENCE (map (fun b => der_roa_block (fst b) (snd b)) blocks))) by part Hr.
    apply enc_of_tlv; [lia|reflexivity|lowtag|reflexivity|assumption|].
    apply elements_map. intros b Hin. split; [apply starts_seq|]. rewrite Forall_forall in Hb. destruct (Hb b Hin) as (H1 & H2).
    apply enc_roa_block; [assumption|assumption|]. eapply reasonable_part; [exact Hs|].
    apply (in_map (fun b => der_roa_block (fst b) (snd b))). assumption. }
  destruct version as [v|]; cbn [OPTIONAL option_map].
  - unfold CONTEXT at 1. present; [|exact H2]. apply (enc_explicit_integer 0); [lia|]. part Hr.
  - cbn [app]. constructor; [lia|exact H2].
Qed.

Lemma view_list_map {A B} (f : value -> option B) (g : A -> value) (h : A -> B) l :
  (forall x, f (g x) = Some (h x)) -> view_list f (map g l) = Some (map h l).
Proof. intros H. induction l as [|x l IH]; [reflexivity|]. cbn [map view_list]. rewrite H, IH. reflexivity. Qed.

Lemma view_optional_bytes x : view_optional view_bytes (option_map VBytes x) = Some x.
Proof. destruct x; reflexivity. Qed.

Lemma view_roa_val version asid blocks : view_roa (val_roa version asid blocks) = Some (roa_of version asid blocks).
Proof.
  unfold view_roa, val_roa. rewrite view_optional_bytes.
  rewrite (view_list_map view_roa_block val_roa_block (fun b => {| rb_family := fst b; rb_addresses := null_if_empty (snd b) |})).
  - unfold roa_of. f_equal. f_equal. rewrite map_map. destruct blocks; reflexivity.
  - intros b. unfold view_roa_block, val_roa_block.
    rewrite (view_list_map view_roa_addr val_roa_addr (fun a => a)).
    + rewrite map_id. destruct (snd b); reflexivity.
    + intros a. unfold view_roa_addr, val_roa_addr. cbn [view_bits]. rewrite view_optional_bytes.
      destruct a as [[buf u] m]. reflexivity.
Qed.

(** ** Manifests *)
Definition val_file (f : fah) : value := VSeq [Some (VBytes (Manifest.f_file f)); Some (VBits (Manifest.f_hash f) (Manifest.f_unused f))].

Lemma enc_file f : file_fine f -> reasonable (der_file f) -> enc t_FileAndHash 0 (der_file f) (val_file f).
Proof.
  intros (Hb & Hh) Hr. unfold der_file, SEQUENCE, val_file in *.
  apply enc_seq_tlv; [lia|reflexivity|lowtag|reflexivity|assumption|].
  cbn [concat]. unfold IA5String at 1. present; [prim; part Hr|]. unfold BIT_STRING at 1. present; [|constructor].
  apply (enc_bits_tlv {| bs_buf := Manifest.f_hash f; bs_unused := Manifest.f_unused f |}); [assumption|part Hr].
Qed.

Definition val_manifest (version : option (list Z)) (number this next alg : list Z) (files : list fah) : value :=
  VSeq [option_map VBytes version; Some (VBytes number); Some (VBytes this); Some (VBytes next); Some (VBytes alg);
        Some (VOf (map val_file files))].

Lemma enc_manifest version number this next alg files : Forall file_fine files ->
  reasonable (der_manifest version number this next alg files) ->
  enc t_Manifest 0 (der_manifest version number this next alg files) (val_manifest version number this next alg files).
Proof.
  intros Hf Hr. unfold der_manifest, val_manifest in *. unfold SEQUENCE at 1. unfold SEQUENCE at 1 in Hr.
  apply enc_seq_tlv; [lia|reflexivity|lowtag|reflexivity|assumption|].
  cbn [concat].
  assert (H2 : enc_members false
    [Member (Some 8) 0 0 false t_INTEGER; Member (Some 96) 0 0 false t_GeneralizedTime; Member (Some 96) 0 0 false t_GeneralizedTime;
     Member (Some 24) 0 0 false t_OBJECT_IDENTIFIER; Member (Some 64) 0 0 false t_Manifest_fileList]
    (INTEGER number ++ GeneralizedTime this ++ GeneralizedTime next ++ OBJECT_IDENTIFIER alg ++ SEQUENCE (map der_file files) ++ [])
    [Some (VBytes number); Some (VBytes this); Some (VBytes next); Some (VBytes alg); Some (VOf (map val_file files))]).
  { unfold INTEGER, GeneralizedTime, OBJECT_IDENTIFIER. do 4 (present; [prim; part Hr|]). unfold SEQUENCE. present; [|constructor].
    assert (Hs : reasonable (SEQUENCE (map der_file files))) by part Hr.
    apply enc_of_tlv; [lia|reflexivity|lowtag|reflexivity|assumption|].
    apply elements_map. intros f Hin. split; [apply starts_seq|]. rewrite Forall_forall in Hf.
    apply enc_file; [auto|]. eapply reasonable_part; [exact Hs|]. apply in_map. assumption. }
  destruct version as [v|]; cbn [OPTIONAL option_map].
  - unfold CONTEXT at 1. present; [|exact H2]. apply (enc_explicit_integer 0); [lia|]. part Hr.
  - cbn [app]. constructor; [lia|exact H2].
Qed.

(** ** RFC 3779 *)
Definition val_aor (a : aor) : value :=
  match a with
  | AOR_prefix p => VChoice 0 (VBits (bs_buf p) (bs_unused p))
  | AOR_range lo hi => VChoice 1 (VSeq [Some (VBits (bs_buf lo) (bs_unused lo)); Some (VBits (bs_buf hi) (bs_unused hi))])
  | AOR_nothing => VNull
  end.

Lemma enc_aor a : aor_fine a -> reasonable (der_aor a) -> enc t_IPAddressOrRange 0 (der_aor a) (val_aor a).
Proof.
  intros Ha Hr. destruct a as [p|lo hi|]; [| |contradiction]; cbn [der_aor val_aor] in *.
  - eapply enc_choice; [reflexivity|apply leading_tlv; [lowtag|reflexivity]|]. apply enc_bits_tlv; assumption.
  - destruct Ha as (Hl & Hh). eapply enc_choice; [reflexivity|apply leading_tlv; [lowtag|reflexivity]|].
    unfold SEQUENCE in *. apply enc_seq_tlv; [lia|reflexivity|lowtag|reflexivity|assumption|].
    cbn [concat]. unfold BIT_STRING. present; [apply enc_bits_tlv; [assumption|part Hr]|].
    present; [apply enc_bits_tlv; [assumption|part Hr]|constructor].
Qed.

Definition val_ip_choice (c : ip_choice) : value :=
  match c with
  | IPC_inherit => VChoice 0 VNull
  | IPC_aors l => VChoice 1 (VOf (map val_aor l))
  | IPC_nothing => VNull
  end.

Lemma starts_none b : starts None b.
Proof. intros t E. discriminate. Qed.

Lemma enc_ip_choice c : match c with IPC_inherit => True | IPC_aors l => Forall aor_fine l | IPC_nothing => False end ->
  reasonable (der_ip_choice c) -> enc t_IPAddressChoice 0 (der_ip_choice c) (val_ip_choice c).
Proof.
  intros Hc Hr. destruct c as [| |l]; [contradiction| |]; cbn [der_ip_choice val_ip_choice] in *.
  - eapply enc_choice; [reflexivity|apply leading_tlv; [lowtag|reflexivity]|]. apply enc_null_tlv.
  - eapply enc_choice; [reflexivity|apply leading_tlv; [lowtag|reflexivity]|].
    apply enc_of_tlv; [lia|reflexivity|lowtag|reflexivity|assumption|].
    apply elements_map. intros a Hin. split; [apply starts_none|]. rewrite Forall_forall in Hc.
    apply enc_aor; [auto|]. eapply reasonable_part; [exact Hr|]. apply in_map. assumption.
Qed.

Definition val_ip_family (f : ip_family) : value := VSeq [Some (VBytes (f_family f)); Some (val_ip_choice (f_choice f))].

Lemma enc_ip_family f : ip_family_fine f -> reasonable (der_ip_family f) ->
  enc t_IPAddressFamily 0 (der_ip_family f) (val_ip_family f).
Proof.
  intros (Hb & Hc) Hr. unfold der_ip_family, val_ip_family, SEQUENCE in *.
  apply enc_seq_tlv; [lia|reflexivity|lowtag|reflexivity|assumption|].
  cbn [concat]. unfold OCTET_STRING. present; [prim; part Hr|].
  constructor; [apply starts_none| |discriminate|constructor]. apply enc_ip_choice; [assumption|part Hr].
Qed.

Definition val_ip_blocks (l : list ip_family) : value := VOf (map val_ip_family l).

Lemma enc_ip_blocks l : Forall ip_family_fine l -> reasonable (der_ip_blocks l) ->
  enc t_IPAddrBlocks 0 (der_ip_blocks l) (val_ip_blocks l).
Proof.
  intros Hl Hr. unfold der_ip_blocks, val_ip_blocks in *.
  apply enc_of_tlv; [lia|reflexivity|lowtag|reflexivity|assumption|].
  apply elements_map. intros f Hin. split; [apply starts_seq|]. rewrite Forall_forall in Hl.
  apply enc_ip_family; [auto|]. eapply reasonable_part; [exact Hr|]. apply in_map. assumption.
Qed.

Definition val_asior (a : asior) : value :=
  match a with
  | ASI_id i => VChoice 0 (VBytes i)
  | ASI_range lo hi => VChoice 1 (VSeq [Some (VBytes lo); Some (VBytes hi)])
  | ASI_nothing => VNull
  end.

Lemma enc_asior a : asior_fine a -> reasonable (der_asior a) -> enc t_ASIdOrRange 0 (der_asior a) (val_asior a).
Proof.
  intros Ha Hr. destruct a as [i|lo hi|]; [| |contradiction]; cbn [der_asior val_asior] in *.
  - eapply enc_choice; [reflexivity|apply leading_tlv; [lowtag|reflexivity]|]. prim. assumption.
  - eapply enc_choice; [reflexivity|apply leading_tlv; [lowtag|reflexivity]|].
    unfold SEQUENCE in *. apply enc_seq_tlv; [lia|reflexivity|lowtag|reflexivity|assumption|].
    cbn [concat]. unfold INTEGER. present; [prim; part Hr|]. present; [prim; part Hr|constructor].
Qed.

Definition val_as_choice (c : as_choice) : value :=
  match c with
  | ASC_inherit => VChoice 0 VNull
  | ASC_iors l => VChoice 1 (VOf (map val_asior l))
  | ASC_nothing => VNull
  end.

(** The alternatives of an explicitly tagged ASIdentifierChoice. *)
Lemma enc_as_choice n c : 0 <= n < 31 -> as_choice_fine c -> reasonable (CONTEXT n (der_as_choice c)) ->
  enc t_ASIdentifierChoice 1 (CONTEXT n (der_as_choice c)) (val_as_choice c).
Proof.
  intros Hn Hc Hr.
  assert (E1 : (160 + n) mod 32 = n) by (Z.div_mod_to_equations; lia).
  assert (E2 : (160 + n) / 32 = 5) by (Z.div_mod_to_equations; lia).
  assert (Hf : framed (chain [] 1) true false (der_as_choice c) (CONTEXT n (der_as_choice c))).
  { unfold CONTEXT. rewrite tlv_app. constructor. change (chain [] 1) with [@None Z].
    replace true with (constructed_octet (160 + n)) by (unfold constructed_octet; rewrite E2; reflexivity).
    apply dchain_one; [split; lia|assumption|discriminate]. }
  apply reasonable_inside in Hr.
  destruct c as [| |l]; [contradiction| |]; cbn [der_as_choice val_as_choice] in *.
  - eapply enc_choice_tagged; [left; lia|exact Hf|reflexivity|apply leading_tlv; [lowtag|reflexivity]|]. apply enc_null_tlv.
  - eapply enc_choice_tagged; [left; lia|exact Hf|reflexivity|apply leading_tlv; [lowtag|reflexivity]|].
    apply enc_of_tlv; [lia|reflexivity|lowtag|reflexivity|assumption|].
    apply elements_map. intros a Hin. split; [apply starts_none|]. cbn in Hc. rewrite Forall_forall in Hc.
    apply enc_asior; [auto|]. eapply reasonable_part; [exact Hr|]. apply in_map. assumption.
Qed.

Definition val_as_ids (num rdi : option as_choice) : value := VSeq [option_map val_as_choice num; option_map val_as_choice rdi].

Lemma enc_as_ids num rdi : match num with Some c => as_choice_fine c | None => True end ->
  match rdi with Some c => as_choice_fine c | None => True end -> reasonable (der_as_ids num rdi) ->
  enc t_ASIdentifiers 0 (der_as_ids num rdi) (val_as_ids num rdi).
Proof.
  intros Hn Hd Hr. unfold der_as_ids, val_as_ids, SEQUENCE in *.
  apply enc_seq_tlv; [lia|reflexivity|lowtag|reflexivity|assumption|]. cbn [concat].
  assert (H2 : enc_members false [Member (Some 6) 1 1 false t_ASIdentifierChoice]
    (OPTIONAL (fun c => CONTEXT 1 (der_as_choice c)) rdi ++ []) [option_map val_as_choice rdi]).
  { destruct rdi as [c|]; cbn [OPTIONAL option_map].
    - unfold CONTEXT at 1. present; [|constructor]. apply (enc_as_choice 1); [lia|assumption|part Hr].
    - constructor; [lia|constructor]. }
  destruct num as [c|]; cbn [OPTIONAL option_map].
  - unfold CONTEXT at 1. present; [|exact H2]. apply (enc_as_choice 0); [lia|assumption|part Hr].
  - cbn [app]. constructor; [lia|exact H2].
Qed.
