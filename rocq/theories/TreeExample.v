(** A small world for C74: a trust anchor, one CA below it, and a ROA. *)
From Coq Require Import String.
From Verif Require Import Base BaseLemmas CString Types DbTable VrpsSpec PathBuilder Manifest Oid Address Asn1 SArray Resources Roa BerSpec Objects ObjectsSpec CertBytes CertBytesProps
  SignedData SignedDataSpec SignedObjectProps Extensions ExtensionsProps CertProfile CertProfileProps Tree TreeSpec.
From Verif Require Import SignedObjectSpec.
From Verif Require RoaProps PathProps ExtensionsSpec.
From Verif Require CertStack.
Notation length := List.length.
Delimit Scope string_scope with string.

Definition digest (c : list Z) : list Z := [Z.of_nat (length c) mod 256; fold_left Z.add c 0 mod 256].
Definition xsia (l : list (Z * string)) : x509_extension := ext SIA (V_access (map (fun x => ex_access (fst x) (snd x)) l)).
Definition policies : x509_extension := ext CP (V_policies [{| pi_id := 10; pi_qualifiers := None |}]).
Definition crldp (s : string) : x509_extension :=
  ext CDP (V_crldp [{| dp_name := Some (DP_fullname [GN_uri (cstr s) false]); dp_reasons := false; dp_issuer := false |}]).
Definition x (subject issuer : string) (key : list Z) (es : list x509_extension) : x509 :=
  {| x_version := 2; x_serial := Some 5; x_sigalg := 668; x_issuer := ex_name issuer; x_subject := ex_name subject; x_pubkey := Some (ex_pk key);
     x_self_verified := Some true; x_extensions := es |}.
Definition prefixes (bs : list Z) : list raw_extension :=
  [RawOther; RawIP RFC6484 true (der_ip_blocks [{| f_family := [0; 1]; f_choice := IPC_aors [AOR_prefix {| bs_buf := bs; bs_unused := 0 |}] |}])].
Definition ct_of (a : x509) (l : list raw_extension) (ca : bool) : cert := {| ct := a; ct_resources := l; ct_purpose := true; ct_ca := ca; ct_router := false |}.

(** The certificates. *)
Definition c_ta_with (l : list raw_extension) : cert := ct_of (x "root" "root" [8; 8]
  [ext BC (V_basic_constraints false); ext SKI (V_octets [8; 8]); ext KU (V_bits [6]); xsia [(2, "rsync://e/d/"); (4, "rsync://e/d/m.mft")]%string; policies; ext IR V_other]) l true.
Definition c_ca : cert := ct_of (x "ca" "root" [6; 7]
  [ext BC (V_basic_constraints false); ext SKI (V_octets [7; 6]); ext AKI (V_akid (Some [8; 8]) false false); ext KU (V_bits [6]); crldp "rsync://e/d/a.crl";
   ext AIA (V_access [ex_access 1 "rsync://e/ta.cer"]); xsia [(2, "rsync://e/c/"); (4, "rsync://e/c/m.mft")]%string; policies; ext IR V_other]) (prefixes [10; 1]) true.
Definition c_ee (issuer : string) (parent : list Z) (cdp so : string) (l : list raw_extension) : cert := ct_of (x "ee" issuer [9]
  [ext SKI (V_octets [9]); ext AKI (V_akid (Some parent) false false); ext KU (V_bits [128]); crldp cdp;
   ext AIA (V_access [ex_access 1 "rsync://e/ta.cer"]); xsia [(5, so)]%string; policies; ext IR V_other]) l false.
Definition crl_by (issuer : string) (key : list Z) : x509_crl :=
  {| c_version := 1; c_sigalg := 668; c_issuer := ex_name issuer; c_revoked := None; c_extensions := [ext CN V_other; ext AKI (V_akid (Some key) false false)] |}.

(** The signed objects: the certificate is told by a number. *)
Definition attrs (type body : list Z) : list attribute :=
  [ex_attr 3 (OBJECT_IDENTIFIER type); ex_attr 5 [23; 1; 48]; ex_attr 4 (OCTET_STRING (digest body))].
Definition signer (type body : list Z) : signer_info :=
  {| si_version := [3]; si_sid := SidSKI [9]; si_digest := {| SignedData.al_oid := sha256_bytes; al_params := None |};
     si_attrs := Some (attrs type body); si_sigalg := {| SignedData.al_oid := rsa_bytes; al_params := Some SignedDataSpec.null_bytes |};
     si_signature := digest (SET (map der_attribute (attrs type body))); si_unsigned := None |}.
Definition object (type body : list Z) (ee : Z) : list Z :=
  der_content_info id_signed_data (der_signed_data
    {| sd_version := [3]; sd_digests := [{| SignedData.al_oid := sha256_bytes; al_params := None |}];
       sd_ectype := type; sd_econtent := Some body; sd_certs := Some [[48; 3; 2; 1; ee]];
       sd_crls := None; sd_signers := [signer type body] |} [(signer type body, [9])]).
Definition oid_roa : list Z := [42; 134; 72; 134; 247; 13; 1; 9; 16; 1; 24].
Definition oid_mft : list Z := [42; 134; 72; 134; 247; 13; 1; 9; 16; 1; 26].
Definition fah_of (f : string * list Z) : fah := {| Manifest.f_file := cstr (fst f); Manifest.f_hash := digest (snd f); Manifest.f_unused := 0 |}.
Definition manifest_of (l : list (string * list Z)) : list Z :=
  der_manifest None [1] (cstr "20200101000000Z") (cstr "20300101000000Z") sha256_bytes (map fah_of l).

(** The files. *)
Definition f_roa : list Z := object oid_roa (der_roa None [1] [([0; 1], [RoaProps.ex_addr [10; 1]])]) 3.
Definition f_mft1 : list Z := object oid_mft (manifest_of [("c.cer", [2]); ("a.crl", [1])]%string) 1.
Definition f_mft2 : list Z := object oid_mft (manifest_of [("x.roa", f_roa); ("b.crl", [2])]%string) 2.
Definition disk : list (string * list Z) :=
  [("/ta.cer", [1]); ("/r/t/rsync/e/d/m.mft", f_mft1); ("/r/t/rsync/e/d/c.cer", [2]); ("/r/t/rsync/e/d/a.crl", [1]);
   ("/r/t/rsync/e/c/m.mft", f_mft2); ("/r/t/rsync/e/c/x.roa", f_roa); ("/r/t/rsync/e/c/b.crl", [2])]%string.
Fixpoint read_from (l : list (string * list Z)) (p : list Z) : Z + list Z :=
  match l with [] => inl 2 | (n, b) :: l => if list_eqb Z.eqb p (cstr n) then inr b else read_from l p end.

Definition world_of (files : list (string * list Z)) (ta : list raw_extension) (so : string) : world := {|
  w_nid := ex_nid; w_ca_issuers := 1; w_caRepository := 2; w_ad_notify := 3; w_ad_mft := 4; w_ad_so := 5;
  w_certPolicyRpki := 10; w_certPolicyRpkiV2 := 11; w_qt_cps := 12;
  w_commonName := 13; w_serialNumber := 105; w_sha256WithRSA := 668; w_rsa := 6; w_ec := 408; w_p256 := 415;
  w_obj2nid := ex_obj2nid; w_sha1 := ex_sha1; w_sha256 := fun c => Some (digest c);
  w_d2i_X509 := fun b => match b with
    | [48; 3; 2; 1; 1] => Some (c_ee "root" [8; 8] "rsync://e/d/a.crl" "rsync://e/d/m.mft" (prefixes [10]), 5%nat)
    | [48; 3; 2; 1; 2] => Some (c_ee "ca" [7; 6] "rsync://e/c/b.crl" "rsync://e/c/m.mft" (prefixes [10; 1]), 5%nat)
    | [48; 3; 2; 1; 3] => Some (c_ee "ca" [7; 6] "rsync://e/c/b.crl" so (prefixes [10; 1]), 5%nat)
    | _ => None
    end;
  w_load_X509 := fun b => match b with [1] => Some (c_ta_with ta) | [2] => Some c_ca | _ => None end;
  w_load_CRL := fun b => match b with [1] => Some (crl_by "root" [8; 8]) | [2] => Some (crl_by "ca" [7; 6]) | _ => None end;
  w_d2i_PUBKEY := ex_d2i;
  w_evp_verify := fun _ m s => list_eqb Z.eqb (digest m) s;
  w_verify := fun _ l _ _ => match l with [] => Unverified | _ => Verified end;
  w_verify_stale := fun _ _ _ _ => false;
  w_read := fun _ => read_from files;
  w_now := fun _ => inr {| tm_year := 125; tm_mon := 0; tm_mday := 1; tm_hour := 0; tm_min := 0; tm_sec := 0 |};
  w_rnd := fun _ _ => 0;
  w_download := fun _ _ => Some 0%nat;
  w_J := 0; w_repository := cstr "/r"; w_tal := Some (cstr "t"); w_spki := [1; 8; 8]; w_max_depth := 3;
  w_hashalg := INAC_IGNORE; w_not_found := INAC_ERROR; w_not_match := INAC_ERROR; w_mft_stale := INAC_ERROR; w_crl_stale := INAC_ERROR;
  w_nobuf := false; w_turns := 2; w_slack := []; w_frames := 2000 |}.
Definition toy (so : string) : world := world_of disk (prefixes [10]) so.
Definition ex_root_uri : rpki_uri := {| u_global := cstr "rsync://e/ta.cer"; u_local := cstr "/ta.cer"; u_type := UT_RSYNC |}.

Definition run so := handle_tal_uri (toy so) 5 0 ex_root_uri db_table_create.

Lemma bytes_check l : forallb (fun b => (0 <=? b) && (b <? 256)) l = true -> bytes l.
Proof. intros H. apply Forall_forall. intros b Hb. rewrite forallb_forall in H. apply H in Hb. unfold is_byte. lia. Qed.
Lemma read_from_file l : forall p b, read_from l p = inr b -> In b (map snd l).
Proof. induction l as [|[n b0] l IH]; intros p b H; cbn in *; [discriminate|]. destruct (list_eqb Z.eqb p (cstr n)); [injection H as <-; auto|eauto]. Qed.
Lemma read_from_errno l : forall p, read_from l p <> inl 0.
Proof. induction l as [|[n b0] l IH]; intros p; cbn; [discriminate|]. destruct (list_eqb Z.eqb p (cstr n)); [discriminate|apply IH]. Qed.
Lemma prefixes_ok bs : bytes (der_ip_blocks [{| f_family := [0; 1]; f_choice := IPC_aors [AOR_prefix {| bs_buf := bs; bs_unused := 0 |}] |}]) ->
  Z.of_nat (length (der_ip_blocks [{| f_family := [0; 1]; f_choice := IPC_aors [AOR_prefix {| bs_buf := bs; bs_unused := 0 |}] |}])) < 2 ^ 31 -> Forall raw_ok (prefixes bs).
Proof. intros A B. constructor; [exact I|]. constructor; [|constructor]. split; assumption. Qed.
Lemma ee_typed issuer parent cdp so l : bytes parent -> Forall (ExtensionsSpec.typed ex_nid) (x_extensions (ct (c_ee issuer parent cdp so l))).
Proof. intros B. cbn [c_ee ct_of ct x x_extensions]. unfold policies, crldp, xsia. typed_tac. Qed.

Definition file_ok (b : list Z) : Prop :=
  forallb (fun b => (0 <=? b) && (b <? 256)) b = true /\ (length b < 2000)%nat /\ Z.of_nat (length b) <= 2147483647.
Lemma world_sane files ta so : Forall file_ok (map snd files) -> Forall raw_ok ta -> sane (world_of files ta so).
Proof.
  intros F Pta.
  assert (P1 : Forall raw_ok (prefixes [10])) by (apply prefixes_ok; [apply bytes_check|]; vm_compute; reflexivity).
  assert (P2 : Forall raw_ok (prefixes [10; 1])) by (apply prefixes_ok; [apply bytes_check|]; vm_compute; reflexivity).
  constructor; cbn [world_of w_nid w_commonName w_serialNumber w_load_X509 w_d2i_X509 w_load_CRL w_read w_turns w_slack w_repository w_tal w_frames].
  - exact ex_inj.
  - discriminate.
  - intros b c H. assert (K : c = c_ta_with ta \/ c = c_ca).
    { repeat match type of H with match ?x with _ => _ end = _ => destruct x; try discriminate H end; injection H as <-; auto. }
    destruct K as [-> | ->]; (split; [|assumption]); cbn [c_ta_with c_ca ct_of ct x x_extensions]; unfold policies, crldp, xsia; typed_tac.
  - intros b c n H.
    assert (K : exists issuer parent cdp so' l, c = c_ee issuer parent cdp so' l /\ bytes parent /\ Forall raw_ok l).
    { repeat match type of H with match ?x with _ => _ end = _ => destruct x; try discriminate H end; injection H as <- _; eexists _, _, _, _, _; (split; [reflexivity|]);
        (split; [apply bytes_check; reflexivity|assumption]). }
    destruct K as (issuer & parent & cdp & so' & l & -> & B & P). split; [apply ee_typed; exact B|exact P].
  - intros b c H. assert (K : exists i k, c = crl_by i k /\ bytes k).
    { repeat match type of H with match ?x with _ => _ end = _ => destruct x; try discriminate H end; injection H as <-; eexists _, _; (split; [reflexivity|apply bytes_check; reflexivity]). }
    destruct K as (i & k & -> & B). cbn [crl_by c_extensions]. typed_tac.
  - intros _ p b H. apply read_from_file in H.
    rewrite Forall_forall in F. destruct (F b H) as (F1 & F2). split; [apply bytes_check; exact F1|exact F2].
  - intros _ p. apply read_from_errno.
  - lia.
  - constructor.
  - unfold PathProps.conf_ok. cbn. intuition discriminate.
Qed.
Ltac files_tac := cbn [map snd]; repeat (apply Forall_cons; [split; [vm_compute; reflexivity|split; [apply Nat.ltb_lt; vm_compute; reflexivity|apply Z.leb_le; vm_compute; reflexivity]]|]); apply Forall_nil.
Lemma toy_sane so : sane (toy so).
Proof.
  apply world_sane; [unfold disk; files_tac|apply prefixes_ok; [apply bytes_check|]; vm_compute; reflexivity].
Qed.

(** The same, with a manifest of no files; with a trust anchor that inherits. *)
Definition disk_empty : list (string * list Z) := [("/ta.cer", [1]); ("/r/t/rsync/e/d/m.mft", object oid_mft (manifest_of []) 1)]%string.
Definition inheriting : list raw_extension := [RawIP RFC6484 true (der_ip_blocks [{| f_family := [0; 1]; f_choice := IPC_inherit |}])].
Lemma empty_sane so : sane (world_of disk_empty (prefixes [10]) so).
Proof. apply world_sane; [unfold disk_empty; files_tac|apply prefixes_ok; [apply bytes_check|]; vm_compute; reflexivity]. Qed.
Lemma inheriting_sane so : sane (world_of disk inheriting so).
Proof. apply world_sane; [unfold disk; files_tac|]. constructor; [|constructor]. split; [apply bytes_check|]; vm_compute; reflexivity. Qed.
