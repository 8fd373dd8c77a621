(** From bytes to the C structures the validator works on: the decoder of
    Asn1Dec.v and Asn1Check.v, and the reading of what it leaves as the records
    of Roa.v, Manifest.v, Resources.v and SignedData.v.

    In C the reading is a cast of the structure; a value of another type cannot
    come out of the decoder (proved), and is [None] here.  A list without
    elements has a NULL array (src/asn1/asn1c/asn_SET_OF.c:14-42
    [asn_set_add]: it is allocated with the first element).

    [nobuf]: see Asn1Check.v; [turns]: see Asn1Dec.v. *)
From Verif Require Import Base Asn1 Address Resources Roa Manifest SignedData Asn1Dec Asn1Types Asn1Check Asn1Constraints.
Notation length := List.length.

(** A list of structures (A_SEQUENCE_OF, A_SET_OF). *)
Fixpoint view_list {A} (f : value -> option A) (vs : list value) : option (list A) :=
  match vs with
  | [] => Some []
  | v :: vs' =>
      match f v, view_list f vs' with
      | Some x, Some xs => Some (x :: xs)
      | _, _ => None
      end
  end.

(** INTEGER_t, OCTET_STRING_t, OBJECT_IDENTIFIER_t, ANY_t...: the bytes. *)
Definition view_bytes (v : value) : option (list Z) := match v with VBytes bs => Some bs | _ => None end.
(** A pointer to one of them. *)
Definition view_optional {A} (f : value -> option A) (v : option value) : option (option A) :=
  match v with
  | None => Some None
  | Some v => match f v with Some x => Some (Some x) | None => None end
  end.
(** BIT_STRING_t. *)
Definition view_bits (v : value) : option bit_string :=
  match v with VBits bs u => Some {| bs_buf := bs; bs_unused := u |} | _ => None end.
(** The array pointer of a list. *)
Definition array {A} (l : list A) : option (list A) := match l with [] => None | _ => Some l end.

(** ** ROAs *)

(** src/asn1/asn1c/ROAIPAddress.h:16-22 [ROAIPAddress]. *)
Definition view_roa_addr (v : value) : option roa_addr :=
  match v with
  | VSeq [Some a; m] =>
      match view_bits a, view_optional view_bytes m with
      | Some a, Some m => Some {| ra_address := a; ra_max := m |}
      | _, _ => None
      end
  | _ => None
  end.
(** src/asn1/asn1c/ROAIPAddressFamily.h:15-26 [ROAIPAddressFamily]. *)
Definition view_roa_block (v : value) : option roa_block :=
  match v with
  | VSeq [Some (VBytes f); Some (VOf l)] =>
      match view_list view_roa_addr l with
      | Some l => Some {| rb_family := f; rb_addresses := array l |}
      | None => None
      end
  | _ => None
  end.
(** src/asn1/asn1c/RouteOriginAttestation.h:15-27 [RouteOriginAttestation]. *)
Definition view_roa (v : value) : option roa :=
  match v with
  | VSeq [ver; Some (VBytes asid); Some (VOf l)] =>
      match view_optional view_bytes ver, view_list view_roa_block l with
      | Some ver, Some l => Some {| roa_version := ver; roa_asid := asid; roa_blocks := array (map Some l) |}
      | _, _ => None
      end
  | _ => None
  end.

(** The structure a caller of asn1_decode gets, if any. *)
Definition got {A} (f : value -> option A) (a : answer) : option A :=
  match a with Accepted v => f v | _ => None end.

(** src/object/roa.c:9-18 [decode_roa]. *)
Definition decode_roa (nobuf : bool) (turns : nat) (bs : list Z) : option roa :=
  got view_roa (asn1_decode nobuf turns t_RouteOriginAttestation k_RouteOriginAttestation bs).

(** ** Manifests *)

(** src/asn1/asn1c/FileAndHash.h:16-22 [FileAndHash]. *)
Definition view_fah (v : value) : option fah :=
  match v with
  | VSeq [Some (VBytes f); Some (VBits h u)] => Some {| Manifest.f_file := f; Manifest.f_hash := h; Manifest.f_unused := u |}
  | _ => None
  end.
(** src/asn1/asn1c/Manifest.h:18-33 [Manifest]; the record of Manifest.v holds
    what asn_INTEGER2ulong and validate_cms_hashing_algorithm_oid say of the
    version and the algorithm. *)
Definition view_manifest (v : value) : option manifest :=
  match v with
  | VSeq [ver; Some (VBytes num); Some (VBytes this); Some (VBytes next); Some (VBytes alg); Some (VOf l)] =>
      match view_optional view_bytes ver, view_list view_fah l with
      | Some ver, Some l =>
          Some {| m_version := option_map asn_INTEGER2ulong ver; m_number := num; m_this := this; m_next := next;
                  m_alg := match validate_cms_hashing_algorithm_oid alg with Ok tt => 0 | _ => -22 end;
                  m_files := l |}
      | _, _ => None
      end
  | _ => None
  end.
(** src/object/manifest.c:25-34 [decode_manifest]. *)
Definition decode_manifest (nobuf : bool) (turns : nat) (bs : list Z) : option manifest :=
  got view_manifest (asn1_decode nobuf turns t_Manifest k_Manifest bs).

(** ** RFC 3779 extensions *)

(** src/asn1/asn1c/IPAddressOrRange.h:22-31 [IPAddressOrRange]. *)
Definition view_aor (v : value) : option aor :=
  match v with
  | VChoice 0 (VBits bs u) => Some (AOR_prefix {| bs_buf := bs; bs_unused := u |})
  | VChoice 1 (VSeq [Some (VBits lo lu); Some (VBits hi hu)]) =>
      Some (AOR_range {| bs_buf := lo; bs_unused := lu |} {| bs_buf := hi; bs_unused := hu |})
  | _ => None
  end.
(** src/asn1/asn1c/IPAddressChoice.h:23-37 [IPAddressChoice]. *)
Definition view_ip_choice (v : value) : option ip_choice :=
  match v with
  | VChoice 0 VNull => Some IPC_inherit
  | VChoice 1 (VOf l) => option_map IPC_aors (view_list view_aor l)
  | _ => None
  end.
(** src/asn1/asn1c/IPAddressFamily.h:14-20 [IPAddressFamily]. *)
Definition view_ip_family (v : value) : option ip_family :=
  match v with
  | VSeq [Some (VBytes f); Some c] =>
      option_map (fun c => {| f_family := f; f_choice := c |}) (view_ip_choice c)
  | _ => None
  end.
Definition view_ip_blocks (v : value) : option (list ip_family) :=
  match v with VOf l => view_list view_ip_family l | _ => None end.
(** src/object/certificate.c:1090-1137 [handle_ip_extension], its asn1_decode. *)
Definition decode_ip_blocks (nobuf : bool) (turns : nat) (bs : list Z) : option (list ip_family) :=
  got view_ip_blocks (asn1_decode nobuf turns t_IPAddrBlocks k_IPAddrBlocks bs).

(** src/asn1/asn1c/ASIdOrRange.h:22-31 [ASIdOrRange]. *)
Definition view_asior (v : value) : option asior :=
  match v with
  | VChoice 0 (VBytes i) => Some (ASI_id i)
  | VChoice 1 (VSeq [Some (VBytes lo); Some (VBytes hi)]) => Some (ASI_range lo hi)
  | _ => None
  end.
(** src/asn1/asn1c/ASIdentifierChoice.h:23-37 [ASIdentifierChoice]. *)
Definition view_as_choice (v : value) : option as_choice :=
  match v with
  | VChoice 0 VNull => Some ASC_inherit
  | VChoice 1 (VOf l) => option_map ASC_iors (view_list view_asior l)
  | _ => None
  end.
(** src/asn1/asn1c/ASIdentifiers.h:14-20 [ASIdentifiers]. *)
Definition view_as_ids (v : value) : option as_ids :=
  match v with
  | VSeq [num; rdi] =>
      option_map (fun n => {| as_num := n; as_rdi := match rdi with Some _ => true | None => false end |})
        (view_optional view_as_choice num)
  | _ => None
  end.
(** src/object/certificate.c:1139-1157 [handle_asn_extension], its asn1_decode. *)
Definition decode_as_ids (nobuf : bool) (turns : nat) (bs : list Z) : option as_ids :=
  got view_as_ids (asn1_decode nobuf turns t_ASIdentifiers k_ASIdentifiers bs).

(** ** CMS *)

(** src/asn1/asn1c/AlgorithmIdentifier.h:16-22 [AlgorithmIdentifier] (also
    DigestAlgorithmIdentifier_t and SignatureAlgorithmIdentifier_t). *)
Definition view_alg (v : value) : option alg_id :=
  match v with
  | VSeq [Some (VBytes oid); p] =>
      option_map (fun p => {| al_oid := oid; al_params := p |}) (view_optional view_bytes p)
  | _ => None
  end.
(** src/asn1/asn1c/CMSAttribute.h:17-28 [CMSAttribute]. *)
Definition view_attribute (v : value) : option attribute :=
  match v with
  | VSeq [Some (VBytes t); Some (VOf l)] =>
      option_map (fun l => {| at_type := t; at_values := l |}) (view_list view_bytes l)
  | _ => None
  end.
(** SignedAttributes_t, UnsignedAttributes_t: A_SET_OF(CMSAttribute). *)
Definition view_attributes (v : value) : option (list attribute) :=
  match v with VOf l => view_list view_attribute l | _ => None end.
(** src/asn1/asn1c/SignerIdentifier.h:22-31 [SignerIdentifier]. *)
Definition view_sid (v : value) : option signer_id :=
  match v with
  | VChoice 0 _ => Some SidIssuerSerial
  | VChoice 1 (VBytes ski) => Some (SidSKI ski)
  | _ => None
  end.
(** src/asn1/asn1c/SignerInfo.h:20-31 [SignerInfo]. *)
Definition view_signer (v : value) : option signer_info :=
  match v with
  | VSeq [Some (VBytes ver); Some sid; Some dalg; attrs; Some salg; Some (VBytes sig); unsigned] =>
      match view_sid sid, view_alg dalg, view_optional view_attributes attrs, view_alg salg,
            view_optional view_attributes unsigned with
      | Some sid, Some dalg, Some attrs, Some salg, Some unsigned =>
          Some {| si_version := ver; si_sid := sid; si_digest := dalg; si_attrs := attrs; si_sigalg := salg;
                  si_signature := sig; si_unsigned := unsigned |}
      | _, _, _, _, _ => None
      end
  | _ => None
  end.
(** A_SET_OF(ANY_t), and of something else. *)
Definition view_anys (v : value) : option (list (list Z)) :=
  match v with VOf l => view_list view_bytes l | _ => None end.
Definition view_algs (v : value) : option (list alg_id) :=
  match v with VOf l => view_list view_alg l | _ => None end.
Definition view_signers (v : value) : option (list signer_info) :=
  match v with VOf l => view_list view_signer l | _ => None end.
(** Nothing but its presence is used of the crls field. *)
Definition view_crls (v : value) : option (list (list Z)) :=
  match v with VOf l => Some (map (fun _ => []) l) | _ => None end.
(** src/asn1/asn1c/SignedData.h:18-28 [SignedData],
    src/asn1/asn1c/EncapsulatedContentInfo.h:15-21 [EncapsulatedContentInfo].
    SignedDataPKCS7_t is the same, the content being an ANY_t. *)
Definition view_signed_data (v : value) : option signed_data :=
  match v with
  | VSeq [Some (VBytes ver); Some digests; Some (VSeq [Some (VBytes t); content]); certs; crls; Some signers] =>
      match view_algs digests, view_optional view_bytes content, view_optional view_anys certs,
            view_optional view_crls crls, view_signers signers with
      | Some digests, Some content, Some certs, Some crls, Some signers =>
          Some {| sd_version := ver; sd_digests := digests; sd_ectype := t; sd_econtent := content;
                  sd_certs := certs; sd_crls := crls; sd_signers := signers |}
      | _, _, _, _, _ => None
      end
  | _ => None
  end.

(** src/asn1/signed_data.c:432-445 [signed_data_decode], its asn1_decode. *)
Definition decode_signed_data (nobuf : bool) (turns : nat) (bs : list Z) : option signed_data :=
  got view_signed_data (asn1_decode nobuf turns t_SignedData k_SignedData bs).
(** src/asn1/signed_data.c:389-430 [signed_data_decode_pkcs7], its first
    asn1_decode, and the content. *)
Definition decode_signed_data_pkcs7 (nobuf : bool) (turns : nat) (bs : list Z) : option (signed_data * option (list Z)) :=
  option_map (fun sd => (sd, sd_econtent sd))
    (got view_signed_data (asn1_decode nobuf turns t_SignedDataPKCS7 k_SignedDataPKCS7 bs)).

(** src/asn1/asn1c/ContentInfo.h:15-21 [ContentInfo].  The memory allocated for
    the content goes on after it (OCTET_STRING.c, APPEND); [slack] is what is
    there. *)
Definition view_content_info (slack : list Z) (v : value) : option (list Z * list Z * nat) :=
  match v with
  | VSeq [Some (VBytes t); Some (VBytes content)] => Some (t, content ++ slack, length content)
  | _ => None
  end.
(** src/asn1/content_info.c:27-48 [decode]. *)
Definition decode_content_info (slack : list Z) (nobuf : bool) (turns : nat) (bs : list Z) : option (list Z * list Z * nat) :=
  got (view_content_info slack) (asn1_decode nobuf turns t_ContentInfo k_ContentInfo bs).

(** src/asn1/signed_data.c:116-135 [validate_content_type_attribute], 355-387
    [get_content_type_attr]: OBJECT_IDENTIFIER; 137-158
    [validate_message_digest_attribute]: MessageDigest (ContentTypePKCS7, line 404,
    has the same descriptor). *)
Definition decode_oid (nobuf : bool) (turns : nat) (bs : list Z) : option (list Z) :=
  got view_bytes (asn1_decode nobuf turns t_OBJECT_IDENTIFIER k_OBJECT_IDENTIFIER bs).
Definition decode_octets (nobuf : bool) (turns : nat) (bs : list Z) : option (list Z) :=
  got view_bytes (asn1_decode nobuf turns t_MessageDigest k_MessageDigest bs).
