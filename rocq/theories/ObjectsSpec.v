(** The ASN.1 modules of RFC 6482 (ROAs), RFC 6486 (manifests), RFC 3779
    (resources) and RFC 5652 (CMS), written down as their DER encodings (X.690).
    Nothing of the decoder, nor of its tables, is used here; only the records
    (Roa.v, Manifest.v, Resources.v, SignedData.v) the objects end up in. *)
From Verif Require Import Base BerSpec Address Resources Roa Manifest ManifestSpec SignedData.
Notation length := List.length.

(** ** DER *)

(** The digits of [n] in base 256, most significant first, without leading
    zeros; as many as [fuel] at most. *)
Fixpoint digits256 (fuel : nat) (n : Z) (acc : list Z) : list Z :=
  match fuel with
  | O => acc
  | S fuel' => if n =? 0 then acc else digits256 fuel' (n / 256) (n mod 256 :: acc)
  end.

(** X.690 10.1: the shortest length octets. *)
Definition len_octets (n : Z) : list Z :=
  if n <? 128 then [n] else let d := digits256 8 n [] in (128 + Z.of_nat (length d)) :: d.

(** An encoding whose identifier octet is [t]. *)
Definition tlv (t : Z) (body : list Z) : list Z := t :: len_octets (Z.of_nat (length body)) ++ body.

Definition INTEGER (i : list Z) : list Z := tlv 2 i.
Definition BIT_STRING (s : bit_string) : list Z := tlv 3 (bs_unused s :: bs_buf s).
Definition OCTET_STRING (s : list Z) : list Z := tlv 4 s.
Definition NULL : list Z := tlv 5 [].
Definition OBJECT_IDENTIFIER (o : list Z) : list Z := tlv 6 o.
Definition IA5String (s : list Z) : list Z := tlv 22 s.
Definition GeneralizedTime (s : list Z) : list Z := tlv 24 s.
Definition SEQUENCE (parts : list (list Z)) : list Z := tlv 48 (concat parts).
Definition SET (parts : list (list Z)) : list Z := tlv 49 (concat parts).
Definition OPTIONAL {A} (f : A -> list Z) (x : option A) : list Z := match x with Some x => f x | None => [] end.
(** Context-specific tags: EXPLICIT (and constructed IMPLICIT), and primitive
    IMPLICIT. *)
Definition CONTEXT (n : Z) (body : list Z) : list Z := tlv (160 + n) body.
Definition CONTEXT_PRIMITIVE (n : Z) (body : list Z) : list Z := tlv (128 + n) body.

(** A DER bit string: no more than 7 unused bits, which are zero. *)
Definition der_bits (s : bit_string) : Prop :=
  bytes (bs_buf s) /\ 0 <= bs_unused s <= 7 /\
  match rev (bs_buf s) with
  | [] => bs_unused s = 0
  | b :: _ => b mod 2 ^ bs_unused s = 0
  end.

(** Objects beyond a gigabyte are out of the question. *)
Definition reasonable (bs : list Z) : Prop := Z.of_nat (length bs) < 1073741824.

(** ** RFC 6482

    RouteOriginAttestation ::= SEQUENCE {
       version [0] INTEGER DEFAULT 0,
       asID  ASID,
       ipAddrBlocks SEQUENCE (SIZE(1..MAX)) OF ROAIPAddressFamily }
    ROAIPAddressFamily ::= SEQUENCE {
       addressFamily OCTET STRING (SIZE (2..3)),
       addresses SEQUENCE (SIZE (1..MAX)) OF ROAIPAddress }
    ROAIPAddress ::= SEQUENCE { address IPAddress, maxLength INTEGER OPTIONAL } *)
Definition der_roa_addr (a : roa_addr) : list Z := SEQUENCE [BIT_STRING (ra_address a); OPTIONAL INTEGER (ra_max a)].
Definition der_roa_block (family : list Z) (addrs : list roa_addr) : list Z :=
  SEQUENCE [OCTET_STRING family; SEQUENCE (map der_roa_addr addrs)].
Definition der_roa (version : option (list Z)) (asid : list Z) (blocks : list (list Z * list roa_addr)) : list Z :=
  SEQUENCE [OPTIONAL (fun v => CONTEXT 0 (INTEGER v)) version; INTEGER asid;
            SEQUENCE (map (fun b => der_roa_block (fst b) (snd b)) blocks)].

(** The structure it becomes: empty lists are NULL pointers. *)
Definition null_if_empty {A} (l : list A) : option (list A) := match l with [] => None | _ => Some l end.
Definition roa_of (version : option (list Z)) (asid : list Z) (blocks : list (list Z * list roa_addr)) : roa :=
  {| roa_version := version; roa_asid := asid;
     roa_blocks := null_if_empty (map (fun b => Some {| rb_family := fst b; rb_addresses := null_if_empty (snd b) |}) blocks) |}.

Definition roa_addr_fine (a : roa_addr) : Prop :=
  der_bits (ra_address a) /\ match ra_max a with Some m => bytes m | None => True end.
Definition roa_fine (version : option (list Z)) (asid : list Z) (blocks : list (list Z * list roa_addr)) : Prop :=
  match version with Some v => bytes v | None => True end /\ bytes asid
  /\ Forall (fun b => bytes (fst b) /\ Forall roa_addr_fine (snd b)) blocks.

(** ** RFC 6486

    Manifest ::= SEQUENCE {
       version [0] INTEGER DEFAULT 0,
       manifestNumber INTEGER (0..MAX),
       thisUpdate GeneralizedTime,
       nextUpdate GeneralizedTime,
       fileHashAlg OBJECT IDENTIFIER,
       fileList SEQUENCE SIZE (0..MAX) OF FileAndHash }
    FileAndHash ::= SEQUENCE { file IA5String, hash BIT STRING } *)
Definition der_file (f : fah) : list Z :=
  SEQUENCE [IA5String (Manifest.f_file f); BIT_STRING {| bs_buf := Manifest.f_hash f; bs_unused := Manifest.f_unused f |}].
Definition der_manifest (version : option (list Z)) (number this next alg : list Z) (files : list fah) : list Z :=
  SEQUENCE [OPTIONAL (fun v => CONTEXT 0 (INTEGER v)) version; INTEGER number; GeneralizedTime this; GeneralizedTime next;
            OBJECT_IDENTIFIER alg; SEQUENCE (map der_file files)].
Definition file_fine (f : fah) : Prop :=
  bytes (Manifest.f_file f) /\ der_bits {| bs_buf := Manifest.f_hash f; bs_unused := Manifest.f_unused f |}.

(** ** RFC 3779

    IPAddrBlocks ::= SEQUENCE OF IPAddressFamily
    IPAddressFamily ::= SEQUENCE {
       addressFamily OCTET STRING (SIZE (2..3)), ipAddressChoice IPAddressChoice }
    IPAddressChoice ::= CHOICE { inherit NULL, addressesOrRanges SEQUENCE OF IPAddressOrRange }
    IPAddressOrRange ::= CHOICE { addressPrefix IPAddress, addressRange IPAddressRange }
    IPAddressRange ::= SEQUENCE { min IPAddress, max IPAddress }

    ASIdentifiers ::= SEQUENCE {
       asnum [0] EXPLICIT ASIdentifierChoice OPTIONAL, rdi [1] EXPLICIT ASIdentifierChoice OPTIONAL }
    ASIdentifierChoice ::= CHOICE { inherit NULL, asIdsOrRanges SEQUENCE OF ASIdOrRange }
    ASIdOrRange ::= CHOICE { id ASId, range ASRange }
    ASRange ::= SEQUENCE { min ASId, max ASId } *)
Definition der_aor (a : aor) : list Z :=
  match a with
  | AOR_prefix p => BIT_STRING p
  | AOR_range lo hi => SEQUENCE [BIT_STRING lo; BIT_STRING hi]
  | AOR_nothing => []
  end.
Definition der_ip_choice (c : ip_choice) : list Z :=
  match c with
  | IPC_inherit => NULL
  | IPC_aors l => SEQUENCE (map der_aor l)
  | IPC_nothing => []
  end.
Definition der_ip_family (f : ip_family) : list Z := SEQUENCE [OCTET_STRING (f_family f); der_ip_choice (f_choice f)].
Definition der_ip_blocks (l : list ip_family) : list Z := SEQUENCE (map der_ip_family l).

Definition aor_fine (a : aor) : Prop :=
  match a with
  | AOR_prefix p => der_bits p
  | AOR_range lo hi => der_bits lo /\ der_bits hi
  | AOR_nothing => False
  end.
Definition ip_family_fine (f : ip_family) : Prop :=
  bytes (f_family f) /\
  match f_choice f with IPC_inherit => True | IPC_aors l => Forall aor_fine l | IPC_nothing => False end.

Definition der_asior (a : asior) : list Z :=
  match a with
  | ASI_id i => INTEGER i
  | ASI_range lo hi => SEQUENCE [INTEGER lo; INTEGER hi]
  | ASI_nothing => []
  end.
Definition der_as_choice (c : as_choice) : list Z :=
  match c with
  | ASC_inherit => NULL
  | ASC_iors l => SEQUENCE (map der_asior l)
  | ASC_nothing => []
  end.
Definition der_as_ids (num rdi : option as_choice) : list Z :=
  SEQUENCE [OPTIONAL (fun c => CONTEXT 0 (der_as_choice c)) num; OPTIONAL (fun c => CONTEXT 1 (der_as_choice c)) rdi].
Definition asior_fine (a : asior) : Prop :=
  match a with
  | ASI_id i => bytes i
  | ASI_range lo hi => bytes lo /\ bytes hi
  | ASI_nothing => False
  end.
Definition as_choice_fine (c : as_choice) : Prop :=
  match c with ASC_inherit => True | ASC_iors l => Forall asior_fine l | ASC_nothing => False end.

(** ** RFC 5652

    The ANY values: whatever is encoded, at every depth, as tag, length and
    contents (of short tags). *)
Inductive any_der : list Z -> Prop :=
| any_primitive cl num body : 0 <= cl < 4 -> 0 <= num < 31 -> bytes body ->
    any_der (tlv (cl * 64 + num) body)
| any_constructed cl num parts : 0 <= cl < 4 -> 0 <= num < 31 -> any_ders parts ->
    any_der (tlv (cl * 64 + 32 + num) (concat parts))
with any_ders : list (list Z) -> Prop :=
| any_none : any_ders []
| any_more p ps : any_der p -> any_ders ps -> any_ders (p :: ps).

(** AlgorithmIdentifier ::= SEQUENCE { algorithm OBJECT IDENTIFIER, parameters ANY OPTIONAL }
    Attribute ::= SEQUENCE { attrType OBJECT IDENTIFIER, attrValues SET OF ANY }
    SignerInfo ::= SEQUENCE {
       version INTEGER, sid CHOICE { ..., subjectKeyIdentifier [0] IMPLICIT OCTET STRING },
       digestAlgorithm AlgorithmIdentifier,
       signedAttrs [0] IMPLICIT SET OF Attribute OPTIONAL,
       signatureAlgorithm AlgorithmIdentifier,
       signature OCTET STRING,
       unsignedAttrs [1] IMPLICIT SET OF Attribute OPTIONAL }
    SignedData ::= SEQUENCE {
       version INTEGER, digestAlgorithms SET OF AlgorithmIdentifier,
       encapContentInfo SEQUENCE { eContentType OBJECT IDENTIFIER, eContent [0] EXPLICIT OCTET STRING OPTIONAL },
       certificates [0] IMPLICIT SET OF ANY OPTIONAL,
       crls [1] IMPLICIT ... OPTIONAL,
       signerInfos SET OF SignerInfo }
    ContentInfo ::= SEQUENCE { contentType OBJECT IDENTIFIER, content [0] EXPLICIT ANY } *)
Definition der_alg (a : alg_id) : list Z := SEQUENCE [OBJECT_IDENTIFIER (al_oid a); OPTIONAL (fun p => p) (al_params a)].
Definition der_attribute (a : attribute) : list Z := SEQUENCE [OBJECT_IDENTIFIER (at_type a); SET (at_values a)].
Definition der_attributes (n : Z) (l : list attribute) : list Z := CONTEXT n (concat (map der_attribute l)).
Definition der_signer (s : signer_info) (ski : list Z) : list Z :=
  SEQUENCE [INTEGER (si_version s); CONTEXT_PRIMITIVE 0 ski; der_alg (si_digest s);
            OPTIONAL (der_attributes 0) (si_attrs s); der_alg (si_sigalg s); OCTET_STRING (si_signature s);
            OPTIONAL (der_attributes 1) (si_unsigned s)].
Definition der_signed_data_with (f : list Z -> list Z) (sd : signed_data) (signers : list (signer_info * list Z)) : list Z :=
  SEQUENCE [INTEGER (sd_version sd); SET (map der_alg (sd_digests sd));
            SEQUENCE [OBJECT_IDENTIFIER (sd_ectype sd); OPTIONAL (fun c => CONTEXT 0 (f c)) (sd_econtent sd)];
            OPTIONAL (fun l => CONTEXT 0 (concat l)) (sd_certs sd);
            SET (map (fun s => der_signer (fst s) (snd s)) signers)].
Definition der_signed_data := der_signed_data_with OCTET_STRING.
(** PKCS #7 (RFC 2315): the content is ANY. *)
Definition der_signed_data_pkcs7 := der_signed_data_with (fun c => c).
Definition der_content_info (type content : list Z) : list Z := SEQUENCE [OBJECT_IDENTIFIER type; CONTEXT 0 content].

Definition alg_fine (a : alg_id) : Prop :=
  bytes (al_oid a) /\ match al_params a with Some p => any_der p | None => True end.
Definition attribute_fine (a : attribute) : Prop := bytes (at_type a) /\ Forall any_der (at_values a).
Definition attributes_fine (l : option (list attribute)) : Prop :=
  match l with Some l => Forall attribute_fine l | None => True end.
Definition signer_fine (s : signer_info) (ski : list Z) : Prop :=
  bytes (si_version s) /\ si_sid s = SidSKI ski /\ bytes ski /\ alg_fine (si_digest s) /\ attributes_fine (si_attrs s)
  /\ alg_fine (si_sigalg s) /\ bytes (si_signature s) /\ attributes_fine (si_unsigned s).
Definition signed_data_fine (sd : signed_data) (signers : list (signer_info * list Z)) : Prop :=
  bytes (sd_version sd) /\ Forall alg_fine (sd_digests sd) /\ bytes (sd_ectype sd)
  /\ match sd_econtent sd with Some c => bytes c | None => True end
  /\ match sd_certs sd with Some l => Forall any_der l | None => True end
  /\ sd_crls sd = None
  /\ sd_signers sd = map fst signers /\ Forall (fun s => signer_fine (fst s) (snd s)) signers.

(** What the checks of the decoder leave out of the manifests: one without
    version needs a number that isn't negative and a thisUpdate that is a time
    (C66). *)
Definition manifest_fine (version : option (list Z)) (number this next alg : list Z) (files : list fah) : Prop :=
  match version with Some v => bytes v | None => True end /\ bytes number /\ bytes this /\ bytes next /\ bytes alg /\ Forall file_fine files.
Definition manifest_passes (version : option (list Z)) (number this : list Z) : Prop :=
  version = None ->
  (number = [] \/ exists b number', number = b :: number' /\ b < 128)
  /\ exists y mo d h mi s, gt_text this y mo d h mi s /\ 1 <= mo <= 12 /\ 1 <= d <= 31 /\ h <= 23 /\ s <= 60.
(** And, of the IP resources, families other than of two or three octets (and,
    when empty bit strings come without a buffer, empty prefixes and ranges that
    begin with one). *)
Definition begins_empty (a : aor) : Prop :=
  match a with
  | AOR_prefix p => bs_buf p = []
  | AOR_range lo _ => bs_buf lo = []
  | AOR_nothing => False
  end.
Definition family_passes (nobuf : bool) (f : ip_family) : Prop :=
  (2 <= length (f_family f) <= 3)%nat
  /\ (nobuf = true -> forall l, f_choice f = IPC_aors l -> forall a, In a l -> ~ begins_empty a).
