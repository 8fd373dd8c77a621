(** Model of the JSON that print mode (--mode=print) shows of a signed object:
    src/asn1/asn1c/json_encoder.c and the json_encoder of every type of a
    signed object (INTEGER.c, OCTET_STRING.c, OBJECT_IDENTIFIER.c,
    GeneralizedTime.c, UTCTime.c, BOOLEAN.c, NULL.c, constr_*.c,
    ROAIPAddressFamily.c, ContentInfo.c, EncapsulatedContentInfo.c,
    CMSAttribute.c, CertificateSet.c), and src/json_util.c's constructors.

    The structures are the values of Asn1Dec.v; a NULL pointer is [None].  An
    encoder returns a JSON tree ([Ok]), NULL ([Err]), or crashes ([UB]: a NULL
    dereference, a failed assert, or a structure which isn't of the type).
    Allocations succeed.  References are not modelled (a tree that is dropped
    is freed).  Libraries: of OpenSSL, the object table ([nid], [sn]) and the
    certificates ([certificate]: Certificate_any2json, modelled in CertJson.v)
    are arguments. *)
From Coq Require Import String.
From Verif Require Import Base CString Slurm Oid Ntop Address Manifest Asn1Dec Asn1Types.
Notation length := List.length.
Open Scope list_scope.
Open Scope Z_scope.

(** ** jansson *)

(** jansson 2.14, utf.c [utf8_check_first]: how many bytes the character takes; 0: none starts so. *)
Definition utf8_check_first (u : Z) : nat :=
  if u <? 128 then 1
  else if u <=? 191 then 0
  else if (u =? 192) || (u =? 193) then 0
  else if u <=? 223 then 2
  else if u <=? 239 then 3
  else if u <=? 244 then 4
  else 0.
(** jansson 2.14, utf.c [utf8_check_full], whose argument has [size] bytes. *)
Fixpoint utf8_tail (value : Z) (tail : list Z) : option Z :=
  match tail with
  | [] => Some value
  | u :: tail => if (u <? 128) || (191 <? u) then None else utf8_tail (value * 64 + Z.land u 63) tail
  end.
Definition utf8_check_full (size : nat) (first : Z) (tail : list Z) : bool :=
  let value := Z.land first (match size with 2%nat => 31 | 3%nat => 15 | _ => 7 end) in
  match utf8_tail value tail with
  | None => false
  | Some value =>
      if 1114111 <? value then false
      else if (55296 <=? value) && (value <=? 57343) then false
      else negb ((size =? 2)%nat && (value <? 128) || (size =? 3)%nat && (value <? 2048) || (size =? 4)%nat && (value <? 65536))
  end.
(** jansson 2.14, utf.c [utf8_check_string]; [fuel]: the length. *)
Fixpoint utf8_check_loop (fuel : nat) (s : list Z) : bool :=
  match fuel, s with
  | _, [] => true
  | O, _ => false
  | S fuel, u :: s =>
      match utf8_check_first u with
      | O => false
      | 1%nat => utf8_check_loop fuel s
      | count =>
          if (length (u :: s) <? count)%nat then false
          else if utf8_check_full count u (firstn (count - 1) s) then utf8_check_loop fuel (skipn (count - 1) s) else false
      end
  end.
Definition utf8_check_string (s : list Z) : bool := utf8_check_loop (length s) s.

(** src/json_util.c:298-305 [json_str_new], 307-315 [json_strn_new]: NULL unless it's UTF-8. *)
Definition json_strn_new (s : list Z) : res json := if utf8_check_string s then Ok (JStr s) else Err EINVAL.
Definition json_str_new := json_strn_new.
(** src/json_util.c:288-296 [json_int_new]. *)
Definition json_int_new (n : Z) : res json := Ok (JInt n).
(** jansson's json_null. *)
Definition json_null : res json := Ok JOther.
(** jansson's json_object_set_new: replaces the member if there's one. *)
Fixpoint json_object_set (m : list (list Z * json)) (name : list Z) (value : json) : list (list Z * json) :=
  match m with
  | [] => [(name, value)]
  | (k, v) :: m => if list_eqb Z.eqb k name then (k, value) :: m else (k, v) :: json_object_set m name value
  end.
(** src/json_util.c:317-330 [json_object_add]. *)
Definition json_object_add (m : list (list Z * json)) (name : list Z) (value : res json) : res (list (list Z * json)) :=
  match value with Ok value => Ok (json_object_set m name value) | Err e => Err e | UB => UB end.
(** src/json_util.c:332-344 [json_array_add]. *)
Definition json_array_add (l : list json) (node : res json) : res (list json) :=
  match node with Ok node => Ok (l ++ [node]) | Err e => Err e | UB => UB end.
Definition finish (m : res (list (list Z * json))) : res json := match m with Ok m => Ok (JObj m) | Err e => Err e | UB => UB end.
Definition finish_array (l : res (list json)) : res json := match l with Ok l => Ok (JArr l) | Err e => Err e | UB => UB end.

(** ** Integers *)

(** src/asn1/asn1c/INTEGER.c:310-316: skips the insignificant leading bytes. *)
Fixpoint skip_insignificant (b : list Z) : list Z :=
  match b with
  | x :: ((y :: _) as b') =>
      if (x =? 0) && (Z.land y 128 =? 0) then skip_insignificant b'
      else if (x =? 255) && negb (Z.land y 128 =? 0) then skip_insignificant b'
      else b
  | _ => b
  end.
(** src/asn1/asn1c/INTEGER.c:265-283 [asn__integer_convert]; uintmax_t has 64 bits, intmax_t too. *)
Definition two64 : Z := 18446744073709551616.
Definition integer_convert (b : list Z) : Z :=
  let start := match b with x :: _ => if Z.shiftr x 7 =? 0 then 0 else two64 - 1 | [] => 0 end in
  let value := fold_left (fun value x => Z.lor (Z.shiftl value 8 mod two64) x) b start in
  if value <? 9223372036854775808 then value else value - two64.
(** src/asn1/asn1c/INTEGER.c:285-334 [asn_INTEGER2imax]; [None]: -1. *)
Definition asn_INTEGER2imax (b : list Z) : option Z :=
  let b := if (8 <? length b)%nat then skip_insignificant b else b in
  if (8 <? length b)%nat then None
  else match b with [] => Some 0 | _ => Some (integer_convert b) end.
(** src/asn1/asn1c/INTEGER.c:223-244 [INTEGER_encode_json]; no type of a signed object is field_unsigned. *)
Definition INTEGER_encode_json (v : option value) : res json :=
  match v with
  | None => Err EINVAL
  | Some (VBytes b) => match asn_INTEGER2imax b with Some n => json_int_new n | None => Err EINVAL end
  | Some _ => UB
  end.

(** ** Strings *)

(** src/asn1/asn1c/OCTET_STRING.c:594, 605-606: a byte in hexadecimal. *)
Definition H2C (n : Z) : Z := nth (Z.to_nat n) (cstr "0123456789abcdef") 0.
Definition hex_of (buf : list Z) : list Z :=
  flat_map (fun b => [H2C (Z.land (Z.shiftr b 4) 15); H2C (Z.land b 15)]) buf.
(** src/asn1/asn1c/OCTET_STRING.c:590-614 [OCTET_STRING_encode_json]: OCTET STRING, BIT STRING, ANY. *)
Definition OCTET_STRING_encode_json (v : option value) : res json :=
  match v with
  | Some (VBytes b) | Some (VBits b _) => json_strn_new (hex_of b)
  | _ => UB
  end.
(** src/asn1/asn1c/OCTET_STRING.c:616-622 [OCTET_STRING_encode_json_utf8]. *)
Definition OCTET_STRING_encode_json_utf8 (v : option value) : res json :=
  match v with
  | Some (VBytes b) => json_strn_new b
  | _ => UB
  end.
(** src/asn1/asn1c/BOOLEAN.c:137-142 [BOOLEAN_encode_json]. *)
Definition BOOLEAN_encode_json (v : option value) : res json :=
  match v with
  | None => json_null
  | Some (VBool b) => Ok (JBool (negb (b =? 0)))
  | Some _ => UB
  end.
(** src/asn1/asn1c/NULL.c:113-117 [NULL_encode_json]. *)
Definition NULL_encode_json (v : option value) : res json := json_null.

(** ** Times *)

(** printf("%0nd") of a number that isn't negative. *)
Definition padded (n : nat) (v : Z) : list Z := let d := udec v in repeat 48 (n - length d) ++ d.
(** src/asn1/asn1c/GeneralizedTime.c:207-219 [asn_tm2str]; ASN_TM_STR_MAXLEN is 21. *)
Definition asn_tm2str (t : tm) : res (list Z) :=
  let s := padded 4 (tm_year t + 1900) ++ [45] ++ padded 2 (tm_mon t + 1) ++ [45] ++ padded 2 (tm_mday t) ++ [32]
           ++ padded 2 (tm_hour t) ++ [58] ++ padded 2 (tm_min t) ++ [58] ++ padded 2 (tm_sec t) ++ [90] in
  if (length s =? 20)%nat then Ok s else UB.
Definition time_json (t : res (option tm)) : res json :=
  match t with
  | Ok (Some t) => match asn_tm2str t with Ok s => json_str_new s | Err e => Err e | UB => UB end
  | Ok None => Err EINVAL
  | Err e => Err e
  | UB => UB
  end.
(** src/asn1/asn1c/GeneralizedTime.c:85-94, 142-155 [GeneralizedTime2str], [GeneralizedTime_encode_json]
    (the buffer of a time that was decoded isn't NULL). *)
Definition GeneralizedTime_encode_json (v : option value) : res json :=
  match v with
  | None => json_null
  | Some (VBytes st) => time_json (asn_GT2time st)
  | Some _ => UB
  end.
(** src/asn1/asn1c/UTCTime.c:148-173 [asn_UT2time]; the buffer has 24 bytes. *)
Definition asn_UT2time (st : list Z) : res (option tm) :=
  if (length st <? 11)%nat || (22 <=? length st)%nat then Ok None
  else match st with
       | [] => UB
       | c :: _ => asn_GT2time ((if 53 <? c then [49; 57] else [50; 48]) ++ st)
       end.
(** src/asn1/asn1c/UTCTime.c:103-113, 133-146 [UTCTime2str], [UTCTime_encode_json]. *)
Definition UTCTime_encode_json (v : option value) : res json :=
  match v with
  | None => json_null
  | Some (VBytes st) => time_json (asn_UT2time st)
  | Some _ => UB
  end.

(** ** Structures *)

(** src/asn1/asn1c/constr_TYPE.h:86-122 [asn_TYPE_descriptor_t], :128-151 [asn_TYPE_member_t], the fields the JSON encoders use: op->json_encoder
    and the members.  A member: its name, whether it's optional, what it holds
    when it isn't there ([None]: a NULL pointer; otherwise it's inside the
    structure, zeroed), its type.  [JtOp]: the types that have an encoder of
    their own. *)
Inductive jty : Type :=
| JtSeq (ms : list (list Z * bool * option value * jty))
| JtOf (elem : jty)
| JtChoice (ms : list jty)
| JtOp (op : option value -> res json).

(** src/asn1/asn1c/constr_SEQUENCE.c:620-654 [SEQUENCE_encode_json], constr_SET_OF.c:498-528 [SET_OF_encode_json]
    (SEQUENCE OF too: constr_SEQUENCE_OF.h), constr_CHOICE.c:526-551 [CHOICE_encode_json] (a CHOICE that was decoded has a member). *)
Fixpoint encode_json (t : jty) (v : option value) {struct t} : res json :=
  match t with
  | JtOp op => op v
  | JtSeq ms =>
      match v with
      | None => json_null
      | Some (VSeq vs) =>
          finish
            ((fix members (ms : list (list Z * bool * option value * jty)) (vs : list (option value)) (acc : list (list Z * json)) : res (list (list Z * json)) :=
              match ms, vs with
              | [], [] => Ok acc
              | (name, optional, zero, t) :: ms, v :: vs =>
                  let v := match v with Some v => Some v | None => zero end in
                  match v, optional with
                  | None, true => members ms vs acc
                  | _, _ => match json_object_add acc name (encode_json t v) with
                            | Ok acc => members ms vs acc
                            | Err e => Err e
                            | UB => UB
                            end
                  end
              | _, _ => UB
              end) ms vs [])
      | Some _ => UB
      end
  | JtOf t =>
      match v with
      | None => json_null
      | Some (VOf vs) =>
          finish_array
            ((fix elements (vs : list value) (acc : list json) : res (list json) :=
              match vs with
              | [] => Ok acc
              | v :: vs => match json_array_add acc (encode_json t (Some v)) with
                           | Ok acc => elements vs acc
                           | Err e => Err e
                           | UB => UB
                           end
              end) vs [])
      | Some _ => UB
      end
  | JtChoice ms =>
      match v with
      | None => json_null
      | Some (VChoice k v) =>
          (fix member (ms : list jty) (k : nat) : res json :=
            match ms, k with
            | t :: _, O => encode_json t (Some v)
            | _ :: ms, S k => member ms k
            | [], _ => json_null
            end) ms k
      | Some _ => UB
      end
  end.

(** ** The addresses of a ROA *)

(** src/asn1/asn1c/ROAIPAddressFamily.c:14-31 [prefix2json]. *)
Definition prefix2json (prefix : list Z) (len : Z) : res (list (list Z * json)) :=
  bind (json_object_add [] (cstr "prefix") (json_str_new prefix)) (fun root =>
  json_object_add root (cstr "length") (json_int_new len)).
(** src/asn1/asn1c/ROAIPAddressFamily.c:33-45 [prefix4_to_json], 47-59 [prefix6_to_json] (what doesn't fit in the buffers of inet_ntop doesn't exist). *)
Definition prefix4_to_json (a : bit_string) : res (list (list Z * json)) :=
  bind (prefix4_decode a) (fun '(addr, len) => prefix2json (ntop4 addr) len).
Definition addr6_number (bytes : list Z) : Z := fold_left (fun n b => n * 256 + b) bytes 0.
Definition prefix6_to_json (a : bit_string) : res (list (list Z * json)) :=
  bind (prefix6_decode a) (fun '(addr, len) => prefix2json (ntop6 (addr6_number addr)) len).
(** src/asn1/asn1c/ROAIPAddressFamily.c:79-92: the loop of AddrBlock2json.  An address is
    appended to the array before it gets its maxLength, which isn't optional here. *)
Fixpoint addresses2json (pref2json : bit_string -> res (list (list Z * json))) (vs : list value) (addrs : list json) : res (list json) :=
  match vs with
  | [] => Ok addrs
  | VSeq [Some (VBits buf unused); maxLength] :: vs =>
      bind (pref2json {| bs_buf := buf; bs_unused := unused |}) (fun pfx =>
      bind (json_object_add pfx (cstr "maxLength") (INTEGER_encode_json maxLength)) (fun pfx =>
      addresses2json pref2json vs (addrs ++ [JObj pfx])))
  | _ :: _ => UB
  end.
(** src/asn1/asn1c/ROAIPAddressFamily.c:61-96 [AddrBlock2json]. *)
Definition AddrBlock2json (ipname : list Z) (pref2json : bit_string -> res (list (list Z * json))) (vs : list value) : res json :=
  finish (bind (json_object_add [] (cstr "addressFamily") (json_str_new ipname)) (fun root =>
          bind (addresses2json pref2json vs []) (fun addrs =>
          json_object_add root (cstr "addresses") (Ok (JArr addrs))))).

(** ** The types *)

Definition jt_INTEGER : jty := JtOp INTEGER_encode_json.
Definition jt_OCTET_STRING : jty := JtOp OCTET_STRING_encode_json.
(** src/asn1/asn1c/BIT_STRING.c:30, ANY.c:27. *)
Definition jt_BIT_STRING : jty := JtOp OCTET_STRING_encode_json.
Definition jt_ANY : jty := JtOp OCTET_STRING_encode_json.
(** src/asn1/asn1c/IA5String.c:20. *)
Definition jt_IA5String : jty := JtOp OCTET_STRING_encode_json_utf8.
Definition jt_GeneralizedTime : jty := JtOp GeneralizedTime_encode_json.
Definition jt_UTCTime : jty := JtOp UTCTime_encode_json.
Definition jt_BOOLEAN : jty := JtOp BOOLEAN_encode_json.

Definition mandatory (name : string) (t : jty) : list Z * bool * option value * jty := (cstr name, false, None, t).
Definition pointer (name : string) (t : jty) : list Z * bool * option value * jty := (cstr name, true, None, t).

(** src/asn1/asn1c/ROAIPAddress.c:10-29. *)
Definition jt_ROAIPAddress : jty := JtSeq [mandatory "address" jt_BIT_STRING; pointer "maxLength" jt_INTEGER].
(** src/asn1/asn1c/ROAIPAddressFamily.c:195-214. *)
Definition jt_ROAIPAddressFamily_sequence : jty := JtSeq [mandatory "addressFamily" jt_OCTET_STRING; mandatory "addresses" (JtOf jt_ROAIPAddress)].
(** src/asn1/asn1c/ROAIPAddressFamily.c:98-114 [ROAIPAddressFamily_encode_json]. *)
Definition ROAIPAddressFamily_encode_json (v : option value) : res json :=
  match v with
  | None => json_null
  | Some (VSeq [Some (VBytes af); Some (VOf addresses)]) =>
      if list_eqb Z.eqb af [0; 1] then AddrBlock2json (cstr "IPv4") prefix4_to_json addresses
      else if list_eqb Z.eqb af [0; 2] then AddrBlock2json (cstr "IPv6") prefix6_to_json addresses
      else encode_json jt_ROAIPAddressFamily_sequence v
  | Some _ => UB
  end.
(** src/asn1/asn1c/RouteOriginAttestation.c:99-128. *)
Definition jt_RouteOriginAttestation : jty :=
  JtSeq [pointer "version" jt_INTEGER; mandatory "asId" jt_INTEGER; mandatory "ipAddrBlocks" (JtOf (JtOp ROAIPAddressFamily_encode_json))].

(** src/asn1/asn1c/json_encoder.c:17-31 [ber2json]: decodes and encodes ([turns]: see Asn1Dec.v). *)
Definition ber2json (turns : nat) (t : ty) (j : jty) (bs : list Z) : res json :=
  match ber_decode turns t bs with
  | Done _ v => encode_json j (Some v)
  | Failed => Err EINVAL
  | Fault | Spin => UB
  end.

Section LIBCRYPTO.
  (** src/asn1/asn1c/OBJECT_IDENTIFIER.c:224-238 [OBJECT_IDENTIFIER_to_nid]: ASN1_OBJECT_create and OBJ_obj2nid
      (NID_undef, 0: none). *)
  Variable nid : list Z -> Z.
  (** OBJ_nid2sn. *)
  Variable sn : Z -> option (list Z).
  (** src/asn1/asn1c/Certificate.c:172-198 [Certificate_any2json]. *)
  Variable certificate : list Z -> res json.
  Variable turns : nat.
  (** The identifiers of libcrypto's objects.h, and those of src/nid.c [nid_ct_mft], [nid_ct_roa], [nid_ct_gbr]. *)
  Variables NID_pkcs7_signed NID_pkcs9_contentType NID_pkcs9_messageDigest NID_pkcs9_signingTime nid_ct_mft nid_ct_roa nid_ct_gbr : Z.

  (** src/asn1/asn1c/OBJECT_IDENTIFIER.c:268-278, 280-290 [OBJECT_IDENTIFIER_to_string], [OBJECT_IDENTIFIER_encode_json]. *)
  Definition OBJECT_IDENTIFIER_encode_json (v : option value) : res json :=
    match v with
    | None => Err EINVAL
    | Some (VBytes oid) =>
        match (match sn (nid oid) with Some s => Some s | None => OBJECT_IDENTIFIER_to_literal oid end) with
        | Some s => json_str_new s
        | None => Err EINVAL
        end
    | Some _ => UB
    end.
  Definition jt_OBJECT_IDENTIFIER : jty := JtOp OBJECT_IDENTIFIER_encode_json.

  (** src/asn1/asn1c/FileAndHash.c:10-29. *)
  Definition jt_FileAndHash : jty := JtSeq [mandatory "file" jt_IA5String; mandatory "hash" jt_BIT_STRING].
  (** src/asn1/asn1c/Manifest.c:119-175. *)
  Definition jt_Manifest : jty :=
    JtSeq [pointer "version" jt_INTEGER; mandatory "manifestNumber" jt_INTEGER; mandatory "thisUpdate" jt_GeneralizedTime;
           mandatory "nextUpdate" jt_GeneralizedTime; mandatory "fileHashAlg" jt_OBJECT_IDENTIFIER; mandatory "fileList" (JtOf jt_FileAndHash)].

  (** src/asn1/asn1c/AlgorithmIdentifier.c:10-29. *)
  Definition jt_AlgorithmIdentifier : jty := JtSeq [mandatory "algorithm" jt_OBJECT_IDENTIFIER; pointer "parameters" jt_ANY].
  (** src/asn1/asn1c/AttributeTypeAndValue.c:10-29, Name.c:10-20. *)
  Definition jt_AttributeTypeAndValue : jty := JtSeq [mandatory "type" jt_OBJECT_IDENTIFIER; mandatory "value" jt_ANY].
  Definition jt_Name : jty := JtChoice [JtOf (JtOf jt_AttributeTypeAndValue)].
  (** src/asn1/asn1c/Time.c:10-29. *)
  Definition jt_Time : jty := JtChoice [jt_UTCTime; jt_GeneralizedTime].
  (** src/asn1/asn1c/Extension.c:34-63: critical is part of the structure. *)
  Definition jt_Extension : jty :=
    JtSeq [mandatory "extnID" jt_OBJECT_IDENTIFIER; (cstr "critical", true, Some (VBool 0), jt_BOOLEAN); mandatory "extnValue" jt_OCTET_STRING].
  (** src/asn1/asn1c/TBSCertList.c:12-40, 110-174. *)
  Definition jt_TBSCertList_Member : jty :=
    JtSeq [mandatory "userCertificate" jt_INTEGER; mandatory "revocationDate" jt_Time; pointer "crlEntryExtensions" (JtOf jt_Extension)].
  Definition jt_TBSCertList : jty :=
    JtSeq [pointer "version" jt_INTEGER; mandatory "signature" jt_AlgorithmIdentifier; mandatory "issuer" jt_Name; mandatory "thisUpdate" jt_Time;
           pointer "nextUpdate" jt_Time; pointer "revokedCertificates" (JtOf jt_TBSCertList_Member); pointer "crlExtensions" (JtOf jt_Extension)].
  (** src/asn1/asn1c/CertificateList.c:10-38, OtherRevocationInfoFormat.c:10-29, RevocationInfoChoice.c:10-29. *)
  Definition jt_CertificateList : jty :=
    JtSeq [mandatory "tbsCertList" jt_TBSCertList; mandatory "signatureAlgorithm" jt_AlgorithmIdentifier; mandatory "signature" jt_BIT_STRING].
  Definition jt_OtherRevocationInfoFormat : jty := JtSeq [mandatory "otherRevInfoFormat" jt_OBJECT_IDENTIFIER; mandatory "otherRevInfo" jt_ANY].
  Definition jt_RevocationInfoChoice : jty := JtChoice [jt_CertificateList; jt_OtherRevocationInfoFormat].
  (** src/asn1/asn1c/IssuerAndSerialNumber.c:10-29, SignerIdentifier.c:10-29. *)
  Definition jt_IssuerAndSerialNumber : jty := JtSeq [mandatory "issuer" jt_Name; mandatory "serialNumber" jt_INTEGER].
  Definition jt_SignerIdentifier : jty := JtChoice [jt_IssuerAndSerialNumber; jt_OCTET_STRING].

  (** src/asn1/asn1c/CMSAttribute.c:38-62: the type of the values of an attribute. *)
  Definition attribute_type (type : Z) : ty * jty :=
    if type =? NID_pkcs9_contentType then (t_ContentType, jt_OBJECT_IDENTIFIER)
    else if type =? NID_pkcs9_messageDigest then (t_MessageDigest, jt_OCTET_STRING)
    else if type =? NID_pkcs9_signingTime then (t_Time, jt_Time)
    else (t_ANY, jt_ANY).
  (** src/asn1/asn1c/CMSAttribute.c:56-60, ANY.c:175-179 [ANY_to_json]. *)
  Fixpoint values2json (td : ty * jty) (vs : list value) (acc : list json) : res (list json) :=
    match vs with
    | [] => Ok acc
    | VBytes b :: vs =>
        match json_array_add acc (ber2json turns (fst td) (snd td) b) with
        | Ok acc => values2json td vs acc
        | Err e => Err e
        | UB => UB
        end
    | _ :: _ => UB
    end.
  (** src/asn1/asn1c/CMSAttribute.c:18-65 [CMSAttribute_encode_json]. *)
  Definition CMSAttribute_encode_json (v : option value) : res json :=
    match v with
    | None => json_null
    | Some (VSeq [Some (VBytes attrType); Some (VOf attrValues)]) =>
        finish (bind (json_object_add [] (cstr "attrType") (OBJECT_IDENTIFIER_encode_json (Some (VBytes attrType)))) (fun root =>
                bind (values2json (attribute_type (nid attrType)) attrValues []) (fun array =>
                json_object_add root (cstr "attrValues") (Ok (JArr array)))))
    | Some _ => UB
    end.

  (** src/asn1/asn1c/CertificateSet.c:13-41 [CertificateSet_encode_json]. *)
  Fixpoint certificates2json (vs : list value) (acc : list json) : res (list json) :=
    match vs with
    | [] => Ok acc
    | VBytes b :: vs =>
        match json_array_add acc (certificate b) with
        | Ok acc => certificates2json vs acc
        | Err e => Err e
        | UB => UB
        end
    | _ :: _ => UB
    end.
  Definition CertificateSet_encode_json (v : option value) : res json :=
    match v with
    | None => json_null
    | Some (VOf vs) => finish_array (certificates2json vs [])
    | Some _ => UB
    end.

  (** src/asn1/asn1c/OCTET_STRING.c:950-954 [OCTET_STRING_to_json]: dereferences its argument. *)
  Definition OCTET_STRING_to_json (t : ty) (j : jty) (v : option value) : res json :=
    match v with
    | Some (VBytes b) => ber2json turns t j b
    | _ => UB
    end.
  (** src/asn1/asn1c/EncapsulatedContentInfo.c:15-58 [EncapsulatedContentInfo_encode_json]. *)
  Definition EncapsulatedContentInfo_encode_json (v : option value) : res json :=
    match v with
    | None => json_null
    | Some (VSeq [Some (VBytes eContentType); eContent]) =>
        finish (bind (json_object_add [] (cstr "eContentType") (OBJECT_IDENTIFIER_encode_json (Some (VBytes eContentType)))) (fun parent =>
                let type := nid eContentType in
                let child :=
                  if type =? nid_ct_mft then OCTET_STRING_to_json t_Manifest jt_Manifest eContent
                  else if type =? nid_ct_roa then OCTET_STRING_to_json t_RouteOriginAttestation jt_RouteOriginAttestation eContent
                  else if type =? nid_ct_gbr then OCTET_STRING_encode_json_utf8 eContent
                  else OCTET_STRING_encode_json eContent in
                json_object_add parent (cstr "eContent") child))
    | Some _ => UB
    end.

  (** src/asn1/asn1c/SignerInfo.c:10-74. *)
  Definition jt_SignerInfo : jty :=
    JtSeq [mandatory "version" jt_INTEGER; mandatory "sid" jt_SignerIdentifier; mandatory "digestAlgorithm" jt_AlgorithmIdentifier;
           pointer "signedAttrs" (JtOf (JtOp CMSAttribute_encode_json)); mandatory "signatureAlgorithm" jt_AlgorithmIdentifier;
           mandatory "signature" jt_OCTET_STRING; pointer "unsignedAttrs" (JtOf (JtOp CMSAttribute_encode_json))].
  (** src/asn1/asn1c/SignedData.c:10-65. *)
  Definition jt_SignedData : jty :=
    JtSeq [mandatory "version" jt_INTEGER; mandatory "digestAlgorithms" (JtOf jt_AlgorithmIdentifier);
           mandatory "encapContentInfo" (JtOp EncapsulatedContentInfo_encode_json); pointer "certificates" (JtOp CertificateSet_encode_json);
           pointer "crls" (JtOf jt_RevocationInfoChoice); mandatory "signerInfos" (JtOf jt_SignerInfo)].

  (** src/asn1/asn1c/ContentInfo.c:15-48 [ContentInfo_encode_json]. *)
  Definition ContentInfo_encode_json (v : option value) : res json :=
    match v with
    | None => json_null
    | Some (VSeq [Some (VBytes contentType); Some (VBytes content)]) =>
        finish (bind (json_object_add [] (cstr "contentType") (OBJECT_IDENTIFIER_encode_json (Some (VBytes contentType)))) (fun parent =>
                let child :=
                  if nid contentType =? NID_pkcs7_signed then ber2json turns t_SignedData jt_SignedData content
                  else OCTET_STRING_encode_json (Some (VBytes content)) in
                json_object_add parent (cstr "content") child))
    | Some _ => UB
    end.
  (** src/asn1/asn1c/json_encoder.c:6-15 [json_encode], as src/print_file.c calls it on a ContentInfo. *)
  Definition json_encode (v : option value) : res json :=
    match v with None => Err EINVAL | Some v => ContentInfo_encode_json (Some v) end.
End LIBCRYPTO.
