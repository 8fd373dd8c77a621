(** Model of the JSON that print mode shows of certificates (also those inside
    signed objects) and CRLs: src/libcrypto_util.c, the to_json functions of
    src/extension.c, src/asn1/asn1c/Certificate.c, src/asn1/asn1c/CRL.c.

    A function returns a tree ([Ok]), NULL ([Err]), or crashes ([UB]).
    Allocations succeed, references aren't modelled.  d2i_X509() and
    d2i_X509_CRL(), which decode the structures, are not modelled. *)
From Coq Require Import String.
From Verif Require Import Base CString Slurm Oid Ntop PduWireSpec Address JsonEnc CertJsonTypes.
Notation length := List.length.
Open Scope list_scope.
Open Scope Z_scope.

(** The idiom of all these functions: json_object_add() of one member after
    the other, json_array_add() of one element after the other; the first
    child that is NULL ends it. *)
Definition obj (l : list (string * res json)) : res json :=
  finish (fold_left (fun m p => bind m (fun m => json_object_add m (cstr (fst p)) (snd p))) l (Ok [])).
Definition arr {A} (f : A -> res json) (l : list A) : res json :=
  finish_array (fold_left (fun m x => bind m (fun m => json_array_add m (f x))) l (Ok [])).
(** if (x == NULL) return json_null(); *)
Definition or_null {A} (f : A -> res json) (o : option A) : res json :=
  match o with None => json_null | Some x => f x end.
(** jansson's json_boolean. *)
Definition json_boolean (b : bool) : res json := Ok (JBool b).
(** src/json_util.c:298-305 [json_str_new] of what may be NULL. *)
Definition json_str_or_null (s : option (list Z)) : res json := match s with Some s => json_str_new s | None => Err EINVAL end.

(** ** src/libcrypto_util.c *)

(** src/libcrypto_util.c:45-57 [bio2json]: the data of a memory BIO to which nothing was written is NULL. *)
Definition bio2json (text : list Z) : res json := match text with [] => Err EINVAL | _ => json_strn_new text end.
(** src/asn1/asn1c/OBJECT_IDENTIFIER.h:38 [OID_STR_MAXLEN]. *)
Definition OID_STR_MAXLEN : nat := 64.
(** OBJ_obj2txt(): writes what fits, and a null character; returns the length of the whole text. *)
Definition obj_buffer (txt : list Z) : list Z := firstn (OID_STR_MAXLEN - 1) txt ++ [0].
(** src/libcrypto_util.c:59-66 [oid2json], of an object that isn't NULL: reads past the buffer if the text is longer than it. *)
Definition oid2json (lib : libcrypto) (o : object) : res json :=
  let n := length (obj2txt lib o) in
  if (OID_STR_MAXLEN <? n)%nat then UB
  else json_strn_new (firstn n (obj_buffer (obj2txt lib o))).
(** BN_bn2hex() (OpenSSL 3, crypto/bn/bn_conv.c): whole bytes, in upper case, without leading zero bytes; "0"; '-'. *)
Definition upper_hex (d : Z) : Z := nth (Z.to_nat d) (cstr "0123456789ABCDEF") 0.
Fixpoint bn_bytes (fuel : nat) (n : Z) (acc : list Z) : list Z :=
  match fuel with
  | O => acc
  | S fuel => if n =? 0 then acc else bn_bytes fuel (n / 256) (upper_hex (n mod 256 / 16) :: upper_hex (n mod 16) :: acc)
  end.
Definition BN_bn2hex (n : Z) : list Z :=
  if n =? 0 then [48]
  else (if n <? 0 then [45] else []) ++ bn_bytes (S (Z.to_nat (Z.log2 (Z.abs n)))) (Z.abs n) [].
(** src/libcrypto_util.c:68-87 [asn1int2json], of an integer that isn't NULL. *)
Definition asn1int2json (n : Z) : res json := json_str_new (BN_bn2hex n).
(** src/libcrypto_util.c:89-110 [asn1str2json], of a string that isn't NULL ("%02x": JsonEnc's [hex_of]). *)
Definition asn1str2json (s : list Z) : res json := bio2json (hex_of s).
(** src/libcrypto_util.c:112-130 [asn1time2json], of a time that isn't NULL. *)
Definition asn1time2json (lib : libcrypto) (t : list Z) : res json :=
  match time_print lib t with Some text => bio2json text | None => Err EINVAL end.
(** src/libcrypto_util.c:132-172 [name2json]: one entry, and the name. *)
Definition entry2json (lib : libcrypto) (e : object * list Z) : res json :=
  let (o, data) := e in
  obj [("type"%string, json_str_or_null (nid2ln lib (obj2nid lib o))); ("value"%string, json_strn_new data)].
Definition name2json (lib : libcrypto) (n : x_name) : res json :=
  obj [("rdnSequence"%string, arr (entry2json lib) n)].
Definition NOT_IMPLEMENTED : list Z := cstr "<Not implemented for now>".
(** src/libcrypto_util.c:174-187 [gn2json]. *)
Definition gn2json (g : general_name) : res json :=
  match g with GenUri s => json_strn_new s | GenOther => json_str_new NOT_IMPLEMENTED end.
(** src/libcrypto_util.c:189-213 [gns2json], of names that aren't NULL. *)
Definition gns2json (l : list general_name) : res json := arr gn2json l.
(** src/libcrypto_util.c:215-232 [pubkey2json]. *)
Definition pubkey2json (pem : option (list Z)) : res json := match pem with Some text => bio2json text | None => Err EINVAL end.

(** ** src/extension.c *)

(** src/extension.c:14-18 [unimplemented]. *)
Definition unimplemented (there : bool) : res json := if there then json_str_new NOT_IMPLEMENTED else json_null.
(** src/extension.c:20-42 [bc2json]. *)
Definition bc2json (v : ext_value) : res json :=
  match v with
  | XBasicConstraints ca pathlen => obj [("cA"%string, json_boolean ca); ("pathLenConstraint"%string, or_null asn1int2json pathlen)]
  | _ => UB
  end.
(** src/extension.c:58-62 [ski2json]. *)
Definition ski2json (v : ext_value) : res json := match v with XKeyIdentifier id => asn1str2json id | _ => UB end.
(** src/extension.c:78-103 [aki2json]. *)
Definition aki2json (v : ext_value) : res json :=
  match v with
  | XAuthorityKey keyid issuer serial =>
      obj [("keyIdentifier"%string, or_null asn1str2json keyid); ("authorityCertIssuer"%string, unimplemented issuer);
           ("authorityCertSerialNumber"%string, or_null asn1int2json serial)]
  | _ => UB
  end.
(** src/extension.c:119-168 [ku2json]. *)
Definition ku2json (v : ext_value) : res json :=
  match v with
  | XKeyUsage ku =>
      if (length ku <? 1)%nat || (2 <? length ku)%nat then Err EINVAL
      else
        let data := zero_padded 2 ku in
        let bit := fun n mask => json_boolean (negb (Z.land (nth n data 0) mask =? 0)) in
        obj [("digitalSignature"%string, bit 0%nat 128); ("contentCommitment"%string, bit 0%nat 64);
             ("keyEncipherment"%string, bit 0%nat 32); ("dataEncipherment"%string, bit 0%nat 16);
             ("keyAgreement"%string, bit 0%nat 8); ("keyCertSign"%string, bit 0%nat 4);
             ("cRLSign"%string, bit 0%nat 2); ("encipherOnly"%string, bit 0%nat 1);
             ("decipherOnly"%string, bit 1%nat 128)]
  | _ => UB
  end.
(** src/extension.c:184-215 [rdn2json]. *)
Definition rdn2json (lib : libcrypto) (rdn : list (object * list Z)) : res json :=
  arr (fun e => obj [("type"%string, oid2json lib (fst e)); ("value"%string, asn1str2json (snd e))]) rdn.
(** src/extension.c:217-225 [dpname2json], of a name that isn't NULL. *)
Definition dpname2json (lib : libcrypto) (n : dp_name) : res json :=
  match n with RelativeName rdn => rdn2json lib rdn | FullName l => gns2json l end.
(** src/extension.c:227-262 [cdp2json]. *)
Definition dp2json (lib : libcrypto) (dp : dist_point) : res json :=
  obj [("distributionPoint"%string, or_null (dpname2json lib) (dp_point dp)); ("reasons"%string, unimplemented (dp_reasons dp));
       ("cRLIssuer"%string, or_null gns2json (dp_issuer dp))].
Definition cdp2json (lib : libcrypto) (v : ext_value) : res json := match v with XDistPoints l => arr (dp2json lib) l | _ => UB end.
(** src/extension.c:278-310 [aia2json]. *)
Definition ad2json (lib : libcrypto) (ad : object * general_name) : res json :=
  obj [("accessMethod"%string, oid2json lib (fst ad)); ("accessLocation"%string, gn2json (snd ad))].
Definition aia2json (lib : libcrypto) (v : ext_value) : res json := match v with XInfoAccess l => arr (ad2json lib) l | _ => UB end.
(** src/extension.c:334-358 [pq2json]: the object it built isn't what it returns (line 354). *)
Definition pq2json (lib : libcrypto) (q : object) : res json :=
  match obj [("policyQualifierId"%string, oid2json lib q); ("qualifier"%string, unimplemented true)] with
  | UB => UB
  | _ => Err EINVAL
  end.
(** src/extension.c:360-384 [pqs2json], 386-410 [pi2json], 412-434 [cp2json]. *)
Definition pi2json (lib : libcrypto) (p : policy) : res json :=
  obj [("policyIdentifier"%string, oid2json lib (po_id p)); ("policyQualifiers"%string, or_null (arr (pq2json lib)) (po_qualifiers p))].
Definition cp2json (lib : libcrypto) (v : ext_value) : res json := match v with XPolicies l => arr (pi2json lib) l | _ => UB end.
(** src/extension.c:450-473 [p2json], of a prefix that isn't NULL.  memcpy() to 16 bytes.  Bit strings
    that were decoded have their flag ASN1_STRING_FLAG_BITS_LEFT.  ([full] has space for any address that
    inet_ntop() writes, and a length.) *)
Definition p2json (p : bit_string) (v6 : bool) : res json :=
  if (16 <? length (bs_buf p))%nat then UB
  else
    let bin := zero_padded 16 (bs_buf p) in
    let str := if v6 then ntop6 (be bin) else ntop4 (be (firstn 4 bin)) in
    json_strn_new (str ++ [47] ++ udec (wrap32 (8 * bs_size p - bs_unused p))).
(** src/extension.c:475-489 [iaor2json], of an item that isn't NULL. *)
Definition iaor2json (v6 : bool) (i : ip_item) : res json :=
  match i with IpPrefix p => p2json p v6 | IpRange _ _ => unimplemented true end.
(** src/extension.c:491-515 [iaors2json], 517-531 [iac2json]. *)
Definition iac2json (c : ip_choice) (v6 : bool) : res json :=
  match c with IpInherit => json_str_new (cstr "inherit") | IpItems l => arr (iaor2json v6) l end.
(** src/extension.c:533-574 [iaf2json]. *)
Definition iaf2json (f : ip_family) : res json :=
  match if_family f with
  | [a; b] =>
      if (a =? 0) && (b =? 1) then obj [("addressFamily"%string, json_str_new (cstr "IPv4")); ("ipAddressChoice"%string, iac2json (if_choice f) false)]
      else if (a =? 0) && (b =? 2) then obj [("addressFamily"%string, json_str_new (cstr "IPv6")); ("ipAddressChoice"%string, iac2json (if_choice f) true)]
      else Err EINVAL
  | _ => Err EINVAL
  end.
(** src/extension.c:576-598 [ir2json]. *)
Definition ir2json (v : ext_value) : res json := match v with XIpBlocks l => arr iaf2json l | _ => UB end.
(** src/extension.c:614-634 [asr2json], 636-650 [aor2json]. *)
Definition aor2json (i : as_item) : res json :=
  match i with
  | AsId n => asn1int2json n
  | AsRange min max => obj [("min"%string, asn1int2json min); ("max"%string, asn1int2json max)]
  end.
(** src/extension.c:652-675 [aior2json], 677-691 [asidc2json]. *)
Definition asidc2json (c : as_choice) : res json :=
  match c with AsInherit => json_str_new (cstr "inherit") | AsItems l => arr aor2json l end.
(** src/extension.c:693-714 [ar2json]. *)
Definition ar2json (v : ext_value) : res json :=
  match v with
  | XAsIds asnum rdi => obj [("asnum"%string, or_null asidc2json asnum); ("rdi"%string, or_null asidc2json rdi)]
  | _ => UB
  end.
(** src/extension.c:746-750 [cn2json]. *)
Definition cn2json (v : ext_value) : res json := match v with XInteger n => asn1int2json n | _ => UB end.
(** src/extension.c:766-788 [eku2json]. *)
Definition eku2json (lib : libcrypto) (v : ext_value) : res json := match v with XExtKeyUsage l => arr (oid2json lib) l | _ => UB end.
(** src/extension.c:826-836 [ext_metadatas] and the structures it lists: the number and the to_json of each (none is NULL).
    The numbers are those of openssl/obj_mac.h. *)
Definition ext_metadatas (lib : libcrypto) : list (Z * (ext_value -> res json)) :=
  [(87, bc2json); (82, ski2json); (90, aki2json); (83, ku2json);
   (103, cdp2json lib); (177, aia2json lib); (398, aia2json lib); (89, cp2json lib);
   (290, ir2json); (291, ar2json); (nid_ip2 lib, ir2json); (nid_as2 lib, ar2json);
   (88, cn2json); (126, eku2json lib)].

(** src/libcrypto_util.c:234-248 [ext2json_known]. *)
Definition ext2json_known (lib : libcrypto) (to_json : ext_value -> res json) (e : x_ext) : res json :=
  match ext_d2i lib (e_object e) (e_data e) with Some v => to_json v | None => Err EINVAL end.
(** src/libcrypto_util.c:250-254 [ext2json_unknown]. *)
Definition ext2json_unknown (e : x_ext) : res json := asn1str2json (e_data e).
(** src/libcrypto_util.c:256-275 [ext2json]. *)
Definition ext2json (lib : libcrypto) (e : x_ext) : res json :=
  match find (fun m => fst m =? obj2nid lib (e_object e)) (ext_metadatas lib) with
  | Some (_, to_json) => ext2json_known lib to_json e
  | None => ext2json_unknown e
  end.
(** src/libcrypto_util.c:277-314 [exts2json]. *)
Definition exts2json (lib : libcrypto) (l : list x_ext) : res json :=
  match l with
  | [] => json_null
  | _ => arr (fun e => obj [("extnID"%string, oid2json lib (e_object e)); ("critical"%string, json_boolean (e_critical e));
                            ("extnValue"%string, ext2json lib e)]) l
  end.

(** ** src/asn1/asn1c/Certificate.c *)

(** src/asn1/asn1c/Certificate.c:9-30 [validity2json]. *)
Definition validity2json (lib : libcrypto) (x : x_cert) : res json :=
  obj [("notBefore"%string, asn1time2json lib (c_not_before x)); ("notAfter"%string, asn1time2json lib (c_not_after x))].
(** src/asn1/asn1c/Certificate.c:32-61 [pk2json]. *)
Definition pk2json (lib : libcrypto) (x : x_cert) : res json :=
  obj [("algorithm"%string, oid2json lib (c_pk_alg x)); ("subjectPublicKey"%string, pubkey2json (c_pk x))].
(** src/asn1/asn1c/Certificate.c:79-124 [tbsCert2json], 63-69 [iuid2json], 71-77 [suid2json].  X509_get_signature_nid() is
    the number of "signatureAlgorithm". *)
Definition tbsCert2json (lib : libcrypto) (x : x_cert) : res json :=
  obj [("version"%string, json_int_new (c_version x)); ("serialNumber"%string, asn1int2json (c_serial x));
       ("signature"%string, json_str_or_null (nid2sn lib (obj2nid lib (c_alg x))));
       ("issuer"%string, name2json lib (c_issuer x)); ("validity"%string, validity2json lib x);
       ("subject"%string, name2json lib (c_subject x)); ("subjectPublicKeyInfo"%string, pk2json lib x);
       ("issuerUniqueID"%string, or_null asn1str2json (c_iuid x)); ("subjectUniqueID"%string, or_null asn1str2json (c_suid x));
       ("extensions"%string, exts2json lib (c_exts x))].
(** src/asn1/asn1c/Certificate.c:146-170 [x509_to_json], 126-136 [sigAlgorithm2json], 138-144 [sigValue2json]; it's also what
    172-198 [Certificate_any2json] and 200-214 [Certificate_bio2json] return if libcrypto decodes the certificate. *)
Definition x509_to_json (lib : libcrypto) (x : x_cert) : res json :=
  obj [("tbsCertificate"%string, tbsCert2json lib x); ("signatureAlgorithm"%string, oid2json lib (c_alg x));
       ("signatureValue"%string, asn1str2json (c_sig x))].

(** ** src/asn1/asn1c/CRL.c *)

(** src/asn1/asn1c/CRL.c:8-43 [revokedCerts2json]. *)
Definition revokedCerts2json (lib : libcrypto) (l : list x_revoked) : res json :=
  arr (fun r => obj [("userCertificate"%string, asn1int2json (r_serial r)); ("revocationDate"%string, asn1time2json lib (r_date r));
                     ("crlEntryExtensions"%string, exts2json lib (r_exts r))]) l.
(** src/asn1/asn1c/CRL.c:45-81 [tbsCertList2json]. *)
Definition tbsCertList2json (lib : libcrypto) (c : x_crl) : res json :=
  obj [("version"%string, json_int_new (l_version c)); ("signature"%string, json_str_or_null (nid2sn lib (obj2nid lib (l_alg c))));
       ("issuer"%string, name2json lib (l_issuer c)); ("thisUpdate"%string, asn1time2json lib (l_this c));
       ("nextUpdate"%string, or_null (asn1time2json lib) (l_next c)); ("revokedCertificates"%string, revokedCerts2json lib (l_revoked c));
       ("crlExtensions"%string, exts2json lib (l_exts c))].
(** src/asn1/asn1c/CRL.c:103-127 [crl2json], 83-93 [sigAlgorithm2json], 95-101 [sigValue2json]; also what 129-143 [CRL_bio2json] returns
    if libcrypto decodes the CRL. *)
Definition crl2json (lib : libcrypto) (c : x_crl) : res json :=
  obj [("tbsCertList"%string, tbsCertList2json lib c); ("signatureAlgorithm"%string, oid2json lib (l_alg c));
       ("signatureValue"%string, asn1str2json (l_sig c))].
