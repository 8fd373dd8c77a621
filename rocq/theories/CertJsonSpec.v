(** C102: what print mode shows of a certificate or a CRL (RFC 5280, RFC 3779). *)
From Coq Require Import String.
From Verif Require Import Base CString Slurm Address AddressSpec NtopSpec BerSpec JsonEncSpec CertJsonTypes.
Notation length := List.length.
Open Scope list_scope.
Open Scope Z_scope.

(** ** Texts *)

(** An integer: hexadecimal, in upper case, two digits per byte, without superfluous bytes; "0" is zero. *)
Definition upper_digit (c : Z) : bool := (48 <=? c) && (c <=? 57) || (65 <=? c) && (c <=? 70).
Definition upper_value (c : Z) : Z := if c <? 58 then c - 48 else c - 55.
Inductive integer_text : list Z -> Z -> Prop :=
| it_zero : integer_text (cstr "0") 0
| it_positive a b s : Forall (fun c => upper_digit c = true) (a :: b :: s) -> Nat.even (length s) = true -> 0 < 16 * upper_value a + upper_value b ->
    integer_text (a :: b :: s) (fold_left (fun n c => 16 * n + upper_value c) (a :: b :: s) 0)
| it_negative s n : 0 < n -> integer_text s n -> integer_text (cstr "-" ++ s) (- n).

(** ** Structures: an object with these members in this order; an array; what may be absent. *)
Definition fields (l : list (string * (json -> Prop))) (j : json) : Prop :=
  exists js, j = JObj (combine (map (fun p => cstr (fst p)) l) js) /\ Forall2 (fun p j => snd p j) l js.
Definition each {A} (P : A -> json -> Prop) (l : list A) (j : json) : Prop := exists js, j = JArr js /\ Forall2 P l js.
Definition absent_or {A} (P : A -> json -> Prop) (o : option A) (j : json) : Prop :=
  match o with None => j = JOther | Some x => P x j end.
Definition is (j : json) : json -> Prop := fun j' => j' = j.
Definition text (s : string) : json -> Prop := is (JStr (cstr s)).
Definition not_implemented (there : bool) (j : json) : Prop := if there then text "<Not implemented for now>" j else j = JOther.

Definition shows_int (n : Z) (j : json) : Prop := exists s, integer_text s n /\ j = JStr s.
(** Strings of bytes: hexadecimal; an empty one isn't shown. *)
Definition shows_bytes (b : list Z) (j : json) : Prop := b <> [] /\ exists s, hex_text s b /\ j = JStr s.
(** Texts: they have to be UTF-8. *)
Definition shows_text (s : list Z) (j : json) : Prop := utf8 s /\ j = JStr s.
Definition shows_some_text (s : option (list Z)) (j : json) : Prop := exists t, s = Some t /\ shows_text t j.
(** Texts libcrypto writes: they have to be UTF-8 too, and not empty. *)
Definition shows_written (s : option (list Z)) (j : json) : Prop := exists t, s = Some t /\ t <> [] /\ shows_text t j.
Definition shows_general_name (g : general_name) (j : json) : Prop :=
  match g with GenUri s => shows_text s j | GenOther => not_implemented true j end.

Section Library.
  Variable lib : libcrypto.
  Definition shows_object (o : object) : json -> Prop := shows_text (obj2txt lib o).
  Definition shows_time (t : list Z) : json -> Prop := shows_written (time_print lib t).
  (** Its full name, its short name. *)
  Definition shows_attribute (o : object) : json -> Prop := shows_some_text (nid2ln lib (obj2nid lib o)).
  Definition shows_algorithm (o : object) : json -> Prop := shows_some_text (nid2sn lib (obj2nid lib o)).
  Definition shows_name (n : x_name) : json -> Prop :=
    fields [("rdnSequence"%string, each (fun e => fields [("type"%string, shows_attribute (fst e)); ("value"%string, shows_text (snd e))]) n)].

  (** ** Extensions *)

  (** RFC 5280, 4.2.1.3: the bits of a KeyUsage, the first one being the most significant one of the first byte. *)
  Definition usages : list string :=
    ["digitalSignature"; "contentCommitment"; "keyEncipherment"; "dataEncipherment"; "keyAgreement"; "keyCertSign"; "cRLSign"; "encipherOnly"; "decipherOnly"]%string.
  Definition usage_bit (b : list Z) (n : nat) : bool := Z.testbit (nth (n / 8) b 0) (7 - Z.of_nat (n mod 8)).
  (** (One or two bytes; others aren't shown.) *)
  Definition shows_usage (b : list Z) (j : json) : Prop :=
    (length b = 1 \/ length b = 2)%nat /\
    fields (map (fun '(n, name) => (name, is (JBool (usage_bit b n)))) (combine (seq 0 9) usages)) j.

  Definition shows_point (n : dp_name) : json -> Prop :=
    match n with
    | FullName l => each shows_general_name l
    | RelativeName l => each (fun e => fields [("type"%string, shows_object (fst e)); ("value"%string, shows_bytes (snd e))]) l
    end.
  Definition shows_dist_point (dp : dist_point) : json -> Prop :=
    fields [("distributionPoint"%string, absent_or shows_point (dp_point dp)); ("reasons"%string, not_implemented (dp_reasons dp));
            ("cRLIssuer"%string, absent_or (each shows_general_name) (dp_issuer dp))].
  Definition shows_access (ad : object * general_name) : json -> Prop :=
    fields [("accessMethod"%string, shows_object (fst ad)); ("accessLocation"%string, shows_general_name (snd ad))].
  Definition shows_policy (p : policy) : json -> Prop :=
    fields [("policyIdentifier"%string, shows_object (po_id p));
            ("policyQualifiers"%string,
             absent_or (each (fun q => fields [("policyQualifierId"%string, shows_object q); ("qualifier"%string, not_implemented true)])) (po_qualifiers p))].

  (** RFC 3779: address/length.  Ranges aren't implemented. *)
  Definition shows_ip_item (W : Z) (i : ip_item) (j : json) : Prop :=
    match i with
    | IpPrefix p => exists addr len a d, denotes W p addr len /\ address_text W a addr /\ dec d = Some len /\ j = JStr (a ++ cstr "/" ++ d)
    | IpRange _ _ => not_implemented true j
    end.
  Definition shows_ip_choice (W : Z) (c : ip_choice) : json -> Prop :=
    match c with IpInherit => text "inherit" | IpItems l => each (shows_ip_item W) l end.
  (** (Other families, and those with a SAFI, aren't shown.) *)
  Definition shows_family (f : ip_family) (j : json) : Prop :=
    (if_family f = [0; 1] /\ fields [("addressFamily"%string, text "IPv4"); ("ipAddressChoice"%string, shows_ip_choice 32 (if_choice f))] j) \/
    (if_family f = [0; 2] /\ fields [("addressFamily"%string, text "IPv6"); ("ipAddressChoice"%string, shows_ip_choice 128 (if_choice f))] j).
  Definition shows_as_item (i : as_item) : json -> Prop :=
    match i with
    | AsId n => shows_int n
    | AsRange min max => fields [("min"%string, shows_int min); ("max"%string, shows_int max)]
    end.
  Definition shows_as_choice (c : as_choice) : json -> Prop :=
    match c with AsInherit => text "inherit" | AsItems l => each shows_as_item l end.

  Definition shows_value (v : ext_value) (j : json) : Prop :=
    match v with
    | XBasicConstraints ca pathlen => fields [("cA"%string, is (JBool ca)); ("pathLenConstraint"%string, absent_or shows_int pathlen)] j
    | XKeyIdentifier id => shows_bytes id j
    | XAuthorityKey keyid issuer serial =>
        fields [("keyIdentifier"%string, absent_or shows_bytes keyid); ("authorityCertIssuer"%string, not_implemented issuer);
                ("authorityCertSerialNumber"%string, absent_or shows_int serial)] j
    | XKeyUsage bits => shows_usage bits j
    | XDistPoints l => each shows_dist_point l j
    | XInfoAccess l => each shows_access l j
    | XPolicies l => each shows_policy l j
    | XIpBlocks l => each shows_family l j
    | XAsIds asnum rdi => fields [("asnum"%string, absent_or shows_as_choice asnum); ("rdi"%string, absent_or shows_as_choice rdi)] j
    | XInteger n => shows_int n j
    | XExtKeyUsage l => each shows_object l j
    end.

  (** The extensions of RFC 5280, RFC 3779 and RFC 8360 that are shown decoded, and what libcrypto decodes them to. *)
  Inductive kind : Type := KBasic | KId | KAuthority | KUsage | KPoints | KAccess | KPolicies | KIp | KAs | KInteger | KExtUsage.
  Definition kind_of (v : ext_value) : kind :=
    match v with
    | XBasicConstraints _ _ => KBasic | XKeyIdentifier _ => KId | XAuthorityKey _ _ _ => KAuthority | XKeyUsage _ => KUsage
    | XDistPoints _ => KPoints | XInfoAccess _ => KAccess | XPolicies _ => KPolicies | XIpBlocks _ => KIp | XAsIds _ _ => KAs
    | XInteger _ => KInteger | XExtKeyUsage _ => KExtUsage
    end.
  Definition known : list (object * Z * kind) :=
    [([2; 5; 29; 19], 87, KBasic); ([2; 5; 29; 14], 82, KId); ([2; 5; 29; 35], 90, KAuthority); ([2; 5; 29; 15], 83, KUsage);
     ([2; 5; 29; 31], 103, KPoints); ([1; 3; 6; 1; 5; 5; 7; 1; 1], 177, KAccess); ([1; 3; 6; 1; 5; 5; 7; 1; 11], 398, KAccess);
     ([2; 5; 29; 32], 89, KPolicies); ([1; 3; 6; 1; 5; 5; 7; 1; 7], 290, KIp); ([1; 3; 6; 1; 5; 5; 7; 1; 8], 291, KAs);
     ([1; 3; 6; 1; 5; 5; 7; 1; 28], nid_ip2 lib, KIp); ([1; 3; 6; 1; 5; 5; 7; 1; 29], nid_as2 lib, KAs);
     ([2; 5; 29; 20], 88, KInteger); ([2; 5; 29; 37], 126, KExtUsage)].
  Definition is_known (o : object) : Prop := exists n k, In (o, n, k) known.
  (** A known extension is shown decoded (it isn't shown if it can't be decoded), another one as bytes. *)
  Definition shows_extension_value (e : x_ext) (j : json) : Prop :=
    (is_known (e_object e) /\ exists v, ext_d2i lib (e_object e) (e_data e) = Some v /\ shows_value v j) \/
    (~ is_known (e_object e) /\ shows_bytes (e_data e) j).
  Definition shows_extension (e : x_ext) : json -> Prop :=
    fields [("extnID"%string, shows_object (e_object e)); ("critical"%string, is (JBool (e_critical e))); ("extnValue"%string, shows_extension_value e)].
  Definition shows_extensions (l : list x_ext) (j : json) : Prop := match l with [] => j = JOther | _ => each shows_extension l j end.

  (** ** Certificates *)
  Definition shows_certificate (x : x_cert) : json -> Prop :=
    fields
      [("tbsCertificate"%string, fields
         [("version"%string, is (JInt (c_version x))); ("serialNumber"%string, shows_int (c_serial x));
          ("signature"%string, shows_algorithm (c_tbs_alg x)); ("issuer"%string, shows_name (c_issuer x));
          ("validity"%string, fields [("notBefore"%string, shows_time (c_not_before x)); ("notAfter"%string, shows_time (c_not_after x))]);
          ("subject"%string, shows_name (c_subject x));
          ("subjectPublicKeyInfo"%string, fields [("algorithm"%string, shows_object (c_pk_alg x)); ("subjectPublicKey"%string, shows_written (c_pk x))]);
          ("issuerUniqueID"%string, absent_or shows_bytes (c_iuid x)); ("subjectUniqueID"%string, absent_or shows_bytes (c_suid x));
          ("extensions"%string, shows_extensions (c_exts x))]);
       ("signatureAlgorithm"%string, shows_object (c_alg x)); ("signatureValue"%string, shows_bytes (c_sig x))].

  (** ** CRLs *)
  Definition shows_revoked (r : x_revoked) : json -> Prop :=
    fields [("userCertificate"%string, shows_int (r_serial r)); ("revocationDate"%string, shows_time (r_date r));
            ("crlEntryExtensions"%string, shows_extensions (r_exts r))].
  Definition shows_list (c : x_crl) : json -> Prop :=
    fields
      [("tbsCertList"%string, fields
         [("version"%string, is (JInt (l_version c))); ("signature"%string, shows_algorithm (l_tbs_alg c)); ("issuer"%string, shows_name (l_issuer c));
          ("thisUpdate"%string, shows_time (l_this c)); ("nextUpdate"%string, absent_or shows_time (l_next c));
          ("revokedCertificates"%string, each shows_revoked (l_revoked c)); ("crlExtensions"%string, shows_extensions (l_exts c))]);
       ("signatureAlgorithm"%string, shows_object (l_alg c)); ("signatureValue"%string, shows_bytes (l_sig c))].

  (** ** What is assumed *)

  (** Of libcrypto: its table of objects has the known extensions, with these numbers, which are different, and no others; what it
      writes are bytes; an extension decodes to its own kind of structure. *)
  Definition library : Prop :=
    NoDup (map (fun e => snd (fst e)) known) /\
    (forall o n k, In (o, n, k) known -> obj2nid lib o = n) /\
    (forall o n, In n (map (fun e => snd (fst e)) known) -> obj2nid lib o = n -> exists k, In (o, n, k) known) /\
    (forall o, bytes (obj2txt lib o)) /\ (forall n t, nid2ln lib n = Some t -> bytes t) /\ (forall n t, nid2sn lib n = Some t -> bytes t) /\
    (forall t s, time_print lib t = Some s -> bytes s) /\
    (forall o n k d v, In (o, n, k) known -> ext_d2i lib o d = Some v -> kind_of v = k).

  (** Of the certificate: strings are of bytes. *)
  Definition some_bytes (o : option (list Z)) : Prop := match o with Some b => bytes b | None => True end.
  Definition gn_bytes (g : general_name) : Prop := match g with GenUri s => bytes s | GenOther => True end.
  Definition name_bytes (n : x_name) : Prop := Forall (fun e => bytes (snd e)) n.
  (** Object identifiers have at most 63 characters. *)
  Definition short (o : object) : Prop := (length (obj2txt lib o) <= 63)%nat.
  Definition plain_point (n : dp_name) : Prop :=
    match n with FullName l => Forall gn_bytes l | RelativeName l => Forall (fun e => short (fst e) /\ bytes (snd e)) l end.
  Definition plain_dist_point (dp : dist_point) : Prop :=
    match dp_point dp with Some n => plain_point n | None => True end /\ match dp_issuer dp with Some l => Forall gn_bytes l | None => True end.
  (** Addresses have the size of their families; policies don't have qualifiers. *)
  Definition plain_item (W : Z) (i : ip_item) : Prop :=
    match i with IpPrefix p => bytes (bs_buf p) /\ exists addr len, denotes W p addr len | IpRange _ _ => True end.
  Definition plain_family (f : ip_family) : Prop :=
    match if_choice f with
    | IpInherit => True
    | IpItems l => (if_family f = [0; 1] -> Forall (plain_item 32) l) /\ (if_family f = [0; 2] -> Forall (plain_item 128) l)
    end.
  Definition plain_policy (p : policy) : Prop :=
    short (po_id p) /\ match po_qualifiers p with Some l => l = [] | None => True end.
  Definition plain_value (v : ext_value) : Prop :=
    match v with
    | XKeyIdentifier id => bytes id
    | XAuthorityKey keyid _ _ => some_bytes keyid
    | XKeyUsage b => bytes b
    | XDistPoints l => Forall plain_dist_point l
    | XInfoAccess l => Forall (fun ad => short (fst ad) /\ gn_bytes (snd ad)) l
    | XPolicies l => Forall plain_policy l
    | XIpBlocks l => Forall plain_family l
    | XExtKeyUsage l => Forall short l
    | _ => True
    end.
  Definition plain_ext (e : x_ext) : Prop :=
    short (e_object e) /\ bytes (e_data e) /\ (forall v, ext_d2i lib (e_object e) (e_data e) = Some v -> plain_value v).
  (** Both algorithms are the same one (RFC 5280, 4.1.1.2 and 5.1.1.2). *)
  Definition plain_certificate (x : x_cert) : Prop :=
    c_alg x = c_tbs_alg x /\ name_bytes (c_issuer x) /\ name_bytes (c_subject x) /\ short (c_pk_alg x) /\ some_bytes (c_pk x) /\
    some_bytes (c_iuid x) /\ some_bytes (c_suid x) /\ Forall plain_ext (c_exts x) /\ short (c_alg x) /\ bytes (c_sig x).
  Definition plain_crl (c : x_crl) : Prop :=
    l_alg c = l_tbs_alg c /\ name_bytes (l_issuer c) /\ Forall (fun r => Forall plain_ext (r_exts r)) (l_revoked c) /\
    Forall plain_ext (l_exts c) /\ short (l_alg c) /\ bytes (l_sig c).
End Library.
