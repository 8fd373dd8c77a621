(** RFC 6487, 4.8 and 5: the extensions of certificates and CRLs. *)
From Coq Require Import String.
From Verif Require Import Base CString PathBuilder PathSpec SignedData Extensions.
Notation length := List.length.

(** The four profiles. *)
Inductive profile := TrustAnchor | CA | EE | Crl.

(** Which extensions a profile knows, and whether they must be there. *)
Inductive presence := Required | Allowed | Unknown.
Definition presence_of (p : profile) (i : ext_id) : presence :=
  match p, i with
  | (TrustAnchor | CA), BC => Required
  | (TrustAnchor | CA | EE), (SKI | KU | SIA | CP) => Required
  | TrustAnchor, AKI => Allowed
  | (CA | EE | Crl), AKI => Required
  | (CA | EE), (CDP | AIA) => Required
  | (TrustAnchor | CA | EE), (IR | AR | IR2 | AR2) => Allowed
  | Crl, CN => Required
  | _, _ => Unknown
  end.
Definition known (p : profile) (i : ext_id) : Prop := presence_of p i <> Unknown.
(** RFC 6487 4.8: which are critical. *)
Definition critical (i : ext_id) : Prop := In i [BC; KU; CP; IR; AR; IR2; AR2].

(** Bit [n] of a BIT STRING (RFC 5280 4.2.1.3 counts them from the most
    significant one of the first octet). *)
Definition bit (s : list Z) (n : nat) : bool := Z.testbit (nth (n / 8) s 0) (7 - Z.of_nat (n mod 8)).
(** Exactly these bits. *)
Definition exactly (s : list Z) (ns : list nat) : Prop := forall n, bit s n = true <-> In n ns.
(** digitalSignature is bit 0; keyCertSign and cRLSign are 5 and 6. *)
Definition key_usage (p : profile) : list nat := match p with EE => [0%nat] | _ => [5%nat; 6%nat] end.

Definition scheme (t : uri_type) : list Z := match t with UT_HTTPS => cstr "https://" | _ => cstr "rsync://" end.
Definition has_scheme (t : uri_type) (text : list Z) : Prop := exists rest, text = scheme t ++ rest.
Definition printable (s : list Z) : Prop := Forall (fun c => 32 <= c <= 126) s.

Section Spec.
  Context (nid : ext_id -> Z).
  Context (nid_ca_issuers nid_caRepository nid_ad_notify nid_ad_mft nid_ad_so : Z).
  Context (nid_certPolicyRpki nid_certPolicyRpkiV2 nid_qt_cps : Z).
  Context (sha1 : list Z -> option (list Z)).
  Context (repository : list Z) (tal : option (list Z)).

  (** A location that is of no interest: not a URI, or one of another scheme. *)
  Definition ignored (t : uri_type) (g : gname) : Prop :=
    g = GN_other \/ exists text b, g = GN_uri text b /\ printable text /\ ~ has_scheme t text.
  (** A location that is a URI [u] of scheme [t], which can be cached. *)
  Definition located (t : uri_type) (g : gname) (u : rpki_uri) : Prop :=
    exists text b comps, g = GN_uri text b /\ printable text /\ place t None text comps /\
      u = {| u_global := text; u_local := join (nonempty [repository; opt tal] ++ comps); u_type := t |}.

  (** The URIs among the descriptions with method [n]: none, or one, every other
      one being of no interest. *)
  Inductive uris_of (n : Z) (t : uri_type) : list access -> option rpki_uri -> Prop :=
  | no_uri l : (forall a, In a l -> ad_method a = n -> ignored t (ad_location a)) -> uris_of n t l None
  | one_uri l1 a l2 u : ad_method a = n -> located t (ad_location a) u ->
      (forall b, In b (l1 ++ l2) -> ad_method b = n -> ignored t (ad_location b)) ->
      uris_of n t (l1 ++ a :: l2) (Some u).

  (** The first rsync URI. *)
  Inductive first_rsync : list gname -> list Z -> Prop :=
  | first_here text l : has_scheme UT_RSYNC text -> first_rsync (GN_uri text false :: l) text
  | first_later g l text : (forall t b, g = GN_uri t b -> ~ has_scheme UT_RSYNC t) -> first_rsync l text -> first_rsync (g :: l) text.

  (** [id] identifies the key. *)
  Definition key_id (spk : option (list Z)) (id : list Z) : Prop := exists k, spk = Some k /\ sha1 k = Some id.

  Context (p : profile).
  (** The certificate's key, that of its issuer, the signer identifier of the
      signed object (EE certificates), and the certificate's extensions. *)
  Context (spk : option (list Z)) (parent : option (option (list Z))) (sid : list Z) (es : list x509_extension).

  (** A right value of extension [i], and what has to be remembered of it. *)
  Definition content (i : ext_id) (v : option ext_value) (r : record) : Prop :=
    match i with
    | BC => v = Some (V_basic_constraints false)
    | SKI => exists id, v = Some (V_octets id) /\ key_id spk id /\ (p = EE -> id = sid)
    | AKI => exists id issuer serial, v = Some (V_akid (Some id) issuer serial) /\
        match p with
        | TrustAnchor => (** the certificate's own SKI *)
            exists e, In e es /\ e_nid e = nid SKI /\ e_value e = Some (V_octets id)
        | _ => issuer = false /\ serial = false /\ exists issuer_key, parent = Some issuer_key /\ key_id issuer_key id
        end
    | KU => exists s, v = Some (V_bits s) /\ (1 <= length s <= 2)%nat /\ exactly s (key_usage p)
    | CDP => exists names text,
        v = Some (V_crldp [{| dp_name := Some (DP_fullname names); dp_reasons := false; dp_issuer := false |}]) /\
        first_rsync names text /\ r_crldp r = Some text
    | AIA => exists l u, v = Some (V_access l) /\ uris_of nid_ca_issuers UT_RSYNC l (Some u) /\ r_caIssuers r = Some u
    | SIA => exists l, v = Some (V_access l) /\
        match p with
        | EE => exists u, uris_of nid_ad_so UT_RSYNC l (Some u) /\ r_signedObject r = Some u
        | _ => exists repo notif mft, uris_of nid_caRepository UT_RSYNC l repo /\ uris_of nid_ad_notify UT_HTTPS l notif /\
                 uris_of nid_ad_mft UT_RSYNC l (Some mft) /\
                 r_rpp r = (match repo with Some u => [u] | None => [] end) ++ (match notif with Some u => [u] | None => [] end) /\
                 r_mft r = Some mft
        end
    | CP => exists id qualifiers policy, v = Some (V_policies [{| pi_id := id; pi_qualifiers := qualifiers |}]) /\
        ((id = nid_certPolicyRpki /\ policy = RPKI_POLICY_RFC6484) \/
         (id = nid_certPolicyRpkiV2 /\ id <> nid_certPolicyRpki /\ policy = RPKI_POLICY_RFC8360)) /\
        (qualifiers = None \/ qualifiers = Some [] \/ qualifiers = Some [nid_qt_cps]) /\
        r_policy r = Some policy
    | CN => v <> None
    | IR | AR | IR2 | AR2 | EKU => True
    end.

  (** What is not in the profile is not remembered. *)
  Definition nothing_else (r : record) : Prop :=
    (p <> CA -> p <> EE -> r_crldp r = None /\ r_caIssuers r = None) /\
    (p <> EE -> r_signedObject r = None) /\
    (p <> TrustAnchor -> p <> CA -> r_rpp r = [] /\ r_mft r = None) /\
    (p = Crl -> r_policy r = None).

  Record well_formed (r : record) : Prop := {
    (** RFC 5280 4.2: no extension twice. *)
    wf_once : forall i n1 n2 e1 e2, known p i -> nth_error es n1 = Some e1 -> nth_error es n2 = Some e2 ->
      e_nid e1 = nid i -> e_nid e2 = nid i -> n1 = n2;
    wf_critical : forall i e, known p i -> In e es -> e_nid e = nid i -> (e_critical e = true <-> critical i);
    (** RFC 6487 4.8: no other critical extension. *)
    wf_unknown : forall e, In e es -> (forall i, known p i -> e_nid e <> nid i) -> e_critical e = false;
    wf_present : forall i, presence_of p i = Required -> exists e, In e es /\ e_nid e = nid i;
    wf_content : forall i e, known p i -> In e es -> e_nid e = nid i -> content i (e_value e) r;
    wf_record : nothing_else r;
  }.
End Spec.

(** libcrypto gives values of the extension's type; key usages are bytes. *)
Definition typed (nid : ext_id -> Z) (e : x509_extension) : Prop :=
  forall i v, e_nid e = nid i -> e_value e = Some v ->
  match i with
  | BC => exists b, v = V_basic_constraints b
  | SKI => exists s, v = V_octets s
  | AKI => exists k a b, v = V_akid k a b
  | KU => exists s, v = V_bits s /\ Forall is_byte s
  | CDP => exists l, v = V_crldp l
  | AIA | SIA => exists l, v = V_access l
  | CP => exists l, v = V_policies l
  | _ => True
  end.

(** Locations for which there is room: their path in the cache is shorter than
    4096 bytes. *)
Definition room (repository : list Z) (tal : option (list Z)) (text : list Z) : Prop :=
  (length (join (nonempty [repository; opt tal])) + length text <= 4090)%nat.
Definition short (repository : list Z) (tal : option (list Z)) (g : gname) : Prop :=
  match g with GN_uri text _ => room repository tal text | GN_other => True end.
Definition short_value (repository : list Z) (tal : option (list Z)) (v : ext_value) : Prop :=
  match v with V_access l => Forall (fun a => short repository tal (ad_location a)) l | _ => True end.
Definition short_extension (repository : list Z) (tal : option (list Z)) (e : x509_extension) : Prop :=
  forall v, e_value e = Some v -> short_value repository tal v.
