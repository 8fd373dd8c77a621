(** C99: what print mode shows of every part of a signed object, by its ASN.1 type (RFC 5652, 5280, 6482, 6486). *)
From Coq Require Import String.
From Verif Require Import Base CString Slurm Address Roa Asn1Dec Asn1Types JsonEncSpec.
Notation length := List.length.
Open Scope list_scope.
Open Scope Z_scope.

(** A member may be missing if it's OPTIONAL, or if it has a DEFAULT value, which is shown. *)
Inductive presence : Type := Required | Optional | Default (v : value).

(** The ways to show a value. *)
Inductive shown : Type :=
| Number                                                   (* an integer *)
| Hexadecimal                                              (* the bytes *)
| Utf8Text
| Date                                                     (* a GeneralizedTime *)
| ShortDate                                                (* a UTCTime *)
| Boolean
| Identifier                                               (* an OBJECT IDENTIFIER *)
| Struct (members : list (string * presence * shown))      (* an object, with the members in order *)
| Each (t : shown)                                         (* an array *)
| OneOf (ts : list shown)                                  (* a CHOICE: its alternative, as if there were no choice *)
| Special (P : value -> json -> Prop).

(** A UTCTime's century: the years from [pivot]0 are 19YY (RFC 5280: the pivot is '5'). *)
Definition in_century_from (pivot : Z) (st : list Z) : list Z :=
  match st with
  | a :: _ => (if pivot <=? a then [49; 57] else [50; 48]) ++ st
  | [] => []
  end.
Definition shows_short_date (pivot : Z) (st : list Z) (j : json) : Prop := (length st <= 21)%nat /\ shows_time (in_century_from pivot st) j.

Section Displays.
  (** The text of an object identifier. *)
  Variable oid_name : list Z -> option (list Z).
  Variable pivot : Z.

  Definition shows_identifier (b : list Z) (j : json) : Prop := exists s, oid_name b = Some s /\ utf8 s /\ j = JStr s.

  Fixpoint displays (t : shown) (v : value) (j : json) {struct t} : Prop :=
    match t with
    | Number => exists b, v = VBytes b /\ shows_integer b j
    | Hexadecimal => exists b s, (v = VBytes b \/ exists unused, v = VBits b unused) /\ hex_text s b /\ j = JStr s
    | Utf8Text => exists s, v = VBytes s /\ utf8 s /\ j = JStr s
    | Date => exists st, v = VBytes st /\ shows_time st j
    | ShortDate => exists st, v = VBytes st /\ shows_short_date pivot st j
    | Boolean => exists b, v = VBool b /\ j = JBool (if b =? 0 then false else true)
    | Identifier => exists b, v = VBytes b /\ shows_identifier b j
    | Struct ms =>
        exists vs fields, v = VSeq vs /\ j = JObj fields /\
          (fix members (ms : list (string * presence * shown)) (vs : list (option value)) (fields : list (list Z * json)) : Prop :=
             match ms, vs with
             | [], [] => fields = []
             | (name, p, t) :: ms, v :: vs =>
                 match v, p with
                 | Some v, _ | None, Default v => exists j rest, fields = (cstr name, j) :: rest /\ displays t v j /\ members ms vs rest
                 | None, Optional => members ms vs fields
                 | None, Required => False
                 end
             | _, _ => False
             end) ms vs fields
    | Each t => exists vs js, v = VOf vs /\ j = JArr js /\ Forall2 (displays t) vs js
    | OneOf ts => exists k v', v = VChoice k v' /\
        (fix alternative (ts : list shown) (k : nat) : Prop :=
           match ts, k with
           | t :: _, O => displays t v' j
           | _ :: ts, S k => alternative ts k
           | [], _ => False
           end) ts k
    | Special P => P v j
    end.
End Displays.

(** ** RFC 5280 *)
Definition algorithm_identifier : shown := Struct [("algorithm"%string, Required, Identifier); ("parameters"%string, Optional, Hexadecimal)].
Definition name : shown :=
  OneOf [Each (Each (Struct [("type"%string, Required, Identifier); ("value"%string, Required, Hexadecimal)]))].
Definition time : shown := OneOf [ShortDate; Date].
Definition extension : shown :=
  Struct [("extnID"%string, Required, Identifier); ("critical"%string, Default (VBool 0), Boolean); ("extnValue"%string, Required, Hexadecimal)].
Definition revoked_certificate : shown :=
  Struct [("userCertificate"%string, Required, Number); ("revocationDate"%string, Required, time); ("crlEntryExtensions"%string, Optional, Each extension)].
Definition tbs_cert_list : shown :=
  Struct [("version"%string, Optional, Number); ("signature"%string, Required, algorithm_identifier); ("issuer"%string, Required, name);
          ("thisUpdate"%string, Required, time); ("nextUpdate"%string, Optional, time);
          ("revokedCertificates"%string, Optional, Each revoked_certificate); ("crlExtensions"%string, Optional, Each extension)].
Definition certificate_list : shown :=
  Struct [("tbsCertList"%string, Required, tbs_cert_list); ("signatureAlgorithm"%string, Required, algorithm_identifier); ("signature"%string, Required, Hexadecimal)].

(** ** RFC 6482: ROAs, as in JsonEncSpec.v *)
Definition roa_address_value (a : roa_addr) : value := VSeq [Some (VBits (bs_buf (ra_address a)) (bs_unused (ra_address a))); option_map VBytes (ra_max a)].
Definition roa_block_value (b : list Z * list roa_addr) : value := VSeq [Some (VBytes (fst b)); Some (VOf (map roa_address_value (snd b)))].
Definition roa_block : shown := Special (fun v j => exists b, v = roa_block_value b /\ shows_block b j).
Definition roa : shown := Struct [("version"%string, Optional, Number); ("asId"%string, Required, Number); ("ipAddrBlocks"%string, Required, Each roa_block)].

(** ** RFC 6486: manifests *)
Definition manifest : shown :=
  Struct [("version"%string, Optional, Number); ("manifestNumber"%string, Required, Number); ("thisUpdate"%string, Required, Date); ("nextUpdate"%string, Required, Date);
          ("fileHashAlg"%string, Required, Identifier); ("fileList"%string, Required, Each (Struct [("file"%string, Required, Utf8Text); ("hash"%string, Required, Hexadecimal)]))].

(** ** RFC 5652 *)
Section CMS.
  Variable oid_name : list Z -> option (list Z).
  Variable pivot : Z.
  (** The decoder (C64): the value that the bytes (or some of the first ones) encode. *)
  Variable decodes : ty -> list Z -> value -> Prop.
  Variable certificate : list Z -> json -> Prop.
  (** The meaning of the object identifiers. *)
  Inductive attribute_kind : Type := ContentTypeAttribute | MessageDigestAttribute | SigningTimeAttribute | OtherAttribute.
  Inductive content_kind : Type := ManifestContent | RoaContent | GhostbustersContent | OtherContent.
  Variable attribute_of : list Z -> attribute_kind.
  Variable content_of : list Z -> content_kind.
  Variable signed_data_type : list Z -> Prop.

  (** What's encoded in some bytes. *)
  Definition shows_encoded (asn1 : ty) (t : shown) (b : list Z) (j : json) : Prop := exists v, decodes asn1 b v /\ displays oid_name pivot t v j.

  Definition shows_attribute_value (k : attribute_kind) : list Z -> json -> Prop :=
    match k with
    | ContentTypeAttribute => shows_encoded t_OBJECT_IDENTIFIER Identifier
    | MessageDigestAttribute => shows_encoded t_OCTET_STRING Hexadecimal
    | SigningTimeAttribute => shows_encoded t_Time time
    | OtherAttribute => shows_encoded t_ANY Hexadecimal
    end.
  Definition attribute : shown := Special (fun v j => exists type values s js,
    v = VSeq [Some (VBytes type); Some (VOf (map VBytes values))] /\ j = JObj [(cstr "attrType", JStr s); (cstr "attrValues", JArr js)]
    /\ shows_identifier oid_name type (JStr s) /\ Forall2 (shows_attribute_value (attribute_of type)) values js).
  Definition certificates : shown := Special (fun v j => exists bs js, v = VOf (map VBytes bs) /\ j = JArr js /\ Forall2 certificate bs js).
  Definition shows_content (k : content_kind) (b : list Z) (j : json) : Prop :=
    match k with
    | ManifestContent => shows_encoded t_Manifest manifest b j
    | RoaContent => shows_encoded t_RouteOriginAttestation roa b j
    | GhostbustersContent => utf8 b /\ j = JStr b
    | OtherContent => exists s, hex_text s b /\ j = JStr s
    end.
  Definition encapsulated_content : shown := Special (fun v j => exists type content s c,
    v = VSeq [Some (VBytes type); Some (VBytes content)] /\ j = JObj [(cstr "eContentType", JStr s); (cstr "eContent", c)]
    /\ shows_identifier oid_name type (JStr s) /\ shows_content (content_of type) content c).
  Definition signer_identifier : shown :=
    OneOf [Struct [("issuer"%string, Required, name); ("serialNumber"%string, Required, Number)]; Hexadecimal].
  Definition signer_info : shown :=
    Struct [("version"%string, Required, Number); ("sid"%string, Required, signer_identifier); ("digestAlgorithm"%string, Required, algorithm_identifier);
            ("signedAttrs"%string, Optional, Each attribute); ("signatureAlgorithm"%string, Required, algorithm_identifier); ("signature"%string, Required, Hexadecimal);
            ("unsignedAttrs"%string, Optional, Each attribute)].
  Definition revocation_info : shown :=
    OneOf [certificate_list; Struct [("otherRevInfoFormat"%string, Required, Identifier); ("otherRevInfo"%string, Required, Hexadecimal)]].
  Definition signed_data : shown :=
    Struct [("version"%string, Required, Number); ("digestAlgorithms"%string, Required, Each algorithm_identifier); ("encapContentInfo"%string, Required, encapsulated_content);
            ("certificates"%string, Optional, certificates); ("crls"%string, Optional, Each revocation_info); ("signerInfos"%string, Required, Each signer_info)].
  (** The whole object. *)
  Definition shows_object (type content : list Z) (j : json) : Prop := exists s c,
    j = JObj [(cstr "contentType", JStr s); (cstr "content", c)] /\ shows_identifier oid_name type (JStr s)
    /\ (signed_data_type type -> shows_encoded t_SignedData signed_data content c)
    /\ (~ signed_data_type type -> exists h, hex_text h content /\ c = JStr h).
End CMS.
