(** C63: a signed object is accepted exactly when RFC 6488's conditions hold. *)
From Coq Require Import Permutation.
From Verif Require Import Base BaseLemmas Asn1 ResourcesSpec BerSpec Ber BerProps OidSpec Oid OidProofs OidProps
  Manifest SignedData SignedDataSpec SignedDataProofs.

Section C63.
  Context (dec_oid dec_octets : list Z -> option (list Z)).
  Context (sha256 : list Z -> option (list Z)).
  Context (act : action).
  Context {cert refs resources : Type}.
  Context (d2i_X509 : list Z -> option (cert * nat)).
  Context (validate_chain validate_rfc6487 : cert -> res unit).
  Context (validate_extensions_ee : cert -> list Z -> res (refs * rpki_policy)).
  Context (validate_aia : refs -> cert -> res unit).
  Context (evp_verify : cert -> list Z -> list Z -> bool).
  Context (get_resources : cert -> rpki_policy -> res resources).

  Local Notation okay := (rfc6488 dec_oid dec_octets sha256 act d2i_X509 validate_chain validate_rfc6487 validate_extensions_ee validate_aia evp_verify get_resources).
  Local Notation validate := (signed_object_validate dec_oid dec_octets sha256 act d2i_X509 validate_chain validate_rfc6487 validate_extensions_ee validate_aia evp_verify get_resources).

  (** For every decoded object and every answer of the decoder, the hash and
      the certificate checks: accepted, with these references and resources, if
      and only if all the conditions hold. *)
  Theorem C63_accepted oid frames mem size sd rf rs : sd_bytes sd ->
    (validate oid frames mem size sd = Ok (rf, rs) <-> okay oid frames mem size sd rf rs).
  Proof. intros Hb. split; [apply validate_sound; assumption|apply validate_complete; assumption]. Qed.

  (** An accepted object's signature was verified with the key of the only
      certificate in it, over its signed attributes (see C61), which in turn
      bind the type and the digest of the content. *)
  Theorem C63_signed oid frames content mem sd rf rs : sd_bytes sd -> stored_as content mem ->
    validate oid frames mem (length content) sd = Ok (rf, rs) ->
    exists si c x L v rest, sd_signers sd = [si] /\ sd_certs sd = Some [c] /\ d2i_X509 c = Some (x, length c) /\
      signed_attributes_at content L v rest /\
      (forall V rest', rest = V ++ rest' -> v = Some (Z.of_nat (length V)) ->
         evp_verify x (49 :: L ++ V) (si_signature si) = true).
  Proof.
    intros Hb Hst E. apply C63_accepted in E; [|assumption].
    destruct E as [_ _ _ _ (si & ski & attrs & c & Esi & _ & _ & _ & _ & _ & _ & _ & Ec & x & pol & Ex & _ & _ & _ & _ & Esig & _)].
    destruct (C61_accepted (evp_verify x) frames content mem (si_signature si) Hst Esig) as (L & v & rest & Hat & HV).
    exists si, c, x, L, v, rest. auto 10.
  Qed.

  (** If none of the checks it calls crashes, it does not crash. *)
  Theorem C63_no_crash oid frames mem size sd : sd_bytes sd ->
    (forall si attrs a v o, In si (sd_signers sd) -> si_attrs si = Some attrs -> In a attrs -> In v (at_values a) ->
       dec_oid v = Some o -> bytes o) ->
    (forall c x n, d2i_X509 c = Some (x, n) -> validate_chain x <> UB /\ validate_rfc6487 x <> UB /\
       (forall i, validate_extensions_ee x i <> UB) /\ (forall r, validate_aia r x <> UB) /\ (forall p, get_resources x p <> UB)) ->
    (sd_signers sd <> [] -> forall x sg, certificate_validate_signature (evp_verify x) frames mem size sg <> UB) ->
    validate oid frames mem size sd <> UB.
  Proof.
    intros (Hv & Hec & Hs) Hdec N N6. unfold signed_object_validate, validate_eContentType.
    destruct (is_oid (sd_ectype sd) oid) as [[|]| |] eqn:Ee; cbn [bind]; try discriminate; [|exfalso; exact (is_oid_not_ub _ _ Hec Ee)].
    unfold validate_content_type, get_content_type_attr.
    destruct (sd_signers sd) as [|si sis] eqn:Esi; [discriminate|]. inversion Hs as [|? ? Hs1 _]; subst. destruct Hs1 as [Hsv Hat].
    destruct (si_attrs si) as [attrs|] eqn:Eat; [|discriminate]. specialize (Hat attrs eq_refl).
    assert (Hcl : match content_type_loop dec_oid attrs with Ok o => bytes o | Err _ => True | UB => False end).
    { assert (Hdec' : forall a v o, In a attrs -> In v (at_values a) -> dec_oid v = Some o -> bytes o)
        by (intros a v o Ha Hv' Ho; exact (Hdec si attrs a v o (or_introl eq_refl) Eat Ha Hv' Ho)).
      clear - Hat Hdec'. induction attrs as [|a attrs IH]; cbn [content_type_loop]; [exact I|]. inversion Hat as [|? ? H1 H2]; subst.
      destruct (is_oid (at_type a) OID_CONTENT_TYPE_ATTR) as [[|]| |] eqn:E; [|apply IH; [assumption|intros; eapply Hdec'; try eassumption; right; assumption]|exact I|exact (is_oid_not_ub _ _ H1 E)].
      destruct (at_values a) as [|v vs] eqn:Ev; [exact I|]. destruct (dec_oid v) as [o|] eqn:Eo; [|exact I].
      apply (Hdec' a v o); [left; reflexivity|rewrite Ev; left; reflexivity|exact Eo]. }
    destruct attrs as [|a attrs]; [discriminate|]. destruct (content_type_loop dec_oid (a :: attrs)) as [o|e|]; cbn [bind]; [|discriminate|contradiction].
    destruct (is_oid o oid) as [[|]| |] eqn:Eo; cbn [bind]; try discriminate; [|exfalso; exact (is_oid_not_ub _ _ Hcl Eo)].
    unfold signed_data_validate. rewrite Esi. destruct sis; [|discriminate].
    destruct (asn_INTEGER2ulong (sd_version sd)) as [ver|]; [|discriminate]. destruct (negb _); [discriminate|].
    destruct (sd_digests sd) as [|alg [|]]; try discriminate.
    pose proof (hashing_not_ub act alg). destruct (validate_cms_hashing_algorithm act alg) as [[]| |]; cbn [bind]; [|discriminate|contradiction].
    destruct (has_some (sd_crls sd)); [discriminate|].
    destruct (asn_INTEGER2ulong (si_version si)) as [ver2|]; [|discriminate]. destruct (negb _); [discriminate|].
    unfold get_sid. destruct (si_sid si) as [ski| |]; cbn [bind]; try discriminate.
    pose proof (hashing_not_ub act (si_digest si)). destruct (validate_cms_hashing_algorithm act (si_digest si)) as [[]| |]; cbn [bind]; [|discriminate|contradiction].
    unfold validate_signed_attrs. rewrite Eat.
    pose proof (loop_not_ub dec_oid dec_octets sha256 sd (a :: attrs) false false false Hat).
    destruct (signed_attrs_loop dec_oid dec_octets sha256 sd (a :: attrs) false false false) as [[]| |]; cbn [bind]; [|discriminate|contradiction].
    pose proof (rsa_not_ub (si_sigalg si)). destruct (validate_cms_signature_algorithm (si_sigalg si)) as [[]| |]; cbn [bind]; [|discriminate|contradiction].
    destruct (has_some (si_unsigned si)); [discriminate|]. destruct (sd_certs sd) as [[|c [|]]|]; try discriminate.
    unfold handle_sdata_certificate. destruct (d2i_X509 c) as [[x used]|] eqn:Ed; [|discriminate]. destruct (negb _); [discriminate|].
    destruct (N _ _ _ Ed) as (N1 & N2 & N3 & N4 & N5). destruct (validate_chain x) as [[]| |]; cbn [bind]; [|discriminate|contradiction].
    destruct (validate_rfc6487 x) as [[]| |]; cbn [bind]; [|discriminate|contradiction].
    specialize (N3 ski). destruct (validate_extensions_ee x ski) as [[r p]| |]; cbn [bind fst snd]; [|discriminate|contradiction].
    specialize (N4 r). destruct (validate_aia r x) as [[]| |]; cbn [bind]; [|discriminate|contradiction].
    specialize (N6 ltac:(discriminate) x (si_signature si)). destruct (certificate_validate_signature (evp_verify x) frames mem size (si_signature si)) as [[]| |]; cbn [bind]; [|discriminate|contradiction].
    specialize (N5 p). destruct (get_resources x p); cbn [bind]; [discriminate|discriminate|contradiction].
  Qed.

  Context (dec_cinfo : list Z -> option (list Z * list Z * nat)).
  Context (dec_sdata : list Z -> option signed_data).
  Context (dec_sdata7 : list Z -> option (signed_data * option (list Z))).
  Context (dec_econtent7 : list Z -> option (list Z)).

  (** The SignedData inside of a ContentInfo's content, possibly in the older
      PKCS #7 form, whose content is the decoding of an ANY value (RFC 5652
      5.2.1). *)
  Definition contains (content : list Z) (sd : signed_data) : Prop :=
    dec_sdata content = Some sd \/
    (dec_sdata content = None /\ exists sd7 any e, dec_sdata7 content = Some (sd7, Some any) /\
       dec_econtent7 any = Some e /\ sd_econtent sd = Some e /\
       sd_version sd = sd_version sd7 /\ sd_digests sd = sd_digests sd7 /\ sd_ectype sd = sd_ectype sd7 /\
       sd_certs sd = sd_certs sd7 /\ sd_crls sd = sd_crls sd7 /\ sd_signers sd = sd_signers sd7).

  Local Notation object := (signed_object dec_oid dec_octets sha256 act d2i_X509 validate_chain validate_rfc6487 validate_extensions_ee validate_aia evp_verify get_resources
                              dec_cinfo dec_sdata dec_sdata7 dec_econtent7).

  (** From the file: the outermost type must be id-signedData
      (1.2.840.113549.1.7.2). *)
  Theorem C63_file oid frames file sd rf rs :
    (forall t m n, dec_cinfo file = Some (t, m, n) -> bytes t /\ forall sd, contains (firstn n m) sd -> sd_bytes sd) ->
    (object oid frames file = Ok (sd, rf, rs) <->
     exists ctype mem size, dec_cinfo file = Some (ctype, mem, size) /\
       names ctype [1; 2; 840; 113549; 1; 7; 2] /\
       contains (firstn size mem) sd /\
       okay oid frames mem size sd rf rs).
  Proof.
    intros H0. unfold signed_object, content_info_decode.
    assert (Hdec : forall c sd, signed_data_decode dec_sdata dec_sdata7 dec_econtent7 c = Ok sd <-> contains c sd).
    { intros c s. unfold signed_data_decode, signed_data_decode_pkcs7, contains. destruct (dec_sdata c) as [s0|].
      - split; [intros G; injection G as ->; auto|]. intros [G|[G _]]; [congruence|discriminate].
      - split.
        + destruct (dec_sdata7 c) as [[s7 [any|]]|] eqn:E7; try discriminate. destruct (dec_econtent7 any) as [e|] eqn:Ee; [|discriminate].
          intros G; injection G as <-. right. split; [reflexivity|]. exists s7, any, e. cbn. auto 10.
        + intros [G|[_ (s7 & any & e & -> & -> & H1 & H2 & H3 & H4 & H5 & H6 & H7)]]; [discriminate|].
          destruct s as [a1 a2 a3 a4 a5 a6 a7]. cbn in *. subst. reflexivity. }
    split.
    - destruct (dec_cinfo file) as [[[ctype mem] size]|] eqn:Ec; [|discriminate].
      destruct (is_oid ctype OID_SIGNED_DATA) as [[|]| |] eqn:Eo; cbn [bind fst snd]; try discriminate.
      destruct (signed_data_decode dec_sdata dec_sdata7 dec_econtent7 (firstn size mem)) as [s| |] eqn:Es; cbn [bind]; try discriminate.
      destruct (validate oid frames mem size s) as [[rf' rs']| |] eqn:Ev; cbn [bind fst snd]; try discriminate.
      intros G; injection G as <- <- <-. exists ctype, mem, size. split; [reflexivity|].
      destruct (H0 _ _ _ eq_refl) as (Ht & Hsd). split; [apply is_oid_names; [exact Ht|exact Eo]|].
      apply Hdec in Es. split; [exact Es|]. apply C63_accepted; [exact (Hsd _ Es)|exact Ev].
    - intros (ctype & mem & size & Ec & Hn & Hc & Hok). rewrite Ec. destruct (H0 _ _ _ Ec) as (Ht & Hsd).
      apply is_oid_names in Hn; [|exact Ht]. change OID_SIGNED_DATA with [1; 2; 840; 113549; 1; 7; 2]. rewrite Hn. cbn [bind fst snd].
      pose proof Hc as Hc2. apply Hdec in Hc2. rewrite Hc2. cbn [bind].
      apply C63_accepted in Hok; [|exact (Hsd _ Hc)]. rewrite Hok. reflexivity.
  Qed.
End C63.

(** The algorithms' bytes are those of the identifiers RFC 7935 names. *)
Ltac one_octet := match goal with |- subid [?x] _ => exact (subid_intro [] x ltac:(constructor) ltac:(lia)) end.
Theorem C63_algorithms :
  encodes sha256_bytes [2; 16; 840; 1; 101; 3; 4; 2; 1] /\
  encodes rsa_bytes [1; 2; 840; 113549; 1; 1; 1] /\
  encodes sha256rsa_bytes [1; 2; 840; 113549; 1; 1; 11].
Proof.
  split; [|split].
  - exists 96, [840; 1; 101; 3; 4; 2; 1]. split; [|reflexivity].
    apply (subids_cons [96]); [one_octet|].
    apply (subids_cons [134; 72] _ 840); [exact (subid_intro [6] 72 ltac:(repeat constructor; lia) ltac:(lia))|].
    do 5 (apply (subids_cons [_]); [one_octet|]). apply (subids_cons [1] [] 1 []); [one_octet|constructor].
  - exists 42, [840; 113549; 1; 1; 1]. split; [|reflexivity].
    apply (subids_cons [42]); [one_octet|].
    apply (subids_cons [134; 72] _ 840); [exact (subid_intro [6] 72 ltac:(repeat constructor; lia) ltac:(lia))|].
    apply (subids_cons [134; 247; 13] _ 113549); [exact (subid_intro [6; 119] 13 ltac:(repeat constructor; lia) ltac:(lia))|].
    do 2 (apply (subids_cons [_]); [one_octet|]). apply (subids_cons [1] [] 1 []); [one_octet|constructor].
  - exists 42, [840; 113549; 1; 1; 11]. split; [|reflexivity].
    apply (subids_cons [42]); [one_octet|].
    apply (subids_cons [134; 72] _ 840); [exact (subid_intro [6] 72 ltac:(repeat constructor; lia) ltac:(lia))|].
    apply (subids_cons [134; 247; 13] _ 113549); [exact (subid_intro [6; 119] 13 ltac:(repeat constructor; lia) ltac:(lia))|].
    do 2 (apply (subids_cons [_]); [one_octet|]). apply (subids_cons [11] [] 11 []); [one_octet|constructor].
Qed.

(** Non-vacuity: an accepted ROA (toy hash, decoder and certificate), with its
    attributes in an unusual order; it is refused as a manifest, with the other
    digest, or with an attribute twice. *)
Definition ex_attr (n : Z) (v : list Z) := {| at_type := [42; 134; 72; 134; 247; 13; 1; 9; n]; at_values := [v] |}.
Definition ex_si (attrs : list attribute) := {|
  si_version := [3]; si_sid := SidSKI [7; 7];
  si_digest := {| al_oid := sha256_bytes; al_params := Some null_bytes |};
  si_attrs := Some attrs; si_sigalg := {| al_oid := rsa_bytes; al_params := Some null_bytes |};
  si_signature := [8]; si_unsigned := None |}.
Definition ex_sd (attrs : list attribute) := {|
  sd_version := [3]; sd_digests := [{| al_oid := sha256_bytes; al_params := None |}];
  sd_ectype := roa_oid; sd_econtent := Some [10; 20]; sd_certs := Some [[5; 5; 5]]; sd_crls := None;
  sd_signers := [ex_si attrs] |}.
Definition ex_mem : list Z := ex_prefix ++ [160; 3; 1; 2; 3; 77; 0].
Definition ex_validate (a : action) (oid : list Z) (attrs : list attribute) :=
  signed_object_validate (fun v => Some v) (fun v => Some v) (fun d => Some [fold_left Z.add d 0]) a
    (fun c => Some (c, length c)) (fun _ => Ok tt) (fun _ => Ok tt) (fun _ ski => Ok (ski, RPKI_POLICY_RFC6484))
    (fun _ _ => Ok tt) (fun _ d s => list_eqb Z.eqb d [49; 3; 1; 2; 3] && list_eqb Z.eqb s [8]) (fun c _ => Ok c)
    oid 100 ex_mem (length ex_mem - 1) (ex_sd attrs).
Example C63_ex :
  let good := [ex_attr 5 [1]; ex_attr 3 roa_oid; ex_attr 4 [30]] in
  ex_validate INAC_WARN OID_ROA good = Ok ([7; 7], [5; 5; 5]) /\
  ex_validate INAC_ERROR OID_ROA good = Err EINVAL /\
  ex_validate INAC_WARN OID_MANIFEST good = Err EINVAL /\
  ex_validate INAC_WARN OID_ROA [ex_attr 5 [1]; ex_attr 3 roa_oid; ex_attr 4 [31]] = Err EINVAL /\
  ex_validate INAC_WARN OID_ROA (ex_attr 5 [1] :: good) = Err EINVAL /\
  ex_validate INAC_WARN OID_ROA (ex_attr 6 [1] :: good) = Err EINVAL.
Proof. vm_compute. auto 10. Qed.
Example C63_ex_bytes : sd_bytes (ex_sd [ex_attr 5 [1]; ex_attr 3 roa_oid; ex_attr 4 [30]]).
Proof.
  split; [repeat constructor; unfold is_byte; lia|]. split; [apply Forall_forall; unfold is_byte; cbn [In ex_sd sd_ectype roa_oid]; lia|].
  constructor; [|constructor]. split; [repeat constructor; unfold is_byte; lia|]. intros attrs E. injection E as <-.
  repeat (constructor; [apply Forall_forall; unfold is_byte; cbn [In ex_attr at_type]; lia|]). constructor.
Qed.

Print Assumptions C63_accepted.
Print Assumptions C63_signed.
Print Assumptions C63_no_crash.
Print Assumptions C63_file.
Print Assumptions C63_algorithms.
