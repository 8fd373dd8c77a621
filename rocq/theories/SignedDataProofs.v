(** Proofs about signed objects. *)
From Coq Require Import Permutation.
From Verif Require Import Base BaseLemmas PduWireSpec AddressProofs Asn1 ResourcesSpec ResourcesProofs
  BerSpec Ber OidSpec Oid OidProofs OidProps Manifest SignedData SignedDataSpec.

Notation length := List.length.

(** ** Small things *)
Lemma version3 b : bytes b -> (asn_INTEGER2ulong b = Some 3 <-> integer_value b = 3).
Proof.
  intros F. rewrite (integer_ulong b F). pose proof (be_bound b F) as B. split.
  - destruct (be b <? 2 ^ 64) eqn:E; [|discriminate]. intros G. injection G as G.
    unfold integer_value. destruct b as [|x b]; [exact G|]. destruct (Z.ltb_spec x 128); [exact G|].
    exfalso. rewrite be_cons in G. inversion F as [|? ? F1 F2]; subst. pose proof (be_bound b F2).
    assert (1 <= 256 ^ Z.of_nat (length b)) by (apply (Z.pow_le_mono_r 256 0); lia).
    assert (128 * 1 <= x * 256 ^ Z.of_nat (length b)) by (apply Z.mul_le_mono_nonneg; lia). lia.
  - intros G. rewrite <- (integer_value_nonneg b F) by lia. rewrite G. reflexivity.
Qed.

Lemma null_spec p : is_asn1_null_object p = true <-> p = null_bytes.
Proof.
  unfold is_asn1_null_object, null_bytes. rewrite !andb_true_iff, Nat.eqb_eq, !Z.eqb_eq. split.
  - intros [[L A] B]. destruct p as [|x [|y [|z p]]]; try discriminate. cbn [nth] in A, B. congruence.
  - intros ->. auto.
Qed.

Lemma hashing_spec act a : validate_cms_hashing_algorithm act a = Ok tt <-> is_sha256 act a.
Proof.
  unfold validate_cms_hashing_algorithm, validate_cms_hashing_algorithm_oid, is_sha256.
  destruct (Nat.eqb_spec (length (al_oid a)) 9) as [L|L]; cbn [negb].
  2: { split; [discriminate|]. intros [E _]. rewrite E in L. contradiction. }
  destruct (list_eqb Z.eqb sha256_oid (al_oid a)) eqn:E; cbn [negb].
  2: { split; [discriminate|]. intros [E2 _]. rewrite E2 in E. discriminate. }
  apply (list_eqb_spec Z.eqb Z.eqb_eq) in E. rewrite <- E.
  destruct (al_params a) as [p|].
  - destruct (is_asn1_null_object p) eqn:N.
    + apply null_spec in N. subst p. destruct act; cbn [incidence Z.eqb];
        (split; [intros G|intros [_ [G|[_ G]]]]); try discriminate; try reflexivity;
        try (split; [reflexivity|right; split; [reflexivity|discriminate]]). contradiction.
    + split; [discriminate|]. intros [_ [G|[G _]]]; [discriminate|]. injection G as ->. discriminate.
  - split; [|reflexivity]. auto.
Qed.
Lemma hashing_not_ub act a : validate_cms_hashing_algorithm act a <> UB.
Proof.
  unfold validate_cms_hashing_algorithm, validate_cms_hashing_algorithm_oid.
  destruct (negb _); [discriminate|]. destruct (negb _); [discriminate|].
  destruct (al_params a); [|discriminate]. destruct (is_asn1_null_object l); [|discriminate]. destruct (_ =? 0); discriminate.
Qed.

Lemma rsa_spec a : validate_cms_signature_algorithm a = Ok tt <-> is_rsa a.
Proof.
  unfold validate_cms_signature_algorithm, is_rsa.
  destruct (Nat.eqb_spec (length (al_oid a)) 9) as [L|L]; cbn [negb].
  2: { split; [discriminate|]. intros [[E|E] _]; rewrite E in L; contradiction. }
  destruct (list_eqb Z.eqb pkcs1_oid (firstn 8 (al_oid a))) eqn:E; cbn [negb].
  2: { split; [discriminate|]. intros [[E2|E2] _]; rewrite E2 in E; discriminate. }
  apply (list_eqb_spec Z.eqb Z.eqb_eq) in E.
  assert (Sp : al_oid a = pkcs1_oid ++ [nth 8 (al_oid a) 0]).
  { rewrite E. destruct (al_oid a) as [|x0 [|x1 [|x2 [|x3 [|x4 [|x5 [|x6 [|x7 [|x8 [|x9 t]]]]]]]]]]; try discriminate L. reflexivity. }
  cbn zeta. set (y := nth 8 (al_oid a) 0) in *.
  assert (Py : match al_params a with None => false | Some p => negb (is_asn1_null (Some p)) end = false
               <-> (al_params a = None \/ al_params a = Some null_bytes)).
  { destruct (al_params a) as [p|]; [|tauto]. cbn [is_asn1_null]. rewrite negb_false_iff, null_spec.
    split; [intros ->; auto|intros [G|G]; congruence]. }
  destruct (negb (y =? 1) && negb (y =? 11)) eqn:Y.
  - split; [discriminate|]. rewrite Sp. intros [[G|G] _]; unfold pkcs1_oid, rsa_bytes, sha256rsa_bytes in G; cbn [app] in G;
      injection G as G; rewrite G in Y; discriminate.
  - destruct (match al_params a with None => _ | Some _ => _ end) eqn:P.
    + split; [discriminate|]. intros [_ G]. apply Py in G. congruence.
    + split; [|reflexivity]. intros _. split; [|apply Py; reflexivity].
      rewrite Sp. destruct (Z.eqb_spec y 1) as [->|]; [left; reflexivity|].
      destruct (Z.eqb_spec y 11) as [->|]; [right; reflexivity|discriminate].
Qed.
Lemma rsa_not_ub a : validate_cms_signature_algorithm a <> UB.
Proof.
  unfold validate_cms_signature_algorithm. destruct (negb _); [discriminate|]. destruct (negb _); [discriminate|].
  cbn zeta. destruct (_ && _); [discriminate|]. destruct (match al_params a with None => _ | Some _ => _ end); discriminate.
Qed.

Lemma has_some_none {A} (l : option (list A)) : has_some l = false <-> none l.
Proof.
  unfold has_some, none. destruct l as [[|x l]|]; split; auto; try discriminate.
  intros [G|G]; discriminate.
Qed.

Lemma names_arcs b oid : names b oid <-> exists v vs, subids b (v :: vs) /\ arcs32 v vs = oid.
Proof. unfold names, arcs32. split; intros (v & vs & H & E); exists v, vs; split; auto. Qed.

Lemma is_oid_names b oid : bytes b -> (is_oid b oid = Ok true <-> names b oid).
Proof.
  intros Hb. rewrite names_arcs. split; [apply is_oid_true; assumption|].
  intros (v & vs & H & E). destruct (is_oid_complete b v vs oid H) as [r [Er Hr]]. rewrite Er. f_equal. apply Hr. exact E.
Qed.
Lemma names_unique b o1 o2 : names b o1 -> names b o2 -> o1 = o2.
Proof.
  rewrite !names_arcs. intros (v & vs & H & <-) (v2 & vs2 & H2 & <-).
  pose proof (subids_unique _ _ H _ H2) as E. injection E as -> ->. reflexivity.
Qed.
Lemma kind_oid_inj k1 k2 : kind_oid k1 = kind_oid k2 -> k1 = k2.
Proof. destruct k1, k2; intros E; try reflexivity; discriminate E. Qed.
Lemma is_oid_other b o1 o2 : bytes b -> names b o1 -> o1 <> o2 -> is_oid b o2 = Ok false.
Proof.
  intros Hb H Ne. pose proof H as H0. apply names_arcs in H. destruct H as (v & vs & H & _).
  destruct (is_oid_complete b v vs o2 H) as [[|] [Er Hr]]; [|exact Er].
  exfalso. apply Ne. apply (names_unique b); [exact H0|]. apply names_arcs. exists v, vs. split; [exact H|]. apply Hr. reflexivity.
Qed.

Section P.
  Context (dec_oid dec_octets : list Z -> option (list Z)).
  Context (sha256 : list Z -> option (list Z)).
  Context (act : action).
  Context {cert refs resources : Type}.
  Context (d2i_X509 : list Z -> option (cert * nat)).
  Context (validate_chain validate_rfc6487 : cert -> res unit).
  Context (validate_extensions_ee : cert -> list Z -> res (refs * rpki_policy)).
  Context (validate_aia : refs -> cert -> res unit).
  Context (evp_verify : cert -> list Z -> list Z -> bool).
  Context (get_resources : cert -> rpki_policy -> res resources).

  Local Notation aok := (attribute_ok dec_oid dec_octets sha256).
  Local Notation aloop := (signed_attrs_loop dec_oid dec_octets sha256).

  Lemma hash_validate_spec e d : hash_validate sha256 e d = Ok tt <-> sha256 d = Some e.
  Proof.
    unfold hash_validate. destruct (sha256 d) as [a|]; [|split; discriminate].
    destruct ((length e =? length a)%nat && list_eqb Z.eqb e a) eqn:E.
    - apply andb_true_iff in E. destruct E as [_ E]. apply (list_eqb_spec Z.eqb Z.eqb_eq) in E. subst. split; reflexivity.
    - split; [discriminate|]. intros G. injection G as ->. rewrite Nat.eqb_refl in E.
      assert (list_eqb Z.eqb e e = true) as R by (apply (list_eqb_spec Z.eqb Z.eqb_eq); reflexivity). rewrite R in E. discriminate.
  Qed.
  Lemma ct_spec v sd : validate_content_type_attribute dec_oid v sd = Ok tt <-> dec_oid v = Some (sd_ectype sd).
  Proof.
    unfold validate_content_type_attribute. destruct (dec_oid v) as [o|]; [|split; discriminate].
    destruct (oid_equal o (sd_ectype sd)) eqn:E.
    - apply oid_equal_spec in E. subst. split; reflexivity.
    - split; [discriminate|]. intros G. injection G as ->.
      assert (oid_equal (sd_ectype sd) (sd_ectype sd) = true) as R by (apply oid_equal_spec; reflexivity). congruence.
  Qed.
  Lemma md_spec v sd : validate_message_digest_attribute dec_octets sha256 v sd = Ok tt <->
    exists content digest, sd_econtent sd = Some content /\ dec_octets v = Some digest /\ sha256 content = Some digest.
  Proof.
    unfold validate_message_digest_attribute. destruct (sd_econtent sd) as [c|].
    - destruct (dec_octets v) as [d|].
      + rewrite hash_validate_spec. split; [intros H; exists c, d; auto|]. intros (c' & d' & E1 & E2 & E3). congruence.
      + split; [discriminate|]. intros (c' & d' & _ & E & _). discriminate.
    - split; [discriminate|]. intros (c' & d' & E & _). discriminate.
  Qed.
  Lemma ct_not_ub v sd : validate_content_type_attribute dec_oid v sd <> UB.
  Proof. unfold validate_content_type_attribute. destruct (dec_oid v); [|discriminate]. destruct (oid_equal _ _); discriminate. Qed.
  Lemma md_not_ub v sd : validate_message_digest_attribute dec_octets sha256 v sd <> UB.
  Proof.
    unfold validate_message_digest_attribute, hash_validate. destruct (sd_econtent sd); [|discriminate].
    destruct (dec_octets v); [|discriminate]. destruct (sha256 _); [|discriminate]. destruct (_ && _); discriminate.
  Qed.

  (** The kinds still to be seen. *)
  Definition need (ct md st : bool) : list kind :=
    (if ct then [] else [ContentType]) ++ (if md then [] else [MessageDigest]) ++ (if st then [] else [SigningTime]).

  (** One turn of the loop, in terms of [is_oid]. *)
  Lemma loop_turn sd a attrs ct md st v : at_values a = [v] ->
    aloop sd (a :: attrs) ct md st =
    match oid2arcs (at_type a) with
    | Err e => Err e | UB => UB
    | Ok _ =>
    (do isct <- is_oid (at_type a) (kind_oid ContentType);
     if (isct : bool) then if ct then Err EINVAL else
       do _ <- validate_content_type_attribute dec_oid v sd; aloop sd attrs true md st
     else do ismd <- is_oid (at_type a) (kind_oid MessageDigest);
     if (ismd : bool) then if md then Err EINVAL else
       do _ <- validate_message_digest_attribute dec_octets sha256 v sd; aloop sd attrs ct true st
     else do isst <- is_oid (at_type a) (kind_oid SigningTime);
     if (isst : bool) then if st then Err EINVAL else aloop sd attrs ct md true
     else Err EINVAL)%res end.
  Proof.
    intros E. cbn [signed_attrs_loop]. rewrite E. unfold is_oid.
    destruct (oid2arcs (at_type a)) as [arcs| |]; reflexivity.
  Qed.

  Lemma loop_spec sd : forall attrs ct md st, Forall (fun a => bytes (at_type a)) attrs ->
    (aloop sd attrs ct md st = Ok tt <->
     exists ks, Forall2 (aok sd) attrs ks /\ Permutation ks (need ct md st)).
  Proof.
    induction attrs as [|a attrs IH]; intros ct md st Hb.
    - cbn [signed_attrs_loop]. split.
      + intros G. exists []. split; [constructor|].
        destruct ct, md, st; cbn [negb] in G; try discriminate. constructor.
      + intros (ks & H & Hp). inversion H; subst. apply Permutation_nil in Hp. destruct ct, md, st; cbn in Hp; try discriminate. reflexivity.
    - inversion Hb as [|? ? Hb1 Hb2]; subst.
      destruct (at_values a) as [|v [|v2 vs]] eqn:Ev.
      1, 3: split; [cbn [signed_attrs_loop]; rewrite Ev; discriminate|];
            intros (ks & H & _); inversion H as [|? ? ? ? H1 _]; subst; destruct H1 as [_ (v0 & E & _)]; rewrite Ev in E; discriminate.
      rewrite (loop_turn sd a attrs ct md st v Ev). split.
      + destruct (oid2arcs (at_type a)) as [arcs| |] eqn:Ea; try discriminate.
        destruct (is_oid (at_type a) (kind_oid ContentType)) as [[|]| |] eqn:E1; cbn [bind]; try discriminate.
        * destruct ct; [discriminate|].
          destruct (validate_content_type_attribute dec_oid v sd) as [[]| |] eqn:Ec; cbn [bind]; try discriminate.
          intros G. apply IH in G; [|assumption]. destruct G as (ks & H & Hp). exists (ContentType :: ks). split.
          -- constructor; [|exact H]. split; [apply is_oid_names; assumption|]. exists v. split; [exact Ev|]. apply ct_spec. exact Ec.
          -- cbn [need app]. constructor. exact Hp.
        * destruct (is_oid (at_type a) (kind_oid MessageDigest)) as [[|]| |] eqn:E2; cbn [bind]; try discriminate.
          -- destruct md; [discriminate|].
             destruct (validate_message_digest_attribute dec_octets sha256 v sd) as [[]| |] eqn:Ec; cbn [bind]; try discriminate.
             intros G. apply IH in G; [|assumption]. destruct G as (ks & H & Hp). exists (MessageDigest :: ks). split.
             ++ constructor; [|exact H]. split; [apply is_oid_names; assumption|]. exists v. split; [exact Ev|]. apply md_spec. exact Ec.
             ++ unfold need. cbn [app]. apply Permutation_cons_app. exact Hp.
          -- destruct (is_oid (at_type a) (kind_oid SigningTime)) as [[|]| |] eqn:E3; cbn [bind]; try discriminate.
             destruct st; [discriminate|]. intros G. apply IH in G; [|assumption]. destruct G as (ks & H & Hp).
             exists (SigningTime :: ks). split.
             ++ constructor; [|exact H]. split; [apply is_oid_names; assumption|]. exists v. split; [exact Ev|exact I].
             ++ unfold need. rewrite app_assoc. apply Permutation_cons_app. rewrite app_nil_r.
                unfold need in Hp. rewrite app_nil_r in Hp. exact Hp.
      + intros (ks & H & Hp). inversion H as [|? k ? ks' H1 H2]; subst. destruct H1 as [Hn (v0 & E & Hk)].
        rewrite Ev in E. injection E as <-.
        assert (Ha : exists arcs, oid2arcs (at_type a) = Ok arcs).
        { apply is_oid_names in Hn; [|assumption]. unfold is_oid in Hn. destruct (oid2arcs (at_type a)); [eauto|discriminate|discriminate]. }
        destruct Ha as [arcs ->].
        assert (Hin : In k (need ct md st)) by (apply (Permutation_in _ Hp); left; reflexivity).
        assert (D : forall k', k <> k' -> is_oid (at_type a) (kind_oid k') = Ok false).
        { intros k' Ne. apply (is_oid_other _ (kind_oid k)); [assumption|assumption|]. intros C. apply kind_oid_inj in C. contradiction. }
        assert (Y : is_oid (at_type a) (kind_oid k) = Ok true) by (apply is_oid_names; assumption).
        destruct k.
        * rewrite Y. cbn [bind]. destruct ct.
          { exfalso. destruct md, st; cbn in Hin; intuition discriminate. }
          apply ct_spec in Hk. rewrite Hk. cbn [bind]. apply IH; [assumption|]. exists ks'. split; [exact H2|].
          cbn [need app] in Hp. apply Permutation_cons_inv in Hp. exact Hp.
        * rewrite (D ContentType) by discriminate. cbn [bind]. rewrite Y. cbn [bind]. destruct md.
          { exfalso. destruct ct, st; cbn in Hin; intuition discriminate. }
          apply md_spec in Hk. rewrite Hk. cbn [bind]. apply IH; [assumption|]. exists ks'. split; [exact H2|].
          unfold need in Hp. cbn [app] in Hp. apply Permutation_cons_app_inv in Hp. exact Hp.
        * rewrite (D ContentType) by discriminate. cbn [bind]. rewrite (D MessageDigest) by discriminate. cbn [bind].
          rewrite Y. cbn [bind]. destruct st.
          { exfalso. destruct ct, md; cbn in Hin; intuition discriminate. }
          apply IH; [assumption|]. exists ks'. split; [exact H2|].
          unfold need in Hp. rewrite app_assoc in Hp. apply Permutation_cons_app_inv in Hp. rewrite app_nil_r in Hp.
          unfold need. rewrite app_nil_r. exact Hp.
  Qed.

  Lemma loop_not_ub sd : forall attrs ct md st, Forall (fun a => bytes (at_type a)) attrs -> aloop sd attrs ct md st <> UB.
  Proof.
    induction attrs as [|a attrs IH]; intros ct md st Hb.
    - cbn [signed_attrs_loop]. destruct ct, md, st; discriminate.
    - inversion Hb as [|? ? Hb1 Hb2]; subst. destruct (at_values a) as [|v [|v2 vs]] eqn:Ev.
      1, 3: cbn [signed_attrs_loop]; rewrite Ev; discriminate.
      rewrite (loop_turn sd a attrs ct md st v Ev). pose proof (is_oid_not_ub (at_type a)) as N.
      destruct (oid2arcs (at_type a)) as [arcs|e|] eqn:Ea; [|discriminate|].
      2: { intros _. apply (N [] Hb1). unfold is_oid. rewrite Ea. reflexivity. }
      destruct (is_oid (at_type a) (kind_oid ContentType)) as [[|]| |] eqn:E1; cbn [bind]; try discriminate; [..|exfalso; exact (N _ Hb1 E1)].
      + destruct ct; [discriminate|]. pose proof (ct_not_ub v sd).
        destruct (validate_content_type_attribute dec_oid v sd); cbn [bind]; [apply IH; assumption|discriminate|contradiction].
      + destruct (is_oid (at_type a) (kind_oid MessageDigest)) as [[|]| |] eqn:E2; cbn [bind]; try discriminate; [..|exfalso; exact (N _ Hb1 E2)].
        * destruct md; [discriminate|]. pose proof (md_not_ub v sd).
          destruct (validate_message_digest_attribute dec_octets sha256 v sd); cbn [bind]; [apply IH; assumption|discriminate|contradiction].
        * destruct (is_oid (at_type a) (kind_oid SigningTime)) as [[|]| |] eqn:E3; cbn [bind]; try discriminate; [..|exfalso; exact (N _ Hb1 E3)].
          destruct st; [discriminate|]. apply IH. assumption.
  Qed.

  (** The content type found by the separate search is the eContentType. *)
  Lemma content_type_found sd : forall attrs ks, Forall (fun a => bytes (at_type a)) attrs ->
    Forall2 (aok sd) attrs ks -> In ContentType ks -> content_type_loop dec_oid attrs = Ok (sd_ectype sd).
  Proof.
    induction attrs as [|a attrs IH]; intros ks Hb H Hin.
    - inversion H; subst. contradiction.
    - inversion Hb as [|? ? Hb1 Hb2]; subst. inversion H as [|? k ? ks' H1 H2]; subst.
      destruct H1 as [Hn (v & Ev & Hk)]. cbn [content_type_loop].
      destruct k.
      + change OID_CONTENT_TYPE_ATTR with (kind_oid ContentType).
        assert (is_oid (at_type a) (kind_oid ContentType) = Ok true) as -> by (apply is_oid_names; assumption).
        rewrite Ev, Hk. reflexivity.
      + change OID_CONTENT_TYPE_ATTR with (kind_oid ContentType).
        rewrite (is_oid_other _ _ _ Hb1 Hn) by discriminate. destruct Hin as [Hin|Hin]; [discriminate|]. apply (IH ks'); assumption.
      + change OID_CONTENT_TYPE_ATTR with (kind_oid ContentType).
        rewrite (is_oid_other _ _ _ Hb1 Hn) by discriminate. destruct Hin as [Hin|Hin]; [discriminate|]. apply (IH ks'); assumption.
  Qed.

  Local Notation certok := (certificate_ok d2i_X509 validate_chain validate_rfc6487 validate_extensions_ee validate_aia evp_verify get_resources).
  Local Notation handle := (handle_sdata_certificate d2i_X509 validate_chain validate_rfc6487 validate_extensions_ee validate_aia evp_verify get_resources).

  Lemma handle_spec c sid frames mem size sg rf rs :
    handle c sid frames mem size sg = Ok (rf, rs) <-> certok c sid frames mem size sg rf rs.
  Proof.
    unfold handle_sdata_certificate, certificate_ok. split.
    - destruct (d2i_X509 c) as [[x used]|]; [|discriminate].
      destruct (Nat.eqb_spec used (length c)) as [->|]; cbn [negb]; [|discriminate].
      destruct (validate_chain x) as [[]| |] eqn:E1; cbn [bind]; try discriminate.
      destruct (validate_rfc6487 x) as [[]| |] eqn:E2; cbn [bind]; try discriminate.
      destruct (validate_extensions_ee x sid) as [[rf' pol]| |] eqn:E3; cbn [bind fst snd]; try discriminate.
      destruct (validate_aia rf' x) as [[]| |] eqn:E4; cbn [bind]; try discriminate.
      destruct (certificate_validate_signature (evp_verify x) frames mem size sg) as [[]| |] eqn:E5; cbn [bind]; try discriminate.
      destruct (get_resources x pol) as [rs'| |] eqn:E6; cbn [bind]; try discriminate.
      intros G; injection G as <- <-. exists x, pol. auto 10.
    - intros (x & pol & -> & E1 & E2 & E3 & E4 & E5 & E6). rewrite Nat.eqb_refl. cbn [negb].
      rewrite E1; cbn [bind]. rewrite E2; cbn [bind]. rewrite E3; cbn [bind fst snd]. rewrite E4; cbn [bind].
      rewrite E5; cbn [bind]. rewrite E6; cbn [bind]. reflexivity.
  Qed.

  Local Notation okay := (rfc6488 dec_oid dec_octets sha256 act d2i_X509 validate_chain validate_rfc6487 validate_extensions_ee validate_aia evp_verify get_resources).
  Local Notation validate := (signed_object_validate dec_oid dec_octets sha256 act d2i_X509 validate_chain validate_rfc6487 validate_extensions_ee validate_aia evp_verify get_resources).

  Lemma validate_sound oid frames mem size sd rf rs : sd_bytes sd ->
    validate oid frames mem size sd = Ok (rf, rs) -> okay oid frames mem size sd rf rs.
  Proof.
    intros (Hv & Hec & Hs). unfold signed_object_validate, validate_eContentType.
    destruct (is_oid (sd_ectype sd) oid) as [[|]| |] eqn:Ee; cbn [bind]; try discriminate.
    destruct (validate_content_type dec_oid sd oid) as [[]| |]; cbn [bind]; try discriminate.
    unfold signed_data_validate.
    destruct (sd_signers sd) as [|si [|]] eqn:Esi; try discriminate.
    inversion Hs as [|? ? Hs1 _]; subst. destruct Hs1 as [Hsv Hat].
    destruct (asn_INTEGER2ulong (sd_version sd)) as [ver|] eqn:Ev; [|discriminate].
    destruct (Z.eqb_spec ver 3) as [->|]; cbn [negb]; [|discriminate].
    destruct (sd_digests sd) as [|alg [|]] eqn:Ed; try discriminate.
    destruct (validate_cms_hashing_algorithm act alg) as [[]| |] eqn:Eh; cbn [bind]; try discriminate.
    destruct (has_some (sd_crls sd)) eqn:Ec; [discriminate|].
    destruct (asn_INTEGER2ulong (si_version si)) as [ver|] eqn:Ev2; [|discriminate].
    destruct (Z.eqb_spec ver 3) as [->|]; cbn [negb]; [|discriminate].
    unfold get_sid. destruct (si_sid si) as [ski| |] eqn:Esid; cbn [bind]; try discriminate.
    destruct (validate_cms_hashing_algorithm act (si_digest si)) as [[]| |] eqn:Eh2; cbn [bind]; try discriminate.
    unfold validate_signed_attrs. destruct (si_attrs si) as [attrs|] eqn:Eat; [|discriminate].
    destruct (aloop sd attrs false false false) as [[]| |] eqn:El; cbn [bind]; try discriminate.
    destruct (validate_cms_signature_algorithm (si_sigalg si)) as [[]| |] eqn:Er; cbn [bind]; try discriminate.
    destruct (has_some (si_unsigned si)) eqn:Eu; [discriminate|].
    destruct (sd_certs sd) as [[|c [|]]|] eqn:Ecs; try discriminate.
    intros G. apply handle_spec in G.
    apply loop_spec in El; [|apply Hat; reflexivity].
    constructor.
    - apply version3; assumption.
    - exists alg. split; [exact Ed|]. apply hashing_spec. exact Eh.
    - apply is_oid_names; assumption.
    - apply has_some_none. exact Ec.
    - exists si, ski, attrs, c. split; [exact Esi|]. split; [apply version3; assumption|].
      split; [exact Esid|]. split; [apply hashing_spec; exact Eh2|]. split; [exact Eat|]. split; [exact El|].
      split; [apply rsa_spec; exact Er|]. split; [apply has_some_none; exact Eu|]. split; [exact Ecs|]. exact G.
  Qed.

  Lemma validate_complete oid frames mem size sd rf rs : sd_bytes sd ->
    okay oid frames mem size sd rf rs -> validate oid frames mem size sd = Ok (rf, rs).
  Proof.
    intros (Hv & Hec & Hs) [Kv (alg & Kd & Ka) Kn Kc (si & ski & attrs & c & Esi & Ksv & Ksid & Kdig & Kat & Kok & Krsa & Kun & Kcert & Kc2)].
    rewrite Esi in Hs. inversion Hs as [|? ? Hs1 _]; subst. destruct Hs1 as [Hsv Hat]. specialize (Hat attrs Kat).
    destruct Kok as (ks & Kf & Kp).
    unfold signed_object_validate, validate_eContentType. apply (is_oid_names _ _ Hec) in Kn. rewrite Kn. cbn [bind].
    unfold validate_content_type, get_content_type_attr. rewrite Esi, Kat.
    destruct attrs as [|a attrs].
    { exfalso. inversion Kf; subst. apply Permutation_nil in Kp. discriminate. }
    rewrite (content_type_found sd (a :: attrs) ks Hat Kf) by (apply (Permutation_in _ (Permutation_sym Kp)); left; reflexivity).
    cbn [bind]. rewrite Kn. cbn [bind].
    unfold signed_data_validate. rewrite Esi. apply (version3 _ Hv) in Kv. rewrite Kv, Kd. cbn [negb Z.eqb Pos.eqb].
    apply hashing_spec in Ka. rewrite Ka. cbn [bind]. apply has_some_none in Kc. rewrite Kc.
    apply (version3 _ Hsv) in Ksv. rewrite Ksv. cbn [negb Z.eqb Pos.eqb]. unfold get_sid. rewrite Ksid. cbn [bind].
    apply hashing_spec in Kdig. rewrite Kdig. cbn [bind]. unfold validate_signed_attrs. rewrite Kat.
    assert (aloop sd (a :: attrs) false false false = Ok tt) as ->.
    { apply loop_spec; [exact Hat|]. exists ks. split; [exact Kf|exact Kp]. }
    cbn [bind]. apply rsa_spec in Krsa. rewrite Krsa. cbn [bind]. apply has_some_none in Kun. rewrite Kun, Kcert.
    apply handle_spec. exact Kc2.
  Qed.
End P.
