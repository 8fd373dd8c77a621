(** C72, C73: certificates and CRLs, apart from the certificates' extensions. *)
From Coq Require Import Lia String.
From Verif Require Import Base BaseLemmas CString PathProps CertStack Extensions ExtensionsSpec ExtensionsProps CertProfile CertProfileSpec CertProfileProofs.
Notation length := List.length.

Section Props.
  Context (NCN NSN NSIG NRSA NEC NP256 : Z) (distinct : NCN <> NSN).
  Context (obj2nid : list Z -> Z) (d2i : list Z -> option (public_key * nat)).
  Local Notation validate := (certificate_validate_rfc6487 NCN NSN NSIG NRSA NEC NP256 obj2nid d2i).
  Local Notation conforms := (conforms NCN NSN NSIG NRSA NEC NP256 obj2nid d2i).
  Local Notation plain := (plain NCN NSN).
  Local Notation valid_name := (valid_name NCN NSN).

  Lemma rsa_iff k : (exists pa b, pk_param k = Some (pa, b) /\ validate_certificate_public_key_algorithm NRSA obj2nid pa = Ok tt) /\ validate_subject_public_key k = Ok tt
    <-> rsa_key NRSA obj2nid k.
  Proof.
    unfold rsa_key, validate_certificate_public_key_algorithm, validate_subject_public_key. split.
    - intros ((pa & b & P & A) & B). split.
      + exists pa, b. split; [exact P|]. destruct (Z.eqb_spec (obj2nid (al_oid pa)) NRSA); [assumption|discriminate].
      + destruct (pk_key k) as [r|]; [|discriminate]. destruct (k_rsa r) eqn:R; cbn [negb] in B; [|discriminate]. destruct (k_bits r) as [bits|] eqn:Bi; [|discriminate].
        destruct (Z.ltb_spec bits 2048); [discriminate|]. destruct (k_exponent r) as [x|] eqn:X; [|discriminate]. destruct (Z.eqb_spec x 65537); [subst x|discriminate].
        exists r, bits. intuition.
    - intros ((pa & b & P & A) & r & bits & K & R & Bi & L & X). split.
      + exists pa, b. split; [exact P|]. rewrite A, Z.eqb_refl. reflexivity.
      + rewrite K, R, Bi, X. cbn [negb]. destruct (Z.ltb_spec bits 2048); [lia|]. reflexivity.
  Qed.
  Lemma p256_iff k : (exists pa b, pk_param k = Some (pa, b) /\ validate_certificate_public_key_algorithm_bgpsec NEC NP256 obj2nid pa = Ok tt) <-> p256_key NEC NP256 obj2nid k.
  Proof.
    unfold p256_key, validate_certificate_public_key_algorithm_bgpsec. split.
    - intros (pa & b & P & A). exists pa, b. split; [exact P|]. destruct (Z.eqb_spec (obj2nid (al_oid pa)) NEC); cbn [negb] in A; [|discriminate].
      split; [assumption|]. destruct (al_param pa) as [[o n]|]; [|discriminate]. destruct o; cbn [negb] in A; [|discriminate].
      destruct (Z.eqb_spec n NP256); cbn [negb] in A; [subst n; reflexivity|discriminate].
    - intros (pa & b & P & A & Q). exists pa, b. split; [exact P|]. rewrite A, Q, !Z.eqb_refl. reflexivity.
  Qed.
  Lemma tal_iff tal k : validate_spki d2i tal k = Ok tt <-> exists tk, d2i tal = Some (tk, length tal) /\ same_key tk k.
  Proof.
    unfold validate_spki, decode_spki. destruct (d2i tal) as [[tk n]|] eqn:D; [|split; [discriminate|intros (? & ? & _); discriminate]].
    destruct (Nat.eqb_spec n (length tal)) as [->|N].
    - rewrite spki_iff. split; [intros H; exists tk; intuition|intros (tk' & Q & S); injection Q as <-; exact S].
    - split; [discriminate|]. intros (tk' & Q & _). injection Q as _ Q. congruence.
  Qed.

  Lemma public_key_iff tal c t : validate_public_key NRSA NEC NP256 obj2nid d2i tal c t = Ok tt <->
    exists k, x_pubkey c = Some k /\ (if match t with CERTYPE_BGPSEC => true | _ => false end then p256_key NEC NP256 obj2nid k else rsa_key NRSA obj2nid k) /\
      (t = CERTYPE_TA -> (exists tk, d2i tal = Some (tk, length tal) /\ same_key tk k) /\ x_self_verified c = Some true).
  Proof.
    unfold validate_public_key. destruct (x_pubkey c) as [k|]; [|split; [discriminate|intros (? & ? & _); discriminate]].
    pose proof (rsa_iff k) as R. pose proof (p256_iff k) as P. pose proof (tal_iff tal k) as T.
    assert (X : forall pa b, pk_param k = Some (pa, b) -> forall f : algor -> res unit, (exists pa b, pk_param k = Some (pa, b) /\ f pa = Ok tt) <-> f pa = Ok tt).
    { intros pa b Q f. split; [intros (pa' & b' & Q' & F); rewrite Q in Q'; injection Q' as <- <-; exact F|intros F; eauto]. }
    assert (Y : pk_param k = None -> ~ rsa_key NRSA obj2nid k /\ ~ p256_key NEC NP256 obj2nid k).
    { intros Q. split; [intros ((? & ? & Q' & _) & _)|intros (? & ? & Q' & _)]; congruence. }
    split.
    - intros H. exists k. split; [reflexivity|]. destruct (pk_param k) as [[pa b]|] eqn:K; [|discriminate].
      rewrite (X pa b eq_refl (validate_certificate_public_key_algorithm NRSA obj2nid)) in R. rewrite (X pa b eq_refl (validate_certificate_public_key_algorithm_bgpsec NEC NP256 obj2nid)) in P.
      destruct t; try (split; [apply P; exact H|discriminate]);
      (destruct (validate_certificate_public_key_algorithm NRSA obj2nid pa) as [[]| |]; cbn [bind] in H; try discriminate H);
      (destruct (validate_subject_public_key k) as [[]| |]; cbn [bind] in H; try discriminate H); try (split; [apply R; split; reflexivity|discriminate]).
      split; [apply R; split; reflexivity|]. intros _. destruct (validate_spki d2i tal k) as [[]| |]; cbn [bind] in H; try discriminate H.
      split; [apply T; reflexivity|]. destruct (x_self_verified c) as [[]|]; congruence.
    - intros (k' & Q & A & B). injection Q as <-. destruct (pk_param k) as [[pa b]|] eqn:K.
      2:{ exfalso. destruct (Y eq_refl). destruct t; auto. }
      rewrite (X pa b eq_refl (validate_certificate_public_key_algorithm NRSA obj2nid)) in R. rewrite (X pa b eq_refl (validate_certificate_public_key_algorithm_bgpsec NEC NP256 obj2nid)) in P.
      destruct t; try (apply P; exact A); (apply R in A; destruct A as (A1 & A2); rewrite A1, A2; cbn [bind]; try reflexivity).
      destruct (B eq_refl) as (B1 & B2). apply T in B1. rewrite B1, B2. reflexivity.
  Qed.

  (** A certificate is accepted exactly if it conforms to the profile; about
      names in which no attribute appears twice and without NULs, see
      C72_names_refuted. *)
  Theorem C72_certificate_partial tal parent c t :
    (forall p, parent = Some p -> plain (x_subject p)) -> plain (x_issuer c) -> plain (x_subject c) ->
    validate tal parent c t = Ok tt <-> conforms tal parent t c.
  Proof.
    intros PP PI PS. pose proof (issuer_iff NCN NSN distinct parent (x_issuer c) PP PI) as I1. pose proof (decode_iff NCN NSN distinct (x_issuer c) PI) as I2.
    pose proof (decode_iff NCN NSN distinct (x_subject c) PS) as S. pose proof (public_key_iff tal c t) as K.
    unfold certificate_validate_rfc6487, validate_serial_number, validate_certificate_signature_algorithm, validate_issuer, validate_subject. split.
    - intros H. destruct (Z.eqb_spec (x_version c) 2) as [V|]; cbn [negb] in H; [|discriminate]. destruct (x_serial c) as [sn|] eqn:SN'; cbn [bind] in H; [|discriminate].
      destruct (Z.eqb_spec (x_sigalg c) NSIG) as [A|]; cbn [bind] in H; [|discriminate].
      match type of H with bind ?m _ = _ => destruct m as [[]| |] eqn:M; cbn [bind] in H; try discriminate H end.
      match type of H with bind ?m _ = _ => destruct m as [[]| |] eqn:M2; cbn [bind] in H; try discriminate H end.
      constructor; [exact V|congruence|exact A|apply S; reflexivity| |apply K; exact H].
      destruct t; cbn [negb] in M; try (split; [apply I2; exact M|congruence]); (apply I1 in M; destruct M as (p & P1 & P2 & P3 & P4); split; [exact P2|intros _; exists p; intuition]).
    - intros [V SN' A SU (I & I') PK]. rewrite V, A, !Z.eqb_refl. cbn [negb]. destruct (x_serial c); [|congruence]. cbn [bind].
      match goal with |- bind ?m _ = _ => assert (M : m = Ok tt) end.
      { destruct t; cbn [negb]; try (apply I2; exact I); (destruct (I' ltac:(discriminate)) as (p & P1 & P2 & P3); apply I1; exists p; intuition). }
      rewrite M. cbn [bind]. rewrite (proj2 S SU). cbn [bind]. apply K, PK.
  Qed.

  Lemma public_key_total tal c t : validate_public_key NRSA NEC NP256 obj2nid d2i tal c t <> UB.
  Proof.
    unfold validate_public_key. destruct (x_pubkey c) as [k|]; [|discriminate]. destruct (pk_param k) as [[pa b]|] eqn:K; [|discriminate].
    assert (A : validate_certificate_public_key_algorithm NRSA obj2nid pa <> UB) by (unfold validate_certificate_public_key_algorithm; destruct (_ =? _); discriminate).
    assert (B : validate_subject_public_key k <> UB).
    { unfold validate_subject_public_key. destruct (pk_key k) as [r|]; [|discriminate]. destruct (k_rsa r); cbn [negb]; [|discriminate]. destruct (k_bits r) as [n|]; [|discriminate].
      destruct (n <? 2048); [discriminate|]. destruct (k_exponent r) as [x|]; [|discriminate]. destruct (x =? 65537); discriminate. }
    assert (C : validate_spki d2i tal k <> UB).
    { unfold validate_spki, spki_cmp. destruct (decode_spki d2i tal) as [tk|]; [|discriminate]. destruct (pk_param tk) as [[? ?]|]; [|discriminate]. rewrite K.
      destruct (list_eqb Z.eqb _ _); cbn [negb]; [|discriminate]. destruct (_ =? _)%nat; cbn [negb]; [|discriminate]. destruct (list_eqb Z.eqb _ _); discriminate. }
    destruct t; cbn [bind];
      try (destruct (validate_certificate_public_key_algorithm NRSA obj2nid pa); cbn [bind]; try congruence; destruct (validate_subject_public_key k); cbn [bind]; try congruence; try discriminate).
    1: { destruct (validate_spki d2i tal k); cbn [bind]; try congruence. destruct (x_self_verified c) as [[]|]; discriminate. }
    all: unfold validate_certificate_public_key_algorithm_bgpsec. all: destruct (_ =? _); cbn [negb]; [|discriminate]. all: destruct (al_param pa) as [[o n]|]; [|discriminate].
    all: destruct o; cbn [negb]; [|discriminate]. all: destruct (n =? NP256); discriminate.
  Qed.

  (** Whatever the names: what is accepted has the version, serial number,
      algorithm and key of the profile; its names have CommonNames and
      serialNumbers only, and a CommonName; and its issuer has a CommonName of the
      parent's subject (up to a NUL). *)
  Definition lax_name (l : list name_entry) : Prop :=
    (forall e, In e l -> (ne_nid e = NCN \/ ne_nid e = NSN) /\ ne_data e <> None) /\ exists d, In {| ne_nid := NCN; ne_data := Some d |} l.
  Lemma decode_lax l n : x509_name_decode NCN NSN l = Ok n -> lax_name l /\ exists d, commonName n = Some d /\ In {| ne_nid := NCN; ne_data := Some d |} l.
  Proof.
    unfold x509_name_decode. destruct (name_loop NCN NSN l _) as [r| |] eqn:L; cbn [bind]; try discriminate. apply decode_loop in L; [|exact distinct]. cbn [commonName] in L. destruct L as (A & B & _).
    destruct (commonName r) as [d|] eqn:Q; [|discriminate]. intros E. injection E as <-. destruct B as [(_ & B)|(d' & B & B')]; [discriminate|]. injection B' as <-.
    split; [split; [exact A|eauto]|]. exists d. auto.
  Qed.
  Theorem C72_sound tal parent c t : validate tal parent c t = Ok tt ->
    x_version c = 2 /\ x_serial c <> None /\ x_sigalg c = NSIG /\ lax_name (x_subject c) /\ lax_name (x_issuer c) /\
    (t <> CERTYPE_TA -> exists p a b, parent = Some p /\ In {| ne_nid := NCN; ne_data := Some a |} (x_subject p) /\ In {| ne_nid := NCN; ne_data := Some b |} (x_issuer c) /\
       until_nul a = until_nul b) /\
    exists k, x_pubkey c = Some k /\ (if match t with CERTYPE_BGPSEC => true | _ => false end then p256_key NEC NP256 obj2nid k else rsa_key NRSA obj2nid k) /\
      (t = CERTYPE_TA -> (exists tk, d2i tal = Some (tk, length tal) /\ same_key tk k) /\ x_self_verified c = Some true).
  Proof.
    unfold certificate_validate_rfc6487, validate_serial_number, validate_certificate_signature_algorithm, validate_issuer, validate_subject. intros H.
    destruct (Z.eqb_spec (x_version c) 2) as [V|]; cbn [negb] in H; [|discriminate]. destruct (x_serial c) as [sn|] eqn:SN'; cbn [bind] in H; [|discriminate].
    destruct (Z.eqb_spec (x_sigalg c) NSIG) as [A|]; cbn [bind] in H; [|discriminate].
    match type of H with bind ?m _ = _ => destruct m as [[]| |] eqn:M; cbn [bind] in H; try discriminate H end.
    destruct (x509_name_decode NCN NSN (x_subject c)) as [n| |] eqn:M2; cbn [bind] in H; try discriminate H. apply decode_lax in M2.
    split; [exact V|]. split; [discriminate|]. split; [exact A|]. split; [apply M2|].
    cut (lax_name (x_issuer c) /\ (t <> CERTYPE_TA -> exists p a b, parent = Some p /\ In {| ne_nid := NCN; ne_data := Some a |} (x_subject p) /\ In {| ne_nid := NCN; ne_data := Some b |} (x_issuer c) /\
       until_nul a = until_nul b)).
    { intros (X & Y). split; [exact X|]. split; [exact Y|]. apply public_key_iff, H. }
    assert (X : validate_issuer_name NCN NSN parent (x_issuer c) = Ok tt -> lax_name (x_issuer c) /\ exists p a b, parent = Some p /\ In {| ne_nid := NCN; ne_data := Some a |} (x_subject p) /\
      In {| ne_nid := NCN; ne_data := Some b |} (x_issuer c) /\ until_nul a = until_nul b).
    { unfold validate_issuer_name. destruct parent as [p|]; [|discriminate]. destruct (x509_name_decode NCN NSN (x_subject p)) as [n1| |] eqn:D1; cbn [bind]; try discriminate.
      destruct (x509_name_decode NCN NSN (x_issuer c)) as [n2| |] eqn:D2; cbn [bind]; try discriminate. apply decode_lax in D1, D2. destruct D1 as (_ & a & A1 & A2), D2 as (L & b & B1 & B2).
      unfold x509_name_equals. rewrite A1, B1. cbn [bind]. destruct (str_same a b) eqn:S; cbn [andb]; [|discriminate]. intros _. split; [exact L|]. exists p, a, b.
      unfold str_same in S. apply (list_eqb_spec Z.eqb Z.eqb_eq) in S. auto. }
    destruct t; cbn [negb] in M; try (apply X in M; split; [apply M|intros _; apply M]).
    split; [|congruence]. destruct (x509_name_decode NCN NSN (x_issuer c)) as [n2| |] eqn:D2; cbn [bind] in M; try discriminate. apply decode_lax in D2. apply D2.
  Qed.

  (** Whatever the certificate and the stack: accepted or refused. *)
  Theorem C72_no_crash tal parent c t : validate tal parent c t <> UB.
  Proof.
    unfold certificate_validate_rfc6487. destruct (_ =? _); cbn [negb]; [|discriminate]. unfold validate_serial_number. destruct (x_serial c); cbn [bind]; [|discriminate].
    unfold validate_certificate_signature_algorithm. destruct (_ =? _); cbn [bind]; [|discriminate].
    assert (A : validate_issuer NCN NSN parent c (match t with CERTYPE_TA => true | _ => false end) <> UB).
    { unfold validate_issuer. destruct (negb _); [destruct (issuer_total NCN NSN parent (x_issuer c)) as [->|(e & ->)]; discriminate|].
      destruct (decode_total NCN NSN (x_issuer c)) as [(n & ->)|(e & ->)]; discriminate. }
    destruct (validate_issuer _ _ _ _ _); cbn [bind]; try congruence. unfold validate_subject. destruct (decode_total NCN NSN (x_subject c)) as [(n & ->)|(e & ->)]; cbn [bind]; [|discriminate].
    apply public_key_total.
  Qed.

  (** *** Serial numbers *)

  (** What has been stored: after any sequence of serial numbers, those of the
      sequence, each once; and there's a warning exactly for those that were
      there already (RFC 6487 4.2). *)
  Definition store_all (l : list Z) : option (list Z) := fold_left (fun s n => fst (x509stack_store_serial s n)) l (Some []).
  Theorem C72_serials l n :
    (exists s, store_all l = Some s /\ NoDup s /\ forall x, In x s <-> In x l) /\
    (snd (x509stack_store_serial (store_all l) n) = true <-> In n l).
  Proof.
    assert (A : exists s, store_all l = Some s /\ NoDup s /\ forall x, In x s <-> In x l).
    { unfold store_all. rewrite <- fold_left_rev_right. generalize (rev l) (in_rev l). intros m M.
      assert (A : exists s, fold_right (fun n s => fst (x509stack_store_serial s n)) (Some []) m = Some s /\ NoDup s /\ forall x, In x s <-> In x m).
      { clear M. induction m as [|y m (s & E & N & I)]; cbn [fold_right]; [exists []; repeat split; [constructor|tauto|tauto]|]. rewrite E. unfold x509stack_store_serial.
        destruct (existsb (Z.eqb y) s) eqn:X; cbn [fst].
        - exists s. split; [reflexivity|]. split; [exact N|]. apply existsb_exists in X. destruct X as (z & X & Y). apply Z.eqb_eq in Y. subst z.
          intros x. rewrite I. cbn [In]. split; [tauto|]. intros [<-|H]; [apply I; exact X|exact H].
        - exists (s ++ [y]). split; [reflexivity|]. assert (Y : ~ In y s).
          { intros Y. assert (Q : existsb (Z.eqb y) s = true) by (apply existsb_exists; exists y; rewrite Z.eqb_refl; auto). congruence. }
          split; [apply NoDup_Add with (a := y) (l := s); [|split; assumption]; pose proof (Add_app y s []) as Q; rewrite app_nil_r in Q; exact Q|].
          intros x. rewrite in_app_iff, I. cbn [In]. tauto. }
      destruct A as (s & E & N & I). exists s. split; [exact E|]. split; [exact N|]. intros x. rewrite I. symmetry. apply M. }
    split; [exact A|]. destruct A as (s & E & _ & I). rewrite E, <- I. unfold x509stack_store_serial. destruct (existsb (Z.eqb n) s) eqn:X; cbn [snd].
    - apply existsb_exists in X. destruct X as (z & X & Y). apply Z.eqb_eq in Y. subst z. tauto.
    - split; [discriminate|]. intros H. assert (Q : existsb (Z.eqb n) s = true) by (apply existsb_exists; exists n; rewrite Z.eqb_refl; auto). congruence.
  Qed.

  (** *** C73: CRLs *)
  Context (nid : ext_id -> Z) (inj : forall i j, nid i = nid j -> i = j) (sha1 : list Z -> option (list Z)).
  Local Notation crl_validate := (crl_validate NCN NSN NSIG nid sha1).
  Local Notation crl_conforms := (crl_conforms NCN NSN NSIG nid sha1).

  Lemma revoked_iff l : revoked_loop l = Ok tt <-> Forall (fun r => rv_serial r = true /\ rv_date r = true /\ rv_extensions r = false) l.
  Proof.
    induction l as [|[a b e] l IH]; cbn [revoked_loop rv_serial rv_date rv_extensions]; [split; [constructor|reflexivity]|]. rewrite Forall_cons_iff, <- IH. cbn [rv_serial rv_date rv_extensions].
    destruct a, b, e; cbn [negb]; intuition discriminate.
  Qed.
  Lemma revoked_total l : revoked_loop l <> UB.
  Proof. induction l as [|[a b e] l IH]; cbn [revoked_loop rv_serial rv_date rv_extensions]; [discriminate|]. destruct a, b, e; cbn [negb]; try discriminate. exact IH. Qed.

  Lemma empty_conf : conf_ok [] None None.
  Proof. unfold conf_ok. cbn. intuition. Qed.
  Lemma crl_record p es r : well_formed nid 0 0 0 0 0 0 0 0 sha1 [] None Crl None p [] es r -> r = empty_record.
  Proof.
    intros W. pose proof (wf_record _ _ _ _ _ _ _ _ _ _ _ _ _ _ _ _ _ _ W) as (A & B & C & D). destruct r as [r1 r2 r3 r4 r5 r6].
    cbn in A, B, C, D. destruct (A ltac:(discriminate) ltac:(discriminate)). pose proof (B ltac:(discriminate)). destruct (C ltac:(discriminate) ltac:(discriminate)). pose proof (D eq_refl).
    subst. reflexivity.
  Qed.

  (** A CRL is accepted exactly if it conforms to the profile. *)
  Theorem C73_crl_partial parent c :
    (forall p, parent = Some p -> plain (x_subject p)) -> plain (c_issuer c) ->
    Forall (typed nid) (c_extensions c) -> Forall (short_extension [] None) (c_extensions c) ->
    crl_validate parent c = Ok tt <-> crl_conforms parent c.
  Proof.
    intros PP PI T S. pose proof (issuer_iff NCN NSN distinct parent (c_issuer c) PP PI) as I1.
    pose proof (C71_extensions nid inj 0 0 0 0 0 0 0 0 sha1 0 [] None empty_conf Crl None (option_map key_of parent) [] (c_extensions c)) as X. cbn [ExtensionsProps.validate] in X.
    unfold CertProfile.crl_validate, validate_certificate_signature_algorithm, validate_revoked. split.
    - intros H. destruct (Z.eqb_spec (c_version c) 1) as [V|]; cbn [negb] in H; [|discriminate].
      destruct (Z.eqb_spec (c_sigalg c) NSIG) as [A|]; cbn [bind] in H; [|discriminate].
      destruct (validate_issuer_name NCN NSN parent (c_issuer c)) as [[]| |] eqn:M; cbn [bind] in H; try discriminate H.
      match type of H with bind ?m _ = _ => destruct m as [[]| |] eqn:M2; cbn [bind] in H; try discriminate H end.
      destruct (extensions_crl nid sha1 (option_map key_of parent) (c_extensions c)) as [r| |] eqn:E; cbn [bind] in H; try discriminate H.
      pose proof (proj1 (X r T S) eq_refl) as W. constructor; [exact V|exact A|apply I1; reflexivity| |rewrite <- (crl_record _ _ _ W); exact W].
      intros l L. rewrite L in M2. apply revoked_iff, M2.
    - intros [V A I R E]. rewrite V, A, !Z.eqb_refl. cbn [negb bind]. rewrite (proj2 I1 I). cbn [bind].
      assert (Q : match c_revoked c with None => Ok tt | Some l => revoked_loop l end = Ok tt) by (destruct (c_revoked c) as [l|]; [apply revoked_iff; auto|reflexivity]).
      rewrite Q. cbn [bind]. apply X in E; [|exact T|exact S]. rewrite E. reflexivity.
  Qed.
  (** Whatever names and lengths: what it accepts has the version, the
      algorithm, the revoked certificates and the extensions of the profile, and
      comes after a certificate. *)
  Theorem C73_crl_sound parent c : Forall (typed nid) (c_extensions c) -> crl_validate parent c = Ok tt ->
    c_version c = 1 /\ c_sigalg c = NSIG /\ parent <> None /\
    (forall l, c_revoked c = Some l -> Forall (fun r => rv_serial r = true /\ rv_date r = true /\ rv_extensions r = false) l) /\
    well_formed nid 0 0 0 0 0 0 0 0 sha1 [] None Crl None (option_map key_of parent) [] (c_extensions c) empty_record.
  Proof.
    intros T. pose proof (C71_sound nid inj 0 0 0 0 0 0 0 0 sha1 0 [] None empty_conf Crl None (option_map key_of parent) [] (c_extensions c)) as X. cbn [ExtensionsProps.validate] in X.
    unfold CertProfile.crl_validate, validate_certificate_signature_algorithm, validate_revoked. intros H. destruct (Z.eqb_spec (c_version c) 1) as [V|]; cbn [negb] in H; [|discriminate].
    destruct (Z.eqb_spec (c_sigalg c) NSIG) as [A|]; cbn [bind] in H; [|discriminate].
    destruct (validate_issuer_name NCN NSN parent (c_issuer c)) as [[]| |] eqn:M; cbn [bind] in H; try discriminate H.
    match type of H with bind ?m _ = _ => destruct m as [[]| |] eqn:M2; cbn [bind] in H; try discriminate H end.
    destruct (extensions_crl nid sha1 (option_map key_of parent) (c_extensions c)) as [r| |] eqn:E; cbn [bind] in H; try discriminate H.
    pose proof (X r T eq_refl) as W. split; [exact V|]. split; [exact A|]. split; [intros ->; discriminate M|]. split; [|rewrite <- (crl_record _ _ _ W); exact W].
    intros l L. rewrite L in M2. apply revoked_iff, M2.
  Qed.
  Theorem C73_no_crash parent c : Forall (typed nid) (c_extensions c) -> crl_validate parent c <> UB.
  Proof.
    intros T. unfold CertProfile.crl_validate. destruct (_ =? _); cbn [negb]; [|discriminate]. unfold validate_certificate_signature_algorithm. destruct (_ =? _); cbn [bind]; [|discriminate].
    destruct (issuer_total NCN NSN parent (c_issuer c)) as [->|(e & ->)]; cbn [bind]; [|discriminate].
    unfold validate_revoked. destruct (c_revoked c) as [l|].
    - pose proof (revoked_total l). destruct (revoked_loop l); cbn [bind]; try congruence.
      pose proof (C71_no_crash nid inj 0 0 0 0 0 0 0 0 sha1 0 [] None empty_conf Crl None (option_map key_of parent) [] (c_extensions c) T) as X. cbn [ExtensionsProps.validate] in X.
      destruct (extensions_crl _ _ _ _); cbn [bind]; congruence.
    - cbn [bind]. pose proof (C71_no_crash nid inj 0 0 0 0 0 0 0 0 sha1 0 [] None empty_conf Crl None (option_map key_of parent) [] (c_extensions c) T) as X. cbn [ExtensionsProps.validate] in X.
      destruct (extensions_crl _ _ _ _); cbn [bind]; congruence.
  Qed.

  (** *** The CRL of a publication point *)
  Local Notation rpp_crl := (rpp_crl NCN NSN NSIG nid sha1).
  (** The answers to requests in a row; the files may change between them. *)
  Fixpoint asks (envs : list ((list Z -> option x509_crl) * option x509)) (pp : option crl_slot) : res (list (res (option x509_crl))) :=
    match envs with
    | [] => Ok []
    | (load, parent) :: l => bind (rpp_crl load parent pp) (fun '(pp', a) => bind (asks l pp') (fun as' => Ok (a :: as')))
    end.
  (** The publication point's CRL is loaded and validated at the first request
      and never again: all requests get the same answer, which is the CRL of
      that file if it was valid then, an error otherwise. *)
  Theorem C73_once u load parent envs :
    (forall c, load u = Some c -> Forall (typed nid) (c_extensions c)) ->
    exists a, asks ((load, parent) :: envs) (Some {| cr_uri := Some u; cr_stack := None; cr_error := None |}) = Ok (List.repeat a (S (length envs))) /\
      (forall c, a = Ok (Some c) <-> load u = Some c /\ crl_validate parent c = Ok tt) /\
      (a = Ok None \/ a = UB -> False).
  Proof.
    intros T. cbn [asks]. unfold CertProfile.rpp_crl. cbn [cr_uri cr_stack cr_error]. unfold crl_load.
    assert (S : forall l c, asks l (Some {| cr_uri := Some u; cr_stack := Some c; cr_error := None |}) = Ok (List.repeat (Ok (Some c)) (length l))).
    { induction l as [|[ld p] l IH]; intros c; cbn [asks]; [reflexivity|]. unfold CertProfile.rpp_crl at 1. cbn [cr_uri cr_stack bind]. rewrite IH. reflexivity. }
    assert (E : forall l e, asks l (Some {| cr_uri := Some u; cr_stack := None; cr_error := Some e |}) = Ok (List.repeat (Err e) (length l))).
    { induction l as [|[ld p] l IH]; intros e; cbn [asks]; [reflexivity|]. unfold CertProfile.rpp_crl at 1. cbn [cr_uri cr_stack cr_error bind]. rewrite IH. reflexivity. }
    destruct (load u) as [c|] eqn:L.
    - specialize (T c eq_refl). pose proof (C73_no_crash parent c T) as N. destruct (crl_validate parent c) as [[]|e|] eqn:V; cbn [bind]; [..|congruence].
      + rewrite S. cbn [bind]. eexists. split; [reflexivity|]. split; [|intros [H|H]; discriminate H]. intros c'. split; [intros H; injection H as <-; auto|intros (H & _); congruence].
      + rewrite E. cbn [bind]. eexists. split; [reflexivity|]. split; [|intros [H|H]; discriminate H]. intros c'. split; [discriminate|intros (H & H'); injection H as <-; congruence].
    - cbn [bind]. rewrite E. cbn [bind]. eexists. split; [reflexivity|]. split; [|intros [H|H]; discriminate H]. intros c'. split; [discriminate|intros (H & _); discriminate H].
  Qed.
End Props.

(** ** Examples *)
Definition xe (n : Z) (s : string) : name_entry := {| ne_nid := n; ne_data := Some (cstr s) |}.
Definition ex_pk (k : list Z) : public_key :=
  {| pk_param := Some ({| al_oid := [42; 134]; al_param := None |}, k); pk_key := Some {| k_rsa := true; k_bits := Some 2048; k_exponent := Some 65537 |} |}.
Definition ex_ecpk : public_key := {| pk_param := Some ({| al_oid := [7]; al_param := Some (true, 415) |}, [9; 9]); pk_key := None |}.
Definition ex_obj2nid (o : list Z) : Z := match o with [42; 134] => 6 | [7] => 408 | _ => 0 end.
Definition ex_d2i (b : list Z) : option (public_key * nat) := match b with 1 :: k => Some (ex_pk k, length b) | _ => None end.
Definition ex_cert (issuer subject : list name_entry) (k : public_key) : x509 :=
  {| x_version := 2; x_serial := Some 5; x_sigalg := 668; x_issuer := issuer; x_subject := subject; x_pubkey := Some k; x_self_verified := Some true; x_extensions := [] |}.
Definition ex_name (s : string) : list name_entry := [xe 13 s; xe 105 "77"].
Definition ex_rfc6487 := certificate_validate_rfc6487 13 105 668 6 408 415 ex_obj2nid ex_d2i.
Definition ex_root : x509 := ex_cert (ex_name "root") (ex_name "root") (ex_pk [8; 8]).

Example ex_root_accepted : ex_rfc6487 [1; 8; 8] None ex_root CERTYPE_TA = Ok tt.
Proof. vm_compute. reflexivity. Qed.
Example ex_root_other_tal : ex_rfc6487 [1; 8; 9] None ex_root CERTYPE_TA = Err EINVAL.
Proof. vm_compute. reflexivity. Qed.
Example ex_child_accepted : ex_rfc6487 [1; 8; 8] (Some ex_root) (ex_cert (rev (ex_name "root")) (ex_name "child") (ex_pk [7])) CERTYPE_CA = Ok tt.
Proof. vm_compute. reflexivity. Qed.
Example ex_bgpsec_accepted : ex_rfc6487 [] (Some ex_root) (ex_cert (ex_name "root") (ex_name "r") ex_ecpk) CERTYPE_BGPSEC = Ok tt.
Proof. vm_compute. reflexivity. Qed.
Example ex_child_plain : plain 13 105 (rev (ex_name "root")).
Proof. split; [vm_compute; lia|]. split; [vm_compute; lia|]. intros e d [<-|[<-|[]]] E; injection E as <-; vm_compute; intuition discriminate. Qed.

(** The names RFC 6487 forbids (with several CommonNames) are accepted, and
    names that differ after a NUL are the same. *)
Theorem C72_names_refuted :
  ~ (forall NCN NSN NSIG NRSA NEC NP256 obj2nid d2i, NCN <> NSN ->
       forall tal parent c t, certificate_validate_rfc6487 NCN NSN NSIG NRSA NEC NP256 obj2nid d2i tal parent c t = Ok tt ->
       valid_name NCN NSN (x_subject c)) /\
  ~ (forall NCN NSN NSIG NRSA NEC NP256 obj2nid d2i, NCN <> NSN ->
       forall tal p c, certificate_validate_rfc6487 NCN NSN NSIG NRSA NEC NP256 obj2nid d2i tal (Some p) c CERTYPE_CA = Ok tt ->
       valid_name NCN NSN (x_subject p) -> valid_name NCN NSN (x_issuer c) -> same_name (x_subject p) (x_issuer c)).
Proof.
  split; intros H.
  - specialize (H 13 105 668 6 408 415 ex_obj2nid ex_d2i ltac:(discriminate) [1; 8; 8] (Some ex_root)
      (ex_cert (ex_name "root") [xe 13 "victim"; xe 13 "child"] (ex_pk [7])) CERTYPE_CA ltac:(vm_compute; reflexivity)).
    destruct H as (_ & H & _). vm_compute in H. discriminate H.
  - pose (n := [{| ne_nid := 13; ne_data := Some (cstr "root" ++ [0] ++ cstr "x") |}; xe 105 "77"]).
    specialize (H 13 105 668 6 408 415 ex_obj2nid ex_d2i ltac:(discriminate) [1; 8; 8] ex_root (ex_cert n (ex_name "child") (ex_pk [7])) ltac:(vm_compute; reflexivity)).
    assert (V : forall x, valid_name 13 105 [{| ne_nid := 13; ne_data := Some x |}; xe 105 "77"]).
    { intros x. split; [|split; [reflexivity|vm_compute; lia]]. intros e [<-|[<-|[]]]; cbn; split; try discriminate; auto. }
    specialize (H (V _) (V _)). destruct (H {| ne_nid := 13; ne_data := Some (cstr "root" ++ [0] ++ cstr "x") |}) as (_ & H').
    specialize (H' (or_introl eq_refl)). cbn [In ex_root ex_cert x_subject ex_name] in H'.
    destruct H' as [Q|[Q|[]]]; apply (f_equal (fun e => match ne_data e with Some l => length l | None => 0%nat end)) in Q; vm_compute in Q; discriminate Q.
Qed.

Definition ex_crl (e : bool) : x509_crl :=
  {| c_version := 1; c_sigalg := 668; c_issuer := ex_name "root"; c_revoked := Some [{| rv_serial := true; rv_date := true; rv_extensions := e |}];
     c_extensions := [ext CN V_other; ext AKI (V_akid (Some [8; 8]) false false)] |}.
Definition ex_load (u : list Z) : option x509_crl := match u with 1 :: _ => Some (ex_crl false) | 2 :: _ => Some (ex_crl true) | _ => None end.
Example ex_asks : asks 13 105 668 ex_nid ex_sha1 [(ex_load, Some ex_root); (fun _ => None, None); (ex_load, None)] (Some {| cr_uri := Some [1]; cr_stack := None; cr_error := None |})
  = Ok [Ok (Some (ex_crl false)); Ok (Some (ex_crl false)); Ok (Some (ex_crl false))].
Proof. vm_compute. reflexivity. Qed.
Example ex_asks_bad : asks 13 105 668 ex_nid ex_sha1 [(ex_load, Some ex_root); (fun _ => Some (ex_crl false), Some ex_root)] (Some {| cr_uri := Some [2]; cr_stack := None; cr_error := None |})
  = Ok [Err EINVAL; Err EINVAL].
Proof. vm_compute. reflexivity. Qed.
Example ex_crl_typed b : Forall (typed ex_nid) (c_extensions (ex_crl b)) /\ Forall (short_extension [] None) (c_extensions (ex_crl b)).
Proof. split; [cbn [ex_crl c_extensions]; typed_tac|]. cbn [ex_crl c_extensions]. each; intros v V; cbn [ext e_value] in V; injection V as <-; exact I. Qed.

Print Assumptions C72_certificate_partial.
Print Assumptions C72_sound.
Print Assumptions C72_no_crash.
Print Assumptions C72_serials.
Print Assumptions C72_names_refuted.
Print Assumptions C73_crl_partial.
Print Assumptions C73_crl_sound.
Print Assumptions C73_no_crash.
Print Assumptions C73_once.
