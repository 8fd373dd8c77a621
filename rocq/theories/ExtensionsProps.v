(** C71: the extensions of certificates and CRLs. *)
From Coq Require Import Lia String.
From Verif Require Import Base BaseLemmas CString PathBuilder PathSpec PathProofs PathProofs3 PathProps SignedData Extensions ExtensionsSpec ExtensionsProofs ExtensionsProofs2 ExtensionsProofs3 ExtensionsProofs4.
Notation length := List.length.

Section Props.
  Context (nid : ext_id -> Z) (inj : forall i j, nid i = nid j -> i = j).
  Context (nid_ca_issuers nid_caRepository nid_ad_notify nid_ad_mft nid_ad_so : Z).
  Context (nid_certPolicyRpki nid_certPolicyRpkiV2 nid_qt_cps : Z).
  Context (sha1 : list Z -> option (list Z)).
  Context (J : Z) (repository : list Z) (tal : option (list Z)).
  Context (conf : conf_ok repository tal None).

  Local Notation well_formed := (well_formed nid nid_ca_issuers nid_caRepository nid_ad_notify nid_ad_mft nid_ad_so nid_certPolicyRpki nid_certPolicyRpkiV2 nid_qt_cps sha1 repository tal).
  Local Notation extensions_ta := (extensions_ta nid nid_caRepository nid_ad_notify nid_ad_mft nid_certPolicyRpki nid_certPolicyRpkiV2 nid_qt_cps sha1 J repository tal).
  Local Notation extensions_ca := (extensions_ca nid nid_ca_issuers nid_caRepository nid_ad_notify nid_ad_mft nid_certPolicyRpki nid_certPolicyRpkiV2 nid_qt_cps sha1 J repository tal).
  Local Notation extensions_ee := (extensions_ee nid nid_ca_issuers nid_ad_so nid_certPolicyRpki nid_certPolicyRpkiV2 nid_qt_cps sha1 J repository tal).
  Local Notation extensions_crl := (extensions_crl nid sha1).
  Local Notation certificate_validate_extensions_ca := (certificate_validate_extensions_ca nid nid_ca_issuers nid_caRepository nid_ad_notify nid_ad_mft nid_certPolicyRpki nid_certPolicyRpkiV2 nid_qt_cps sha1 J repository tal).

  (** The program's validation of each profile. *)
  Definition validate (p : profile) (spk : option (list Z)) (parent : option (option (list Z))) (sid : list Z) (es : list x509_extension) : res record :=
    match p with
    | TrustAnchor => extensions_ta spk es
    | CA => extensions_ca spk parent es
    | EE => extensions_ee spk parent sid es
    | Crl => extensions_crl parent es
    end.

  Lemma validate_handlers p spk parent sid es : validate p spk parent sid es =
    handle_extensions nid (handlers nid nid_ca_issuers nid_caRepository nid_ad_notify nid_ad_mft nid_ad_so nid_certPolicyRpki nid_certPolicyRpkiV2 nid_qt_cps sha1 J repository tal p spk parent sid es) es empty_record.
  Proof. destruct p; reflexivity. Qed.

  (** The extensions are accepted, and [r] is what is kept of them, exactly if
      they are those the profile asks for and [r] what they say. *)
  Theorem C71_extensions p spk parent sid es r :
    Forall (typed nid) es -> Forall (short_extension repository tal) es ->
    validate p spk parent sid es = Ok r <-> well_formed p spk parent sid es r.
  Proof. intros T S. rewrite validate_handlers. apply main_iff; assumption. Qed.

  (** Without a bound on the lengths of the URIs: what is accepted is well
      formed. *)
  Theorem C71_sound p spk parent sid es r :
    Forall (typed nid) es -> validate p spk parent sid es = Ok r -> well_formed p spk parent sid es r.
  Proof. intros T. rewrite validate_handlers. apply sound; assumption. Qed.

  (** It never crashes. *)
  Theorem C71_no_crash p spk parent sid es :
    Forall (typed nid) es -> validate p spk parent sid es <> UB.
  Proof. intros T. rewrite validate_handlers. apply main_not_ub; assumption. Qed.

  Lemma wf_cdp p spk parent sid es r : p = CA \/ p = EE -> well_formed p spk parent sid es r -> exists text, r_crldp r = Some text /\ has_scheme UT_RSYNC text.
  Proof.
    intros P W. assert (K : presence_of p CDP = Required) by (destruct P as [-> | ->]; reflexivity).
    destruct (wf_present _ _ _ _ _ _ _ _ _ _ _ _ _ _ _ _ _ _ W CDP K) as (e & I & M).
    destruct (wf_content _ _ _ _ _ _ _ _ _ _ _ _ _ _ _ _ _ _ W CDP e ltac:(unfold known; congruence) I M) as (names & text & _ & F & R).
    exists text. split; [exact R|]. clear - F. induction F; assumption.
  Qed.
  Lemma wf_so spk parent sid es r : well_formed EE spk parent sid es r -> exists u, r_signedObject r = Some u.
  Proof.
    intros W. destruct (wf_present _ _ _ _ _ _ _ _ _ _ _ _ _ _ _ _ _ _ W SIA eq_refl) as (e & I & M).
    assert (KN : known EE SIA) by (intros Q; discriminate Q). destruct (wf_content _ _ _ _ _ _ _ _ _ _ _ _ _ _ _ _ _ _ W SIA e KN I M) as (l & _ & u & _ & R). eauto.
  Qed.

  (** A CA certificate is then accepted if the CRL it names (up to a NUL) is
      the one of the manifest; the "was not recorded" ends of the program are
      not reached. *)
  Theorem C71_ca_references spk parent es crl :
    Forall (typed nid) es ->
    certificate_validate_extensions_ca spk parent es (Some crl) <> UB /\
    forall r, certificate_validate_extensions_ca spk parent es (Some crl) = Ok r <->
      extensions_ca spk parent es = Ok r /\ exists text, r_crldp r = Some text /\ until_nul text = crl.
  Proof.
    intros T. unfold Extensions.certificate_validate_extensions_ca.
    pose proof (C71_no_crash CA spk parent [] es T) as N. pose proof (fun r => C71_sound CA spk parent [] es r T) as S. cbn [validate] in N, S.
    destruct (extensions_ca spk parent es) as [r| |] eqn:E; cbn [bind]; [|split; [discriminate|intros r; split; [discriminate|intros (Q & _); discriminate]]|congruence].
    specialize (S r eq_refl). destruct (wf_cdp CA spk parent [] es r ltac:(auto) S) as (text & Q & _).
    assert (SO : r_signedObject r = None) by (destruct (wf_record _ _ _ _ _ _ _ _ _ _ _ _ _ _ _ _ _ _ S) as (_ & X & _); apply X; discriminate).
    unfold refs_validate_ca, validate_cdp. rewrite Q, SO. pose proof (list_eqb_spec Z.eqb Z.eqb_eq (until_nul text) crl) as L.
    destruct (list_eqb Z.eqb (until_nul text) crl); cbn [bind]; split; try discriminate; intros r'.
    - split; [intros X; injection X as <-; split; [reflexivity|]; exists text; intuition|]. intros (X & _). exact X.
    - split; [discriminate|]. intros (X & text' & Q' & U). injection X as <-. rewrite Q in Q'. injection Q' as <-. apply L in U. discriminate.
  Qed.

  (** The same for the certificate of a signed object, which also has to name
      the object. *)
  Theorem C71_ee_references spk parent sid es r crl uri :
    Forall (typed nid) es -> extensions_ee spk parent sid es = Ok r ->
    refs_validate_ee r (Some crl) uri <> UB /\
    (refs_validate_ee r (Some crl) uri = Ok tt <->
      (exists text, r_crldp r = Some text /\ until_nul text = crl) /\ exists u, r_signedObject r = Some u /\ u_global u = uri).
  Proof.
    intros T E. pose proof (C71_sound EE spk parent sid es r T E) as S. destruct (wf_cdp EE spk parent sid es r ltac:(auto) S) as (text & Q & _).
    destruct (wf_so spk parent sid es r S) as (u & U). unfold refs_validate_ee, validate_cdp, validate_signedObject. rewrite Q, U.
    pose proof (list_eqb_spec Z.eqb Z.eqb_eq (until_nul text) crl) as L. pose proof (list_eqb_spec Z.eqb Z.eqb_eq (u_global u) uri) as L2.
    destruct (list_eqb Z.eqb (until_nul text) crl); cbn [bind]; [destruct (list_eqb Z.eqb (u_global u) uri)|]; (split; [discriminate|]); split; try discriminate.
    - intros _. split; [exists text; intuition|exists u; intuition].
    - intros _. reflexivity.
    - intros (_ & u' & X & Y). injection X as <-. pose proof (proj2 L2 Y). congruence.
    - intros ((text' & X & Y) & _). injection X as <-. pose proof (proj2 L Y). congruence.
  Qed.
End Props.

(** ** Examples *)
Definition ex_nid (i : ext_id) : Z :=
  match i with BC => 87 | SKI => 82 | AKI => 90 | KU => 83 | CDP => 103 | AIA => 177 | SIA => 398 | CP => 89 | IR => 290 | AR => 291 | IR2 => 1001 | AR2 => 1002 | CN => 88 | EKU => 126 end.
Lemma ex_inj i j : ex_nid i = ex_nid j -> i = j.
Proof. destruct i, j; cbn; intros; congruence. Qed.
Definition ex_sha1 (k : list Z) : option (list Z) := Some (rev k).
Definition ext (i : ext_id) (v : ext_value) : x509_extension := {| e_nid := ex_nid i; e_critical := meta_critical i; e_value := Some v |}.
Definition ex_uri (s : string) : gname := GN_uri (cstr s) false.
Definition ex_crldp (text : list Z) : ext_value :=
  V_crldp [{| dp_name := Some (DP_fullname [GN_other; ex_uri "https://e/c"; GN_uri text false]); dp_reasons := false; dp_issuer := false |}].
Definition ex_access (n : Z) (s : string) : access := {| ad_method := n; ad_location := ex_uri s |}.
(** The extensions of an EE certificate; one that is unknown. *)
Definition ex_ee (crldp : list Z) : list x509_extension :=
  [ ext SKI (V_octets [3; 2; 1]); ext AKI (V_akid (Some [6; 5; 4]) false false); ext KU (V_bits [128]); ext CDP (ex_crldp crldp);
    {| e_nid := 5; e_critical := false; e_value := None |};
    ext AIA (V_access [ex_access 1 "rsync://e/ca.cer"; ex_access 1 "https://e/ca.cer"]);
    ext SIA (V_access [ex_access 5 "rsync://e/d/x.roa"; ex_access 3 "https://e/n.xml"]);
    ext CP (V_policies [{| pi_id := 10; pi_qualifiers := Some [12] |}]); ext IR V_other ].
Definition ex_ca : list x509_extension :=
  [ ext BC (V_basic_constraints false); ext SKI (V_octets [3; 2; 1]); ext AKI (V_akid (Some [6; 5; 4]) false false); ext KU (V_bits [6]); ext CDP (ex_crldp (cstr "rsync://e/a.crl"));
    ext AIA (V_access [ex_access 1 "rsync://e/ca.cer"]);
    ext SIA (V_access [ex_access 2 "rsync://e/d/"; ex_access 3 "https://e/n.xml"; ex_access 4 "rsync://e/d/m.mft"]);
    ext CP (V_policies [{| pi_id := 11; pi_qualifiers := None |}]); ext IR2 V_other ].
Definition ex_ta : list x509_extension :=
  [ ext AKI (V_akid (Some [3; 2; 1]) true true); ext BC (V_basic_constraints false); ext SKI (V_octets [3; 2; 1]); ext KU (V_bits [6; 0]);
    ext SIA (V_access [ex_access 2 "rsync://e/d/"; ex_access 4 "rsync://e/d/m.mft"]); ext CP (V_policies [{| pi_id := 10; pi_qualifiers := None |}]) ].
Definition ex_repo : list Z := cstr "/r".
Definition ex_tal : option (list Z) := Some (cstr "t").
Definition ex_validate := validate ex_nid 1 2 3 4 5 10 11 12 ex_sha1 0 ex_repo ex_tal.

Lemma ex_conf : conf_ok ex_repo ex_tal None.
Proof. unfold conf_ok. cbn. intuition discriminate. Qed.
Ltac each := repeat (apply Forall_nil || apply Forall_cons).
Ltac typed_tac := each; let i := fresh in let v := fresh in let M := fresh in let V := fresh in
  intros i v M V; cbn [ext e_value] in V; try discriminate; injection V as <-; destruct i; cbn in M; try discriminate; try exact I; try (repeat eexists; fail);
  eexists; (split; [reflexivity|]); each; unfold is_byte; lia.
Lemma ex_ee_typed t : Forall (typed ex_nid) (ex_ee t).
Proof. unfold ex_ee. typed_tac. Qed.

Example ex_ee_accepted : exists r, ex_validate EE (Some [1; 2; 3]) (Some (Some [4; 5; 6])) [3; 2; 1] (ex_ee (cstr "rsync://e/a.crl")) = Ok r /\
  r_crldp r = Some (cstr "rsync://e/a.crl") /\ option_map u_global (r_signedObject r) = Some (cstr "rsync://e/d/x.roa") /\ r_policy r = Some RPKI_POLICY_RFC6484.
Proof. eexists. vm_compute. repeat split. Qed.
Example ex_ee_hypotheses : Forall (typed ex_nid) (ex_ee (cstr "rsync://e/a.crl")) /\ Forall (short_extension ex_repo ex_tal) (ex_ee (cstr "rsync://e/a.crl")).
Proof.
  split; [apply ex_ee_typed|]. unfold ex_ee. each; intros v V; cbn [ext e_value] in V; try discriminate; injection V as <-; cbn [short_value]; try exact I;
    each; cbn [short ad_location ex_access ex_uri]; unfold room; apply Nat.leb_le; vm_compute; reflexivity.
Qed.
Example ex_ca_accepted : exists r, ex_validate CA (Some [1; 2; 3]) (Some (Some [4; 5; 6])) [] ex_ca = Ok r /\
  map u_global (r_rpp r) = [cstr "rsync://e/d/"; cstr "https://e/n.xml"] /\ option_map u_global (r_mft r) = Some (cstr "rsync://e/d/m.mft") /\ r_policy r = Some RPKI_POLICY_RFC8360.
Proof. eexists. vm_compute. repeat split. Qed.
Example ex_ta_accepted : exists r, ex_validate TrustAnchor (Some [1; 2; 3]) None [] ex_ta = Ok r /\ option_map u_global (r_mft r) = Some (cstr "rsync://e/d/m.mft").
Proof. eexists. vm_compute. repeat split. Qed.
Example ex_crl_accepted : ex_validate Crl None (Some (Some [4; 5; 6])) [] [ext CN V_other; ext AKI (V_akid (Some [6; 5; 4]) false false)] = Ok empty_record.
Proof. vm_compute. reflexivity. Qed.

(** The comparison with the manifest's CRL stops at a NUL: a certificate that
    names another URI is accepted. *)
Theorem C71_crldp_refuted :
  ~ (forall nid a b c d e f g h sha1 J repository tal, (forall i j, nid i = nid j -> i = j) -> conf_ok repository tal None ->
       forall spk parent sid es r crl uri, Forall (typed nid) es -> validate nid a b c d e f g h sha1 J repository tal EE spk parent sid es = Ok r ->
       refs_validate_ee r (Some crl) uri = Ok tt -> r_crldp r = Some crl).
Proof.
  intros H.
  pose (text := cstr "rsync://e/a.crl" ++ [0] ++ cstr "/else").
  assert (X : exists r, validate ex_nid 1 2 3 4 5 10 11 12 ex_sha1 0 ex_repo ex_tal EE (Some [1; 2; 3]) (Some (Some [4; 5; 6])) [3; 2; 1] (ex_ee text) = Ok r /\
    r_crldp r = Some text /\ refs_validate_ee r (Some (cstr "rsync://e/a.crl")) (cstr "rsync://e/d/x.roa") = Ok tt).
  { clear H. eexists. vm_compute. repeat split. }
  destruct X as (r & E & R & V).
  specialize (H ex_nid 1 2 3 4 5 10 11 12 ex_sha1 0 ex_repo ex_tal ex_inj ex_conf (Some [1; 2; 3]) (Some (Some [4; 5; 6])) [3; 2; 1] (ex_ee text) r
    (cstr "rsync://e/a.crl") (cstr "rsync://e/d/x.roa") (ex_ee_typed text) E V).
  rewrite R in H. apply (f_equal (fun o => match o with Some l => Z.of_nat (length l) | None => 0 end)) in H. vm_compute in H. discriminate H.
Qed.

Print Assumptions C71_extensions.
Print Assumptions C71_sound.
Print Assumptions C71_no_crash.
Print Assumptions C71_ca_references.
Print Assumptions C71_ee_references.
Print Assumptions C71_crldp_refuted.
