(** C76: the validation of a trust anchor does not crash. *)
From Coq Require Import String.
From Verif Require Import Base BaseLemmas CString Types DbTable Vrps VrpsSpec PduWireSpec Address AddressSpec PathBuilder PathSpec PathProps Manifest ManifestSpec ManifestProofs ManifestProps Oid SArray SArraySpec
  Resources ResourcesSpec ResourcesProofs ResourcesProofs2 ResourcesProofs3 ResourcesProofs4 ResourcesProps Roa RoaSpec RoaBytes RoaBytesProps BerSpec Objects CertBytes CertBytesProps
  SignedData SignedDataSpec OidProofs SignedDataProofs SignedDataProps SignedObjectProofs SignedObjectProofs2 SignedObjectProofs3 BerProofs ObjectsProofs5 SignedObject SignedObjectSpec SignedObjectProps Extensions ExtensionsSpec ExtensionsProps CertProfile CertProfileSpec CertProfileProps
  Asn1Dec Asn1DecSpec Asn1Types Asn1CheckProps ObjectsSpec ObjectsProps Asn1Check Asn1Constraints Tree TreeSpec TreeProofs TreeTotal.
From Verif Require CertStack.
Notation length := List.length.

Section Facts.
  Context (W : world) (S : sane W).

  Lemma decode_facts n u : signed_object_decode W n u <> UB /\ forall o, signed_object_decode W n u = Ok o ->
    exists content, fst (fst o) = content ++ 0 :: w_slack W /\ snd (fst o) = length content /\ bytes content /\ (length content < w_frames W)%nat /\
      Z.of_nat (length content) <= 2147483647 /\
      contains (decode_signed_data (w_nobuf W) (w_turns W)) (decode_signed_data_pkcs7 (w_nobuf W) (w_turns W)) (decode_octets (w_nobuf W) (w_turns W)) content (snd o).
  Proof.
    unfold signed_object_decode. destruct (w_read W n (u_local u)) as [|file] eqn:Hb; [split; [discriminate|intros o H; discriminate H]|].
    destruct (sa_file W S _ _ _ Hb) as (Bb & Fb & Zb). unfold content_info_decode.
    destruct (content_info_cases (0 :: w_slack W) (w_nobuf W) (w_turns W) file Bb (sa_turns W S)) as [->|(ty & content & -> & Ht & Hcb & Hl)]; [split; [discriminate|intros o H; discriminate H]|].
    destruct (is_oid ty OID_SIGNED_DATA) as [[|]| |] eqn:Eo; cbn [bind fst snd]; try (split; [discriminate|intros o H; discriminate H]); [|exfalso; exact (is_oid_not_ub _ _ Ht Eo)].
    rewrite firstn_app_exact.
    destruct (signed_data_decode (decode_signed_data (w_nobuf W) (w_turns W)) (decode_signed_data_pkcs7 (w_nobuf W) (w_turns W)) (decode_octets (w_nobuf W) (w_turns W)) content) as [sd| |] eqn:Es; cbn [bind];
      [|split; [discriminate|intros o H; discriminate H]|].
    - split; [discriminate|]. intros o H. injection H as <-. exists content. cbn [fst snd]. split; [reflexivity|]. split; [reflexivity|]. split; [exact Hcb|]. split; [lia|]. split; [lia|].
      unfold signed_data_decode, signed_data_decode_pkcs7 in Es. unfold contains. destruct (decode_signed_data (w_nobuf W) (w_turns W) content) as [s0|]; [injection Es as ->; auto|].
      right. split; [reflexivity|]. destruct (decode_signed_data_pkcs7 (w_nobuf W) (w_turns W) content) as [[s7 [any|]]|]; try discriminate. destruct (decode_octets (w_nobuf W) (w_turns W) any) as [e|] eqn:Ee; [|discriminate].
      injection Es as <-. exists s7, any, e. cbn. auto 10.
    - exfalso. unfold signed_data_decode, signed_data_decode_pkcs7 in Es. destruct (decode_signed_data (w_nobuf W) (w_turns W) content); [discriminate|].
      destruct (decode_signed_data_pkcs7 (w_nobuf W) (w_turns W) content) as [[s [a|]]|]; try discriminate. destruct (decode_octets (w_nobuf W) (w_turns W) a); discriminate.
  Qed.
  Lemma body_facts n u o body : signed_object_decode W n u = Ok o -> sd_econtent (snd o) = Some body -> bytes body /\ Z.of_nat (length body) <= 2147483647.
  Proof.
    intros Hd Q. destruct (proj2 (decode_facts n u) o Hd) as (content & _ & _ & Bc & _ & _ & C).
    pose proof (contains_small _ _ _ _ _ Bc (sa_turns W S) C Q) as Sm. unfold Asn1DecSpec.small in Sm. split; [|lia].
    destruct (@holds_encoding (w_sha256 W) cert (w_d2i_X509 W) (w_slack W) (w_nobuf W) (w_turns W) content (snd o) Bc (sa_turns W S) C) as ((_ & _ & _ & B4 & _) & _). rewrite Q in B4. exact B4.
  Qed.

  Lemma chain_safe n s crl c : certificate_validate_chain W n s crl c <> UB.
  Proof.
    unfold certificate_validate_chain. destruct crl; [|discriminate]. destruct (w_verify W n (trusted s) x c); try discriminate.
    destruct (negb _); [discriminate|]. destruct (w_verify_stale W n (trusted s) x c); discriminate.
  Qed.
  Lemma wf_policy p spk parent sid es r : p <> Crl -> well_formed (w_nid W) (w_ca_issuers W) (w_caRepository W) (w_ad_notify W) (w_ad_mft W) (w_ad_so W) (w_certPolicyRpki W)
      (w_certPolicyRpkiV2 W) (w_qt_cps W) (w_sha1 W) (w_repository W) (w_tal W) p spk parent sid es r -> exists q, Extensions.r_policy r = Some q.
  Proof.
    intros P Wf. assert (K : presence_of p CP = Required) by (destruct p; [reflexivity..|congruence]).
    destruct (wf_present _ _ _ _ _ _ _ _ _ _ _ _ _ _ _ _ _ _ Wf CP K) as (e & I & M).
    destruct (wf_content _ _ _ _ _ _ _ _ _ _ _ _ _ _ _ _ _ _ Wf CP e ltac:(unfold known; congruence) I M) as (id & q & policy & _ & _ & _ & R). eauto.
  Qed.

  Lemma object_safe h s n n' u o crl oid f : reachable (h, map me_resources s) -> s <> [] -> signed_object_decode W n u = Ok o ->
    validate_object W n' s h crl oid f o <> UB.
  Proof.
    intros R Hs Hd. destruct (proj2 (decode_facts n u) o Hd) as (content & E1 & E2 & Bc & Lf & Zc & Hc). unfold validate_object. rewrite E1, E2.
    destruct (@holds_encoding (w_sha256 W) cert (w_d2i_X509 W) (w_slack W) (w_nobuf W) (w_turns W) content (snd o) Bc (sa_turns W S) Hc) as (B & _).
    apply C63_no_crash.
    - apply bytes_only_sd_bytes. exact B.
    - destruct B as (_ & _ & _ & _ & _ & B). intros si attrs a v o' Hsi Ea Ha Hv Ho. rewrite Forall_forall in B. destruct (B si Hsi) as (_ & _ & _ & Bat & _).
      rewrite Ea in Bat. cbn in Bat. rewrite Forall_forall in Bat. destruct (Bat a Ha) as (_ & Bv). rewrite Forall_forall in Bv.
      unfold decode_oid in Ho. destruct (asn1_decode (w_nobuf W) (w_turns W) t_OBJECT_IDENTIFIER k_OBJECT_IDENTIFIER v) as [w| | |] eqn:Aw; try discriminate.
      apply accepted_shaped in Aw; [|cbn; tauto|auto; apply S..]. destruct Aw as (Aw & _). apply shaped_prim in Aw. destruct Aw as (c & -> & Hc'). injection Ho as <-. assumption.
    - intros c x k Hx. destruct (sa_ee W S _ _ _ Hx) as (Tx & Rx). split; [apply chain_safe|]. split; [apply C72_no_crash|]. split; [|split; [discriminate|]].
      + intros sid. unfold validate_ee.
        pose proof (C71_no_crash (w_nid W) (sa_inj W S) (w_ca_issuers W) 0 0 0 (w_ad_so W) (w_certPolicyRpki W) (w_certPolicyRpkiV2 W) (w_qt_cps W) (w_sha1 W) (w_J W) _ _ (sa_conf W S) EE
          (key_of (ct x)) (option_map key_of (top s)) sid (x_extensions (ct x)) Tx) as N. cbn [validate] in N.
        pose proof (fun r => C71_sound (w_nid W) (sa_inj W S) (w_ca_issuers W) (w_caRepository W) (w_ad_notify W) (w_ad_mft W) (w_ad_so W) (w_certPolicyRpki W) (w_certPolicyRpkiV2 W) (w_qt_cps W) (w_sha1 W) (w_J W) _ _ (sa_conf W S) EE
          (key_of (ct x)) (option_map key_of (top s)) sid (x_extensions (ct x)) r Tx) as C. cbn [validate] in C.
        destruct (extensions_ee _ _ _ _ _ _ _ _ _ _ _ _ _ _) as [r| |] eqn:E; cbn [bind]; [|discriminate|congruence].
        specialize (C r eq_refl). apply wf_policy in C; [|discriminate]. destruct C as (q & C). unfold with_policy. rewrite C. discriminate.
      + intros p. pose proof (read_exts W S _ Rx) as Fx.
        assert (Hne : map me_resources s <> []) by (destruct s; [contradiction|discriminate]).
        destruct (C53_no_crash_partial h (map me_resources s) (OpEE (policy_of p) f (read_resources W x)) R Fx Hne) as (s' & E & _).
        cbn [stack_step] in E. rewrite peek_map in E. destruct (ee_resources _ _ _ _ _) as [[[h' r] e]| |]; cbn [bind] in *; try discriminate E. destruct (e =? 0); discriminate.
    - intros Hne x sg. apply (@signature_check (w_sha256 W) cert record (heap * resources) (w_d2i_X509 W) (fun _ => Ok tt) (fun _ => Ok tt) (fun _ _ => UB) (fun _ _ => Ok tt) (w_evp_verify W)
      (fun _ _ => UB) (w_slack W) (w_nobuf W) (w_turns W) content (snd o) x sg (w_frames W)); [exact Bc|apply S|apply S|lia|lia|exact Hc|exact Hne].
  Qed.

  Lemma mft_safe notif mft ia5 : ~ In 0 (u_global mft) -> ~ In 0 (opt notif) -> uri_create_mft (w_J W) (w_repository W) (w_tal W) notif mft ia5 <> UB.
  Proof.
    intros N1 N2. destruct (sa_conf W S) as (C1 & C2 & _). unfold uri_create_mft, ia5str2global.
    assert (V : validate_mft_file ia5 <> UB).
    { unfold validate_mft_file. destruct (Nat.ltb_spec (length ia5) 5); [discriminate|]. destruct (nth_error ia5 (length ia5 - 4)) as [c|] eqn:E; [|apply nth_error_None in E; lia].
      destruct (negb _); [discriminate|]. destruct (mft_chars _ _ _); discriminate. }
    destruct (validate_mft_file ia5) as [[]| |] eqn:Ev; cbn [bind]; [|discriminate|congruence]. apply C30_name in Ev. apply C30_plain in Ev.
    destruct (strrchr_end 47 (u_global mft)) as [k|]; cbn [bind]; [|discriminate].
    assert (N3 : ~ In 0 (firstn k (u_global mft) ++ ia5)).
    { intros I. apply in_app_iff in I. destruct I as [I|I]; [|destruct Ev as ((_ & _ & N) & _); auto]. apply N1. rewrite <- (firstn_skipn k). apply in_app_iff. auto. }
    set (t := match notif with None => UT_RSYNC | Some _ => UT_CAGED end).
    assert (TN : t = UT_CAGED -> notif <> None) by (unfold t; destruct notif; discriminate).
    destruct (local_mapped (w_J W) (w_repository W) (w_tal W) C1 C2 t notif _ N3 N2 TN) as [(c & E & _)|[(e & E & _)|(E & _)]]; rewrite E; discriminate.
  Qed.
  Lemma printable_no_nul text : printable text -> ~ In 0 text.
  Proof. apply printable_nul. Qed.

  Lemma crl_safe n s path : crl_of W n s (Some {| cr_uri := Some path; cr_stack := None; cr_error := None |}) <> UB /\
    forall slot, crl_of W n s (Some {| cr_uri := Some path; cr_stack := None; cr_error := None |}) <> Ok (slot, UB).
  Proof.
    unfold crl_of, rpp_crl. cbn [cr_uri cr_stack cr_error]. unfold crl_load. destruct (load_crl W n path) as [c|] eqn:E; [|split; [discriminate|intros slot H; discriminate H]].
    assert (T : Forall (typed (w_nid W)) (c_extensions c)).
    { unfold load_crl in E. destruct (w_read W n path); [discriminate|]. eapply (sa_crl W S); exact E. }
    pose proof (C73_no_crash (w_commonName W) (w_serialNumber W) (w_sha256WithRSA W) (w_nid W) (sa_inj W S) (w_sha1 W) (top s) c T) as N.
    destruct (crl_validate _ _ _ _ _ _ c) as [[]| |]; cbn [bind]; [| |congruence]; (split; [discriminate|intros slot H; discriminate H]).
  Qed.

  Lemma wf_mft p spk parent sid es r : p = TrustAnchor \/ p = ExtensionsSpec.CA -> well_formed (w_nid W) (w_ca_issuers W) (w_caRepository W) (w_ad_notify W) (w_ad_mft W) (w_ad_so W) (w_certPolicyRpki W)
      (w_certPolicyRpkiV2 W) (w_qt_cps W) (w_sha1 W) (w_repository W) (w_tal W) p spk parent sid es r ->
      exists mft, r_mft r = Some mft /\ printable (u_global mft) /\ forall u, In u (r_rpp r) -> printable (u_global u).
  Proof.
    intros P Wf. assert (K : presence_of p SIA = Required) by (destruct P as [-> | ->]; reflexivity).
    destruct (wf_present _ _ _ _ _ _ _ _ _ _ _ _ _ _ _ _ _ _ Wf SIA K) as (e & I & M).
    pose proof (wf_content _ _ _ _ _ _ _ _ _ _ _ _ _ _ _ _ _ _ Wf SIA e ltac:(unfold known; congruence) I M) as C. cbn [ExtensionsSpec.content] in C. destruct C as (l & _ & C).
    assert (C' : exists repo notif mft, uris_of (w_repository W) (w_tal W) (w_caRepository W) UT_RSYNC l repo /\ uris_of (w_repository W) (w_tal W) (w_ad_notify W) UT_HTTPS l notif /\
                 uris_of (w_repository W) (w_tal W) (w_ad_mft W) UT_RSYNC l (Some mft) /\
                 r_rpp r = (match repo with Some u => [u] | None => [] end) ++ (match notif with Some u => [u] | None => [] end) /\
                 r_mft r = Some mft) by (destruct P as [-> | ->]; exact C).
    destruct C' as (repo & notif & mft & U1 & U2 & U3 & Er & Em).
    assert (Q : forall k t l u, uris_of (w_repository W) (w_tal W) k t l (Some u) -> printable (u_global u)).
    { clear. intros k t l u H. inversion H as [|l1 a l2 u' _ (text & b & comps & _ & Pr & _ & ->) _]; subst. exact Pr. }
    exists mft. split; [exact Em|]. split; [eapply Q; exact U3|]. intros u. rewrite Er. intros I'. apply in_app_iff in I'.
    destruct I' as [I'|I']; [destruct repo as [v|]; [|destruct I']|destruct notif as [v|]; [|destruct I']]; destruct I' as [<-|[]]; eapply Q; eassumption.
  Qed.
  (** What the extensions of a CA certificate contain. *)
  Lemma exts_safe parent s c : Forall (typed (w_nid W)) (x_extensions (ct c)) -> (forall p, parent = Some p -> exists cu, pp_crl (pp_files p) = Some cu) ->
    let exts := match parent with None => validate_ta W c | Some p => validate_ca W s (crl_uri (pp_files p)) c end in
    exts <> UB /\ forall r, exts = Ok r -> (exists q, Extensions.r_policy r = Some q) /\ exists mft, r_mft r = Some mft /\ printable (u_global mft) /\ forall u, In u (r_rpp r) -> printable (u_global u).
  Proof.
    intros Tc Hpar. cbn zeta. destruct parent as [p|].
    - destruct (Hpar p eq_refl) as (cu & Ecu). assert (Hcu : crl_uri (pp_files p) = Some (u_global cu)) by (unfold crl_uri; rewrite Ecu; reflexivity).
        unfold validate_ca. rewrite Hcu.
        destruct (C71_ca_references (w_nid W) (sa_inj W S) (w_ca_issuers W) (w_caRepository W) (w_ad_notify W) (w_ad_mft W) (w_ad_so W) (w_certPolicyRpki W) (w_certPolicyRpkiV2 W) (w_qt_cps W)
                    (w_sha1 W) (w_J W) (w_repository W) (w_tal W) (sa_conf W S) (key_of (ct c)) (option_map key_of (top s)) (x_extensions (ct c)) (u_global cu) Tc) as (Nn & Hiff).
        split; [exact Nn|]. intros r Hr. apply Hiff in Hr. destruct Hr as (Hr & _).
        assert (Wf : well_formed (w_nid W) (w_ca_issuers W) (w_caRepository W) (w_ad_notify W) (w_ad_mft W) (w_ad_so W) (w_certPolicyRpki W)
          (w_certPolicyRpkiV2 W) (w_qt_cps W) (w_sha1 W) (w_repository W) (w_tal W) ExtensionsSpec.CA (key_of (ct c)) (option_map key_of (top s)) [] (x_extensions (ct c)) r).
        { eapply (C71_sound (w_nid W) (sa_inj W S) _ _ _ _ (w_ad_so W) _ _ _ (w_sha1 W) (w_J W) _ _ (sa_conf W S) ExtensionsSpec.CA); [exact Tc|exact Hr]. }
        split; [eapply wf_policy; [|exact Wf]; discriminate|eapply wf_mft; [|exact Wf]; auto].
    - pose proof (C71_no_crash (w_nid W) (sa_inj W S) (w_ca_issuers W) (w_caRepository W) (w_ad_notify W) (w_ad_mft W) (w_ad_so W) (w_certPolicyRpki W) (w_certPolicyRpkiV2 W) (w_qt_cps W) (w_sha1 W) (w_J W) _ _ (sa_conf W S) TrustAnchor
          (key_of (ct c)) None [] (x_extensions (ct c)) Tc) as Nn.
        split; [exact Nn|]. intros r Hr.
        assert (Wf : well_formed (w_nid W) (w_ca_issuers W) (w_caRepository W) (w_ad_notify W) (w_ad_mft W) (w_ad_so W) (w_certPolicyRpki W)
          (w_certPolicyRpkiV2 W) (w_qt_cps W) (w_sha1 W) (w_repository W) (w_tal W) TrustAnchor (key_of (ct c)) None [] (x_extensions (ct c)) r).
        { eapply (C71_sound (w_nid W) (sa_inj W S) (w_ca_issuers W) _ _ _ (w_ad_so W) _ _ _ (w_sha1 W) (w_J W) _ _ (sa_conf W S) TrustAnchor); [exact Tc|exact Hr]. }
        split; [eapply wf_policy; [|exact Wf]; discriminate|eapply wf_mft; [|exact Wf]; auto].
  Qed.
End Facts.

Section Crash.
  Context (W : world) (S : sane W) (n0 : nat) (root : rpki_uri).
  Notation during := (TreeProofs.during n0).
  (** No file is a manifest without entries. *)
  Context (no_empty : forall n u o body m, signed_object_decode W n u = Ok o -> sd_econtent (snd o) = Some body ->
    decode_manifest (w_nobuf W) (w_turns W) body = Some m -> m_files m <> []).
  (** The trust anchor does not inherit. *)
  Context (no_inherit : forall n b c, w_read W n (u_local root) = inr b -> w_load_X509 W b = Some c -> Forall (fun e => ~ inherits e) (read_resources W c)).

  Lemma manifest_safe h s n mft notif : reachable (h, map me_resources s) -> s <> [] ->
    printable (u_global mft) -> (forall nu, notif = Some nu -> printable (u_global nu)) ->
    handle_manifest W n s h mft notif <> UB.
  Proof.
    intros R Hs Pm Pn H. unfold handle_manifest in H.
    assert (No : ~ In 0 (opt (option_map u_global notif))) by (destruct notif as [nu|]; [apply printable_no_nul; apply Pn; reflexivity|intros []]).
    assert (Cage : cage W mft notif <> UB /\ forall uri, cage W mft notif = Ok uri -> ~ In 0 (u_global uri)).
    { unfold cage. destruct notif as [nu|]; [|split; [discriminate|intros uri E; injection E as <-; apply printable_no_nul; exact Pm]].
      assert (Cf : conf_ok (w_repository W) (w_tal W) (Some (u_global nu))) by (destruct (sa_conf W S) as (C1 & C2 & _); repeat split; assumption).
      destruct (C27_total (w_J W) (w_repository W) (w_tal W) UT_CAGED (Some (u_global nu)) (u_global mft) Cf ltac:(discriminate)) as [(v & E)|(e & E)]; rewrite E; (split; [discriminate|]); intros uri Q; [|discriminate Q].
      injection Q as <-. apply C27_contained in E; [|exact Cf]. destruct E as (-> & P & _). apply printable_no_nul; exact P. }
    destruct Cage as (Cn & Cp). destruct (cage W mft notif) as [uri| |]; cbn [bind] in H; [|discriminate H|congruence]. specialize (Cp uri eq_refl).
    pose proof (proj1 (decode_facts W S n uri)) as Dn. destruct (signed_object_decode W n uri) as [o| |] eqn:Hdec; cbn [bind] in H; [|discriminate H|congruence].
    destruct (sd_econtent (snd o)) as [body|] eqn:Hbody; [|discriminate H].
    destruct (decode_manifest (w_nobuf W) (w_turns W) body) as [m|] eqn:Hm; [|discriminate H].
    destruct (body_facts W S n uri o body Hdec Hbody) as (Bbody & Zbody). pose proof (manifest_length _ _ _ _ Bbody (sa_turns W S) Hm) as Hlen.
    pose proof (no_empty n uri o body m Hdec Hbody Hm) as Hne.
    assert (Hb : build_rpp (w_J W) (w_repository W) (w_tal W) (option_map u_global notif) (hash_file W (n + 1)) (w_not_found W)
                    (w_not_match W) (w_rnd W (n + 1)) uri (m_files m) <> UB /\ forall files, build_rpp (w_J W) (w_repository W) (w_tal W) (option_map u_global notif) (hash_file W (n + 1)) (w_not_found W)
                    (w_not_match W) (w_rnd W (n + 1)) uri (m_files m) = Ok files -> pp_crl files <> None).
    { unfold build_rpp. destruct (C40_permutation_partial (w_rnd W (n + 1)) (m_files m) Hne ltac:(lia)) as (l & -> & _). cbn [bind].
      pose proof (build_loop_nub (w_J W) (w_repository W) (w_tal W) (option_map u_global notif) (hash_file W (n + 1)) (w_not_found W) (w_not_match W) uri l rpp_create
        (fun f _ => mft_safe W S _ uri (f_file f) Cp No)) as B.
      destruct (build_loop _ _ _ _ _ _ _ _ _ _) as [pp| |]; cbn [bind]; [|split; [discriminate|intros f E; discriminate E]|congruence].
      destruct (pp_crl pp) eqn:Ec; (split; [discriminate|]); intros f E; [injection E as <-; congruence|discriminate E]. }
    destruct Hb as (Hb & Hcrl0). destruct (build_rpp _ _ _ _ _ _ _ _ _ _) as [files| |]; cbn [bind] in H; [|discriminate H|congruence]. specialize (Hcrl0 files eq_refl).
    destruct (pp_crl files) as [cu|] eqn:Hcu; [|congruence]. cbn [option_map] in H.
    destruct (crl_safe W S (n + 2) s (u_local cu)) as (Cs1 & Cs2).
    destruct (crl_of W (n + 2) s _) as [[slot crl]| |] eqn:Hcrl; cbn [bind] in H; [|discriminate H|congruence].
    destruct crl as [crl| |]; cbn [bind] in H; [|discriminate H|exact (Cs2 slot eq_refl)].
    apply crl_of_fresh in Hcrl. destruct Hcrl as (path & c & Hpath & -> & -> & _).
    pose proof (object_safe W S h s n (n + 3)%nat uri o (Some c) OID_MANIFEST false R Hs Hdec) as On.
    destruct (validate_object W (n + 3) s h (Some c) OID_MANIFEST false o) as [[refs [h1 r]]| |] eqn:Hobj; cbn [bind] in H; [|discriminate H|congruence].
    assert (Vm : exists e, validate_manifest (w_now W (n + 4)) (w_mft_stale W) m = Ok e).
    { unfold validate_manifest. cbn zeta. destruct (negb (_ =? 0)); [eauto|]. destruct (20 <? _)%nat; [eauto|].
      destruct (C42_total (m_this m) (m_next m) (w_now W (n + 4)) (w_mft_stale W)) as (e & ->). cbn [bind]. destruct (negb (e =? 0)); eauto. }
    destruct Vm as (e & Vm). rewrite Vm in H. cbn [bind] in H. destruct (negb (e =? 0)); [discriminate H|].
    assert (exists chain, rel h s chain) as (chain & L).
    { clear. induction s as [|m s (chain & IH)]; [exists []; constructor|].
      exists ({| n_uri := me_uri m; n_cert := me_cert m; n_record := empty_record; n_ip4 := holds4 h (me_resources m); n_ip6 := holds6 h (me_resources m); n_as := holdsA h (me_resources m) |} :: chain).
      constructor; [|exact IH]. unfold relm. cbn. auto. }
    destruct (object_sound W S 0 h s chain n (n + 3)%nat uri o c OID_MANIFEST false refs h1 r R L ltac:(unfold TreeProofs.during; lia) ltac:(unfold TreeProofs.during; lia) Hdec Hobj)
      as (_ & _ & b & ee & _ & _ & <- & _ & _ & _ & Tee & _ & _ & (sid & Hee)).
    unfold crl_uri in H. rewrite Hcu in H. cbn [option_map] in H. unfold validate_ee in Hee.
    destruct (C71_ee_references (w_nid W) (sa_inj W S) _ 0 0 0 _ _ _ _ _ _ _ _ (sa_conf W S) _ _ _ _ _ (u_global cu) (u_global uri) Tee Hee) as (Rn & _).
    destruct (refs_validate_ee _ _ _) as [[]| |]; cbn [bind] in H; [discriminate H|discriminate H|congruence].
  Qed.

  Lemma roa_safe h s chain n p u db : reachable (h, map me_resources s) -> rel h s chain -> s <> [] -> during n -> pp_good W n0 chain p ->
    exists x, roa_traverse W n s p u h db = Ok x.
  Proof.
    intros R L Hs D (cu & crl & Hp & Hsl). unfold roa_traverse.
    set (before := bind (signed_object_decode W n u) _).
    assert (Bn : before <> UB).
    { subst before. pose proof (proj1 (decode_facts W S n u)) as Dn. destruct (signed_object_decode W n u) as [o| |] eqn:Hdec; cbn [bind]; [|discriminate|congruence].
      destruct (sd_econtent (snd o)) as [body|]; [|discriminate]. destruct (decode_roa _ _ body) as [roa|]; [|discriminate].
      rewrite (crl_of_filled _ _ _ _ _ _ Hsl). cbn [bind].
      pose proof (object_safe W S h s n (n + 1)%nat u o (Some crl) OID_ROA false R Hs Hdec) as On. destruct (validate_object W (n + 1) s h (Some crl) OID_ROA false o) as [x| |]; cbn [bind]; congruence. }
    destruct before as [[roa [refs [h1 r]]]|e|] eqn:Hb; [|eauto|congruence]. subst before.
    destruct (signed_object_decode W n u) as [o| |] eqn:Hdec; cbn [bind] in Hb; try discriminate Hb.
    destruct (sd_econtent (snd o)) as [body|] eqn:Hbody; [|discriminate Hb].
    destruct (decode_roa (w_nobuf W) (w_turns W) body) as [roa'|] eqn:Hroa; [|discriminate Hb].
    rewrite (crl_of_filled _ _ _ _ _ _ Hsl) in Hb. cbn [bind] in Hb.
    destruct (validate_object W (n + 1) s h (Some crl) OID_ROA false o) as [[refs' [h1' r']]| |] eqn:Hobj; cbn [bind] in Hb; try discriminate Hb.
    injection Hb as -> -> -> ->.
    destruct (object_sound W S n0 h s chain n (n + 1)%nat u o crl OID_ROA false refs h1 r R L D ltac:(unfold TreeProofs.during in *; lia) Hdec Hobj)
      as (X & Hr & b & ee & Hbb & Hso & <- & _ & _ & _ & Tee & (pol & Hres) & Ree & (sid & Hee)).
    pose proof (read_exts W S _ Ree) as Fee. destruct (body_facts W S n u o body Hdec Hbody) as (Bbody & _).
    rewrite <- peek_map in Hres.
    destruct (C68_any_bytes (w_nobuf W) (w_turns W) h (map me_resources s) pol false _ h1 r db body (sa_turns W S) Bbody R Fee Hres) as (db1 & e & Hcontent & _).
    unfold roa_content in Hcontent. rewrite Hroa in Hcontent. rewrite Hcontent. cbn [bind]. destruct (negb (e =? 0)); [eauto|].
    assert (Hcu : crl_uri (pp_files p) = Some (u_global cu)).
    { destruct (pu_manifest _ _ _ _ _ _ Hp) as (? & ? & ? & ? & ? & ? & ? & ? & ? & ? & ? & ? & ? & Hall). unfold crl_uri.
      destruct Hall as (_ & _ & _ & _ & _ & _ & _ & _ & _ & _ & _ & _ & _ & _ & _ & -> & _). reflexivity. }
    rewrite Hcu. unfold validate_ee in Hee.
    destruct (C71_ee_references (w_nid W) (sa_inj W S) _ 0 0 0 _ _ _ _ _ _ _ _ (sa_conf W S) _ _ _ _ _ (u_global cu) (u_global u) Tee Hee) as (Rn & _).
    destruct (refs_validate_ee _ _ _) as [[]| |]; [eauto|eauto|congruence].
  Qed.
  Lemma roa_loop_safe s chain p : valid W during root chain -> pp_good W n0 chain p -> s <> [] -> forall l n h db,
    reachable (h, map me_resources s) -> rel h s chain -> during n -> (forall u, In u l -> In u (pp_roas (pp_files p))) ->
    exists x, roa_loop W n s p l h db = Ok x.
  Proof.
    intros V Hp Hs. induction l as [|u l IH]; intros n h db R L D Hl; cbn [roa_loop]; [eauto|].
    destruct (roa_safe h s chain n p u db R L Hs D Hp) as ([[h1 db1] ok] & H1). rewrite H1. cbn [bind].
    destruct (roa_sound W S n0 root h s chain n p u db h1 db1 ok R L D V Hp (Hl u (or_introl eq_refl)) H1) as (X & R1 & _).
    destruct (reachable_ok _ R) as (_ & Hst & _). cbn [fst snd] in Hst.
    apply IH; [exact R1|eapply rel_ext; eassumption|unfold TreeProofs.during in *; lia|intros v Hv; apply Hl; right; exact Hv].
  Qed.


  Lemma traverse_safe parent u s chain : rel (s_heap s) (s_stack s) chain -> reachable (s_heap s, map me_resources (s_stack s)) ->
    defers_ok W n0 root (s_defers s) chain -> during (s_clock s) ->
    match parent with
    | None => chain = [] /\ u = root /\ ends_with (u_global root) (cstr ".cer")
    | Some p => valid W during root chain /\ pp_good W n0 chain p /\ In u (pp_certs (pp_files p))
    end ->
    exists x, certificate_traverse W parent u s = Ok x.
  Proof.
    intros L R Df D Hpar.
    enough (H : certificate_traverse W parent u s <> UB /\ forall e, certificate_traverse W parent u s <> Err e).
    { destruct (certificate_traverse W parent u s) as [x|e|]; [eauto|destruct (proj2 H e eq_refl)|destruct (proj1 H eq_refl)]. }
    unfold certificate_traverse. cbn zeta. cbn [s_defers s_stack s_heap s_db s_clock]. set (n := s_clock s) in *.
    assert (Go : forall x, (@Ok (state * bool) x <> UB /\ forall e, Ok x <> Err e)) by (intros x; split; discriminate).
    destruct (Nat.leb_spec (w_max_depth W) (length (s_stack s))) as [|Hdepth]; [apply Go|].
    assert (Hcrl : exists sl crl, crl_of W n (s_stack s) (option_map pp_slot parent) = Ok (sl, Ok crl)).
    { destruct parent as [p|]; cbn [option_map]; [|exists None, None; reflexivity]. destruct Hpar as (_ & (cu & crl & _ & Hs) & _). rewrite (crl_of_filled _ _ _ _ _ _ Hs). eauto. }
    destruct Hcrl as (sl & crl & Hcrl). rewrite Hcrl. cbn [bind attempt].
    destruct (certificate_load W n u) as [c| |] eqn:Hload; cbn [attempt]; [|apply Go|unfold certificate_load in Hload; destruct (w_read W n (u_local u)); [discriminate Hload|]; destruct (w_load_X509 W l); discriminate Hload].
    assert (Hb : exists b, w_read W n (u_local u) = inr b /\ w_load_X509 W b = Some c).
    { unfold certificate_load in Hload. destruct (w_read W n (u_local u)) as [|b]; [discriminate Hload|]. destruct (w_load_X509 W b) as [c'|] eqn:E; [|discriminate Hload]. injection Hload as ->. eauto. }
    destruct Hb as (b & Hread & Hx).
    destruct (sa_cert W S _ _ Hx) as (Tc & Rc). pose proof (read_exts W S _ Rc) as Fc.
    pose proof (chain_safe W (n + 1)%nat (s_stack s) crl c) as Cn. destruct (certificate_validate_chain W (n + 1) (s_stack s) crl c) as [[]| |] eqn:Hchain; cbn [attempt]; [|apply Go|congruence].
    destruct (get_certificate_type c _) as [t| |] eqn:Ht; cbn [attempt];
      [|apply Go|unfold get_certificate_type in Ht; destruct parent; [|discriminate Ht]; destruct (negb _); [discriminate Ht|]; destruct (ct_ca c); [discriminate Ht|]; destruct (ct_router c); discriminate Ht].
    destruct (CertStack_certype_cases t) as [->|[->|K]]; [apply Go..|].
    match goal with |- match t with CertStack.CERTYPE_TA => ?body | _ => _ end <> UB /\ _ => assert (H' : body <> UB /\ forall e, body <> Err e); [|destruct K; subst t; exact H'] end.
    pose proof (C72_no_crash (w_commonName W) (w_serialNumber W) (w_sha256WithRSA W) (w_rsa W) (w_ec W) (w_p256 W) (w_obj2nid W) (w_d2i_PUBKEY W) (w_spki W) (top (s_stack s)) (ct c) t) as Pn.
    fold (validate_rfc6487 W (s_stack s) c t) in Pn. destruct (validate_rfc6487 W (s_stack s) c t) as [[]| |] eqn:Hprof; cbn [attempt]; [|apply Go|congruence]. clear Pn.
    set (exts := match parent with None => validate_ta W c | Some p => validate_ca W (s_stack s) (crl_uri (pp_files p)) c end).
    assert (Hexts := exts_safe W S parent (s_stack s) c Tc). cbn zeta in Hexts. fold exts in Hexts.
    assert (Hpc : forall p, parent = Some p -> exists cu, pp_crl (pp_files p) = Some cu).
    { intros p ->. destruct Hpar as (_ & (cu & crl0 & Hp & _) & _). exists cu. destruct (pu_manifest _ _ _ _ _ _ Hp) as (? & ? & ? & ? & ? & ? & ? & ? & ? & ? & ? & ? & ? & Hall).
      destruct Hall as (_ & _ & _ & _ & _ & _ & _ & _ & _ & _ & _ & _ & _ & _ & _ & -> & _). reflexivity. }
    specialize (Hexts Hpc).
    destruct Hexts as (En & Ef). destruct exts as [r| |] eqn:Eexts; cbn [attempt]; [|apply Go|congruence]. destruct (Ef r eq_refl) as ((q & Eq) & mft & Hmft & Pm & Pr). clear Ef En.
    destruct (download_rpp W (n + 2) (r_rpp r)) as [downloaded|] eqn:Hdown; [|apply Go].
    unfold with_policy. rewrite Eq. cbn [bind].
    set (ty := match parent with None => Resources.CERTYPE_TA | Some _ => Resources.CERTYPE_CA end).
    assert (Hinit : exists h1 rs error, init_resources (s_heap s) (top_resources (s_stack s)) (policy_of q) ty (read_resources W c) = Ok (h1, rs, error)).
    { assert (Q : exists s', stack_step (s_heap s, map me_resources (s_stack s)) (OpPush (policy_of q) ty (read_resources W c)) = Ok s' /\ reachable s').
      { destruct parent as [p|].
        - destruct Hpar as (V & _). apply C53_no_crash_partial; [exact R|exact Fc|]. inversion L; subst; [inversion V|cbn; discriminate].
        - destruct Hpar as (_ & -> & _). apply C53_no_inherit; [exact R|exact Fc|]. eapply no_inherit; eassumption. }
      destruct Q as (s' & Q & _). cbn [stack_step] in Q. rewrite peek_map in Q. destruct (init_resources _ _ _ _ _) as [[[h1 rs] error]| |]; cbn [bind] in Q; try discriminate Q. eauto. }
    destruct Hinit as (h1 & rs & error & Hinit). rewrite Hinit. cbn [bind].
    destruct (negb (error =? 0)) eqn:Ee; [apply Go|]. rewrite Hmft.
    assert (Rstep : reachable (h1, map me_resources ({| me_uri := u; me_cert := c; me_resources := rs |} :: s_stack s))).
    { eapply (reach_step _ (OpPush (policy_of q) ty (read_resources W c))); [exact R|exact Fc|]. cbn [stack_step]. rewrite peek_map, Hinit. cbn [bind]. destruct (error =? 0); [reflexivity|discriminate Ee]. }
    set (notif := match u_type downloaded with UT_HTTPS => Some downloaded | _ => None end).
    assert (Pn : forall nu, notif = Some nu -> printable (u_global nu)).
    { intros nu E. unfold notif in E. destruct (u_type downloaded); try discriminate E. injection E as <-. apply Pr. unfold download_rpp in Hdown.
      destruct (r_rpp r) as [|x l]; [discriminate Hdown|]. destruct (w_download W (n + 2) (x :: l)); [|discriminate Hdown]. eapply nth_error_In; exact Hdown. }
    pose proof (manifest_safe h1 ({| me_uri := u; me_cert := c; me_resources := rs |} :: s_stack s) (n + 3)%nat mft notif Rstep ltac:(discriminate) Pm Pn) as Mn.
    destruct (handle_manifest W (n + 3) _ h1 mft notif) as [[h2 p]| |] eqn:Hman; [|apply Go|congruence].
    cbn [s_defers s_stack s_heap s_db s_clock].
    assert (Ez : error = 0) by (destruct (Z.eqb_spec error 0); [assumption|discriminate Ee]). subst error.
    destruct (push_sound W S n0 root parent u s chain sl crl c t r downloaded q h1 rs L R D Hpar Hdepth Hcrl Hload Hchain Ht ltac:(destruct K; subst t; discriminate) Hprof Eexts Hdown Eq Hinit) as (L1 & _ & V1 & N).
    destruct (manifest_sound W S n0 h1 _ _ chain (n + 3)%nat mft notif h2 p Rstep L1 ltac:(unfold TreeProofs.during in *; lia) Hmft N Hman) as (X2 & R2 & Hgood).
    destruct (reachable_ok _ Rstep) as (_ & Hst1 & _). cbn [fst snd] in Hst1.
    enough (Q : exists s1, rpp_traverse W (n + 8) {| s_defers := Separator :: s_defers s; s_stack := {| me_uri := u; me_cert := c; me_resources := rs |} :: s_stack s; s_heap := h2; s_db := s_db s; s_clock := n + 8 |} p = Ok s1)
      by (destruct Q as (s1 & ->); apply Go).
    unfold rpp_traverse. cbn [s_defers s_stack s_heap s_db s_clock].
    destruct (roa_loop_safe ({| me_uri := u; me_cert := c; me_resources := rs |} :: s_stack s) _ p V1 Hgood ltac:(discriminate) (pp_roas (pp_files p)) (n + 8)%nat h2 (s_db s) R2 (rel_ext _ _ _ _ X2 Hst1 L1) ltac:(unfold TreeProofs.during in *; lia) (fun u Hu => Hu)) as ([h3 db3] & ->).
    cbn [bind]. eauto.
  Qed.

  (** The separators are those of the certificates of the stack. *)
  Definition seps (d : list defer) : nat := length (filter (fun e => match e with Separator => true | _ => false end) d).
  Lemma pop_safe : forall d stack, seps d = length stack -> exists stack' o, pop_loop d stack = Ok (stack', o) /\
    match o with None => True | Some (_, _, d') => seps d' = length stack' end.
  Proof.
    induction d as [|[|p u] d IH]; intros stack E; cbn [pop_loop].
    - eexists _, _. split; [reflexivity|exact I].
    - destruct stack as [|m stack]; [discriminate E|]. apply IH. unfold seps in *. cbn in E. injection E as E. exact E.
    - eexists _, _. split; [reflexivity|exact E].
  Qed.
  Lemma seps_deferred p l d : seps (map (Deferred p) l ++ d) = seps d.
  Proof. induction l; [reflexivity|exact IHl]. Qed.
  Lemma traverse_seps parent u s s' b : certificate_traverse W parent u s = Ok (s', b) -> seps (s_defers s) = length (s_stack s) -> seps (s_defers s') = length (s_stack s').
  Proof.
    intros H E. destruct (traverse_stacks W _ _ _ _ _ H) as [(-> & ->)|(_ & _ & m & p & l & -> & ->)]; [exact E|].
    rewrite seps_deferred. unfold seps in *. cbn. rewrite E. reflexivity.
  Qed.

  Lemma loop_safe db0 : forall fuel s x, inv W n0 root db0 s -> seps (s_defers s) = length (s_stack s) -> tal_loop W fuel s = Some x -> exists db, x = Ok db.
  Proof.
    induction fuel as [|fuel IH]; intros s x (chain & L & R & Df & D & G) Hs H; cbn [tal_loop] in H; [discriminate H|].
    destruct (pop_safe _ _ Hs) as (stack & o & P & Ho). rewrite P in H. destruct o as [[[p u] d]|]; [|injection H as <-; eauto].
    destruct (pop_sound W n0 root _ _ _ _ _ _ L R Df P) as (chain' & L' & R' & V & Hp & Hu & Df').
    set (s1 := {| s_defers := d; s_stack := stack; s_heap := s_heap s; s_db := s_db s; s_clock := s_clock s |}) in *.
    destruct (traverse_safe (Some p) u s1 chain' L' R' Df' D (conj V (conj Hp Hu))) as ([s2 b] & T). rewrite T in H.
    apply (IH s2 x); [|eapply traverse_seps; [exact T|exact Ho]|exact H].
    eapply (traverse_sound W S n0 root db0 (Some p) u s1 s2 b chain'); [| | | | | |exact T]; cbn [s1 s_heap s_stack s_defers s_db s_clock]; auto.
  Qed.
End Crash.

Theorem tree_safe W fuel n u db x : sane W ->
  (forall n u o body m, signed_object_decode W n u = Ok o -> sd_econtent (snd o) = Some body -> decode_manifest (w_nobuf W) (w_turns W) body = Some m -> m_files m <> []) ->
  (forall n b c, w_read W n (u_local u) = inr b -> w_load_X509 W b = Some c -> Forall (fun e => ~ inherits e) (read_resources W c)) ->
  handle_tal_uri W fuel n u db = Some x -> exists y, x = Ok y.
Proof.
  intros S N1 N2 H. unfold handle_tal_uri in H.
  destruct (str_ends_with (u_global u) (cstr ".cer")) eqn:Hend; cbn [negb] in H; [|injection H as <-; eauto].
  destruct (traverse_safe W S n u N1 N2 None u (create n db) []) as ([s b] & T); unfold create in *; cbn [s_heap s_stack s_defers s_db s_clock] in *.
  - constructor.
  - constructor.
  - constructor.
  - unfold during. lia.
  - split; [reflexivity|]. split; [reflexivity|]. apply ends_with_iff. exact Hend.
  - rewrite T in H. destruct b; [|injection H as <-; eauto].
    assert (I : inv W n u db s).
    { eapply (traverse_sound W S n u db None u _ s true []); [| | | | | |exact T]; cbn [s_heap s_stack s_defers s_db s_clock].
      - constructor.
      - constructor.
      - constructor.
      - unfold during. lia.
      - apply grown_refl.
      - split; [reflexivity|]. split; [reflexivity|]. apply ends_with_iff. exact Hend. }
    destruct (tal_loop W fuel s) as [y|] eqn:Tl; [|discriminate H].
    destruct (loop_safe W S n u N1 N2 db fuel s y I (traverse_seps W _ _ _ _ _ T eq_refl) Tl) as (db1 & ->). injection H as <-. eauto.
Qed.
