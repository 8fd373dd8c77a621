From Coq Require Import Lia String.
From Verif Require Import Base BaseLemmas CString PathBuilder PathSpec PathProps SignedData Extensions ExtensionsSpec ExtensionsProofs ExtensionsProofs2 ExtensionsProofs3.
Notation length := List.length.

Section Main.
  Context (nid : ext_id -> Z) (inj : forall i j, nid i = nid j -> i = j).
  Context (nid_ca_issuers nid_caRepository nid_ad_notify nid_ad_mft nid_ad_so : Z).
  Context (nid_certPolicyRpki nid_certPolicyRpkiV2 nid_qt_cps : Z).
  Context (sha1 : list Z -> option (list Z)).
  Context (J : Z) (repository : list Z) (tal : option (list Z)) (C : conf_ok repository tal None).
  Context (p : profile).
  Context (spk : option (list Z)) (parent : option (option (list Z))) (sid : list Z) (es : list x509_extension).
  Context (T : Forall (typed nid) es).

  Local Notation content := (content nid nid_ca_issuers nid_caRepository nid_ad_notify nid_ad_mft nid_ad_so nid_certPolicyRpki nid_certPolicyRpkiV2 nid_qt_cps sha1 repository tal p spk parent sid es).
  Local Notation well_formed := (well_formed nid nid_ca_issuers nid_caRepository nid_ad_notify nid_ad_mft nid_ad_so nid_certPolicyRpki nid_certPolicyRpkiV2 nid_qt_cps sha1 repository tal p spk parent sid es).
  Local Notation handlers := (handlers nid nid_ca_issuers nid_caRepository nid_ad_notify nid_ad_mft nid_ad_so nid_certPolicyRpki nid_certPolicyRpkiV2 nid_qt_cps sha1 J repository tal p spk parent sid es).
  Local Notation cb_of := (cb_of nid nid_ca_issuers nid_caRepository nid_ad_notify nid_ad_mft nid_ad_so nid_certPolicyRpki nid_certPolicyRpkiV2 nid_qt_cps sha1 J repository tal p spk parent sid es).

  Lemma content_none i r : cb_of i = None -> known p i -> forall v, content i v r.
  Proof. destruct i; cbn; intros; try discriminate; exact I. Qed.

  Lemma ext_dec (i j : ext_id) : {i = j} + {i <> j}.
  Proof. decide equality. Qed.

  Lemma run_content seen es' r r' : run nid handlers seen es' r r' -> (forall e, In e es' -> In e es) ->
    (forall i, known p i -> ~ In (nid i) seen -> same i r empty_record) ->
    (forall i e, known p i -> In e es' -> e_nid e = nid i -> content i (e_value e) r') /\
    (forall i, (known p i -> forall e, In e es' -> e_nid e <> nid i) -> same i r r') /\
    (nothing_else p r -> nothing_else p r').
  Proof.
    induction 1 as [seen r|seen e es' r r' U Cr R IH|seen e es' r r1 r' h H1 H2 H3 H4 H5 R IH]; intros Sub Bl.
    - split; [intros i e _ []|]. split; [intros; apply same_refl|auto].
    - destruct IH as (A & B & D); [intros; apply Sub; right; assumption|intros i K N; apply Bl; [exact K|intros I; apply N; right; exact I]|].
      assert (NU : forall i, known p i -> e_nid e <> nid i).
      { intros i K Q. apply (U (entry i (required p i) (cb_of i))); [apply in_handlers; eauto|symmetry; exact Q]. }
      split; [|split; [|exact D]].
      + intros i e' K [<-|I] M; [destruct (NU i K M)|]. apply (A i e'); assumption.
      + intros i N. apply B. intros K e' I. apply N; [exact K|right; exact I].
    - apply in_handlers in H1. destruct H1 as (i & K & ->). cbn [entry h_id] in *.
      assert (X : content i (e_value e) r1 /\ (forall j, j <> i -> same j r r1) /\ (nothing_else p r -> nothing_else p r1)).
      { unfold step in H5. cbn [h_cb] in H5. destruct (cb_of i) as [cb|] eqn:CB.
        - destruct H5 as (v & V & E). rewrite V.
          assert (B0 : same i r empty_record) by (apply Bl; [exact K|rewrite H2; exact H3]).
          destruct (cb_sound nid nid_ca_issuers nid_caRepository nid_ad_notify nid_ad_mft nid_ad_so nid_certPolicyRpki nid_certPolicyRpkiV2 nid_qt_cps sha1 J repository tal C p spk parent sid es T
            i cb e v r r1 CB K (Sub e (or_introl eq_refl)) (eq_sym H2) V B0 E) as (P1 & P2).
          split; [exact P1|]. split; [exact P2|]. apply (cb_frame nid nid_ca_issuers nid_caRepository nid_ad_notify nid_ad_mft nid_ad_so nid_certPolicyRpki nid_certPolicyRpkiV2 nid_qt_cps sha1 J repository tal C p spk parent sid es i cb v r r1 CB E K).
        - cbn in H5. subst r1. split; [apply content_none; assumption|]. split; [intros; apply same_refl|auto]. }
      destruct X as (X1 & X2 & X3).
      assert (NI : forall e', In e' es' -> e_nid e' <> nid i).
      { intros e' I' Q. pose proof (run_once nid handlers (e_nid e :: seen) es' r1 r' R (entry i (required p i) (cb_of i))) as O.
        destruct O as (O & _); [apply in_handlers; eauto|]. cbn [entry h_id] in O. apply (O ltac:(left; symmetry; exact H2) e' I' Q). }
      destruct IH as (A & B & D).
      + intros; apply Sub; right; assumption.
      + intros j Kj N. assert (j <> i) by (intros ->; apply N; left; symmetry; exact H2). apply same_trans with r; [apply same_sym, X2; assumption|].
        apply Bl; [exact Kj|]. intros I; apply N; right; exact I.
      + split; [|split; [|auto]].
        * intros j e' Kj [<-|I'] M; [|apply (A j e'); assumption].
          assert (j = i) by (apply inj; congruence). subst j. eapply content_same; [|exact X1]. apply B. intros _. exact NI.
        * intros j N. destruct (ext_dec j i) as [->|Nj]; [destruct (N K e (or_introl eq_refl) (eq_sym H2))|].
          apply same_trans with r1; [apply X2; exact Nj|]. apply B. intros Kj e' I'. apply N; [exact Kj|right; exact I'].
  Qed.

  Lemma sound r : handle_extensions nid handlers es empty_record = Ok r -> well_formed r.
  Proof.
    intros E. apply handle_iff in E; [|exact inj|apply ids_nodup|apply handlers_fresh]. destruct E as (R & M).
    destruct (run_content [] es empty_record r R) as (A & _ & D); [auto|intros; apply same_refl|].
    assert (KN : forall i, known p i -> In (entry i (required p i) (cb_of i)) handlers) by (intros i K; apply in_handlers; eauto).
    split.
    - intros i n1 n2 e1 e2 K Q1 Q2 M1 M2. destruct (run_once nid handlers [] es _ _ R (entry i (required p i) (cb_of i)) (KN i K)) as (_ & O). eapply O; eauto.
    - intros i e K I Q. destruct (run_critical nid handlers [] es _ _ R e I) as [(h & H1 & H2 & H3)|(N & _)].
      + apply in_handlers in H1. destruct H1 as (j & Kj & ->). cbn [entry h_id] in *. assert (j = i) by (apply inj; congruence). subst j. rewrite <- H3. apply critical_iff.
      + destruct (N _ (KN i K)). symmetry. exact Q.
    - intros e I N. destruct (run_critical nid handlers [] es _ _ R e I) as [(h & H1 & H2 & H3)|(_ & Q)]; [|exact Q].
      apply in_handlers in H1. destruct H1 as (j & Kj & ->). destruct (N j Kj). symmetry. exact H2.
    - intros i Q. assert (K : known p i) by (unfold known; congruence). apply (M _ (KN i K)). cbn [entry h_mandatory]. unfold required. rewrite Q. reflexivity.
    - intros i e K I Q. apply A; assumption.
    - apply D. unfold nothing_else, empty_record. cbn. auto.
  Qed.

  Context (Sh : Forall (short_extension repository tal) es).

  Lemma content_some i r v : cb_of i <> None -> content i v r -> exists w, v = Some w.
  Proof.
    destruct v as [w|]; [eauto|]. destruct i; cbn; intros N H; try congruence; exfalso;
      repeat match goal with H : exists _, _ |- _ => destruct H | H : _ /\ _ |- _ => destruct H end; discriminate.
  Qed.

  Lemma complete_some rr : well_formed rr -> exists r, handle_extensions nid handlers es empty_record = Ok r.
  Proof.
    intros W. assert (R : exists r, run nid handlers [] es empty_record r).
    { apply run_exists.
      - intros h _ [].
      - intros h n1 n2 e1 e2 H Q1 Q2 M1 M2. apply in_handlers in H. destruct H as (i & K & ->). eapply (wf_once _ _ _ _ _ _ _ _ _ _ _ _ _ _ _ _ _ _ W i); eauto.
      - intros e I N. apply (wf_unknown _ _ _ _ _ _ _ _ _ _ _ _ _ _ _ _ _ _ W e I). intros i K Q.
        apply (N (entry i (required p i) (cb_of i))); [apply in_handlers; eauto|symmetry; exact Q].
      - intros h e H I M. apply in_handlers in H. destruct H as (i & K & ->). cbn [entry h_id] in M. split.
        + pose proof (wf_critical _ _ _ _ _ _ _ _ _ _ _ _ _ _ _ _ _ _ W i e K I (eq_sym M)) as Cr. rewrite <- critical_iff in Cr. cbn [entry h_id].
          destruct (e_critical e), (meta_critical i); intuition congruence.
        + intros r. unfold step. cbn [entry h_cb]. destruct (cb_of i) as [cb|] eqn:CB; [|eauto].
          pose proof (wf_content _ _ _ _ _ _ _ _ _ _ _ _ _ _ _ _ _ _ W i e K I (eq_sym M)) as Co.
          destruct (content_some i rr (e_value e) ltac:(congruence) Co) as (v & V). rewrite V in Co.
          destruct (cb_complete nid nid_ca_issuers nid_caRepository nid_ad_notify nid_ad_mft nid_ad_so nid_certPolicyRpki nid_certPolicyRpkiV2 nid_qt_cps sha1 J repository tal C p spk parent sid es T
            i cb e v rr r CB I (eq_sym M) V) as (r' & E); [rewrite Forall_forall in Sh; apply (Sh e I v V)| |exact Co|eauto].
          intros P n1 n2 e1 e2 Q1 Q2 M1 M2. refine (wf_once _ _ _ _ _ _ _ _ _ _ _ _ _ _ _ _ _ _ W SKI n1 n2 e1 e2 _ Q1 Q2 M1 M2). rewrite P. unfold known. cbn. discriminate. }
    destruct R as (r & R). exists r. apply handle_iff; [exact inj|apply ids_nodup|apply handlers_fresh|]. split; [exact R|].
    intros h H Q. apply in_handlers in H. destruct H as (i & K & ->). cbn [entry h_id h_mandatory] in *. apply (wf_present _ _ _ _ _ _ _ _ _ _ _ _ _ _ _ _ _ _ W).
    unfold required in Q. destruct (presence_of p i); congruence.
  Qed.

  Lemma unique r1 r2 : well_formed r1 -> well_formed r2 -> r1 = r2.
  Proof.
    intros W1 W2.
    assert (Q : forall i, presence_of p i = Required -> exists e, In e es /\ content i (e_value e) r1 /\ content i (e_value e) r2).
    { intros i P. destruct (wf_present _ _ _ _ _ _ _ _ _ _ _ _ _ _ _ _ _ _ W1 i P) as (e & I & M). exists e. split; [exact I|].
      assert (K : known p i) by (unfold known; congruence).
      split; [apply (wf_content _ _ _ _ _ _ _ _ _ _ _ _ _ _ _ _ _ _ W1 i e K I M)|apply (wf_content _ _ _ _ _ _ _ _ _ _ _ _ _ _ _ _ _ _ W2 i e K I M)]. }
    pose proof (wf_record _ _ _ _ _ _ _ _ _ _ _ _ _ _ _ _ _ _ W1) as N1. pose proof (wf_record _ _ _ _ _ _ _ _ _ _ _ _ _ _ _ _ _ _ W2) as N2.
    assert (UF : forall e n l v o o' t, t <> UT_CAGED -> In e es -> e_value e = Some v -> v = V_access l ->
      uris_of repository tal n t l o -> uris_of repository tal n t l o' -> o = o').
    { intros e n l v o o' t Ht I V -> U U'. rewrite Forall_forall in Sh. specialize (Sh e I _ V). exact (uris_fun J repository tal n t l o o' C Ht Sh U U'). }
    assert (F1 : r_crldp r1 = r_crldp r2).
    { destruct p eqn:P; try (destruct N1 as (N1 & _), N2 as (N2 & _); destruct N1 as (-> & _); [discriminate..|]; destruct N2 as (-> & _); [discriminate..|]; reflexivity);
        destruct (Q CDP eq_refl) as (e & I & (n1 & t1 & V1 & F1 & ->) & (n2 & t2 & V2 & F2 & ->)); rewrite V1 in V2; injection V2 as <-; f_equal; exact (first_fun _ _ _ F1 F2). }
    assert (F2 : r_caIssuers r1 = r_caIssuers r2).
    { destruct p eqn:P; try (destruct N1 as (N1 & _), N2 as (N2 & _); destruct N1 as (_ & ->); [discriminate..|]; destruct N2 as (_ & ->); [discriminate..|]; reflexivity);
        destruct (Q AIA eq_refl) as (e & I & (l1 & u1 & V1 & U1 & ->) & (l2 & u2 & V2 & U2 & ->)); rewrite V1 in V2; injection V2 as <-;
        exact (UF e _ _ _ _ _ UT_RSYNC ltac:(discriminate) I V1 eq_refl U1 U2). }
    assert (F3 : r_signedObject r1 = r_signedObject r2).
    { destruct p eqn:P; try (destruct N1 as (_ & N1 & _), N2 as (_ & N2 & _); rewrite N1, N2 by discriminate; reflexivity).
      destruct (Q SIA eq_refl) as (e & I & (l1 & V1 & u1 & U1 & ->) & (l2 & V2 & u2 & U2 & ->)); rewrite V1 in V2; injection V2 as <-;
        exact (UF e _ _ _ _ _ UT_RSYNC ltac:(discriminate) I V1 eq_refl U1 U2). }
    assert (F4 : r_rpp r1 = r_rpp r2 /\ r_mft r1 = r_mft r2).
    { destruct p eqn:P; try (destruct N1 as (_ & _ & N1 & _), N2 as (_ & _ & N2 & _); destruct N1 as (-> & ->); [discriminate..|]; destruct N2 as (-> & ->); [discriminate..|]; auto);
        destruct (Q SIA eq_refl) as (e & I & (l1 & V1 & a1 & b1 & c1 & A1 & B1 & C1 & -> & ->) & (l2 & V2 & a2 & b2 & c2 & A2 & B2 & C2 & -> & ->));
        rewrite V1 in V2; injection V2 as <-;
        rewrite (UF e _ _ _ _ _ UT_RSYNC ltac:(discriminate) I V1 eq_refl A1 A2), (UF e _ _ _ _ _ UT_HTTPS ltac:(discriminate) I V1 eq_refl B1 B2),
          (UF e _ _ _ _ _ UT_RSYNC ltac:(discriminate) I V1 eq_refl C1 C2); auto. }
    assert (F5 : r_policy r1 = r_policy r2).
    { destruct p eqn:P; try (destruct N1 as (_ & _ & _ & N1), N2 as (_ & _ & _ & N2); rewrite N1, N2 by reflexivity; reflexivity);
        destruct (Q CP eq_refl) as (e & I & (i1 & q1 & p1 & V1 & D1 & _ & ->) & (i2 & q2 & p2 & V2 & D2 & _ & ->)); rewrite V1 in V2; injection V2 as <- <-; f_equal;
        destruct D1 as [(D1 & ->)|(D1 & D1' & ->)], D2 as [(D2 & ->)|(D2 & D2' & ->)]; congruence. }
    destruct F4 as (F4 & F4'). destruct r1, r2; cbn in *; subst; reflexivity.
  Qed.

  Lemma main_iff r : handle_extensions nid handlers es empty_record = Ok r <-> well_formed r.
  Proof.
    split; [apply sound|]. intros W. destruct (complete_some r W) as (r' & E). pose proof (sound r' E) as W'. rewrite (unique r r' W W'). exact E.
  Qed.
End Main.

Lemma main_not_ub (nid : ext_id -> Z) (inj : forall i j, nid i = nid j -> i = j) a b c d e f g h sha1 J repository tal p spk parent sid es :
  conf_ok repository tal None -> Forall (typed nid) es ->
  handle_extensions nid (handlers nid a b c d e f g h sha1 J repository tal p spk parent sid es) es empty_record <> UB.
Proof.
  intros C T E. apply handle_ub in E; [|exact inj|apply ids_nodup|apply handlers_fresh]. destruct E as (hd & cb & x & v & r1 & H1 & H2 & H3 & H4 & H5 & H6).
  apply in_handlers in H1. destruct H1 as (i & K & ->). cbn [entry h_cb h_id] in *. revert H6. eapply cb_not_ub; eauto.
Qed.
