(** C66: what decoding checks besides the encoding. *)
From Coq Require Import String Lia.
From Verif Require Import Base CString Ber BerSpec BerProofs BerProofs2 BerProofs4 Manifest ManifestSpec ManifestProofs ManifestProps.
From Verif Require Import Asn1Dec Asn1DecSpec Asn1Types Asn1DecProofs6 Asn1DecProofs7 Asn1DecProofs9 Asn1DecProps.
From Verif Require Import Asn1Check Asn1Constraints Asn1CheckSpec Asn1CheckProofs.
Notation length := List.length.

(** The types decoded, with their constraints. *)
Definition decoded_with : list (ty * constraint) :=
  [(t_RouteOriginAttestation, k_RouteOriginAttestation); (t_Manifest, k_Manifest); (t_IPAddrBlocks, k_IPAddrBlocks);
   (t_ASIdentifiers, k_ASIdentifiers); (t_ContentInfo, k_ContentInfo); (t_SignedData, k_SignedData);
   (t_SignedDataPKCS7, k_SignedDataPKCS7); (t_OBJECT_IDENTIFIER, k_OBJECT_IDENTIFIER); (t_MessageDigest, k_MessageDigest)].

Lemma decoded_with_types : map fst decoded_with = decoded_types.
Proof. reflexivity. Qed.

Lemma decoded_with_in t k : In (t, k) decoded_with -> In t decoded_types.
Proof. intros H. rewrite <- decoded_with_types. apply (in_map fst) in H. exact H. Qed.

Lemma accepted_iff nobuf turns t k bs v : In t decoded_types -> bytes bs -> (2 <= turns)%nat ->
  asn1_decode nobuf turns t k bs = Accepted v <->
  (exists n, (n <= length bs)%nat /\ enc t 0 (firstn n bs) v) /\ check nobuf k v = Pass.
Proof.
  intros Ht Hb Hturns. unfold asn1_decode. split.
  - destruct (ber_decode turns t bs) as [n v'| | |] eqn:E; try discriminate. apply C64_decoder_exact in E; [|assumption..].
    destruct (check nobuf k v') eqn:Ec; try discriminate. intros H. injection H as <-. split; [exists n; assumption|assumption].
  - intros ((n & H) & Hc). apply (C64_decoder_exact t turns) in H; [|assumption..]. rewrite H, Hc. reflexivity.
Qed.

(** ** What the checks amount to, type by type *)

Ltac shape H := cbn in H; repeat match type of H with
  | match ?x with _ => _ end => destruct x; try contradiction; cbn in H
  | _ /\ _ => let H' := fresh "S" in destruct H as (H' & H)
  end.

Lemma roa_check nobuf v : shaped t_RouteOriginAttestation v -> check nobuf k_RouteOriginAttestation v = Pass.
Proof.
  intros H. destruct v as [| | | |vs| |]; try contradiction. cbn in H.
  destruct vs as [|[ver|] vs]; [contradiction|reflexivity|]. cbn. destruct H as (_ & H).
  destruct vs as [|[asid|] vs]; [contradiction|reflexivity|destruct H; lia].
Qed.

Definition k_as : constraint := Asn1Constraints.k_ASIdentifierChoice.
Lemma as_choice_check nobuf v : shaped t_ASIdentifierChoice v -> check nobuf k_as v = Pass.
Proof.
  intros H. destruct v as [| | | | | |k v]; try contradiction. destruct k as [|[|k]].
  - reflexivity.
  - change (shaped t_ASIdentifierChoice_asIdsOrRanges v) in H.
    change (check nobuf k_ASIdentifierChoice_asIdsOrRanges v = Pass).
    destruct v as [| | | | |vs|]; try contradiction.
    induction vs as [|x vs IH]; [reflexivity|]. destruct H as (H1 & H2). specialize (IH H2).
    change (match check nobuf k_ASIdOrRange x with Pass => check nobuf k_ASIdentifierChoice_asIdsOrRanges (VOf vs) | r => r end = Pass).
    rewrite IH. enough (check nobuf k_ASIdOrRange x = Pass) as -> by reflexivity.
    destruct x as [| | | | | |k v]; try contradiction. destruct k as [|[|k]]; [reflexivity| |destruct k; contradiction].
    cbn. cbn in H1. destruct v as [| | | |ws| |]; try contradiction. destruct ws as [|[a|] ws]; [contradiction|reflexivity|destruct H1; lia].
  - destruct k; contradiction.
Qed.

Lemma asidentifiers_check nobuf v : shaped t_ASIdentifiers v -> check nobuf k_ASIdentifiers v = Pass.
Proof.
  intros H. destruct v as [| | | |vs| |]; try contradiction.
  destruct vs as [|[a|] vs]; [contradiction| |].
  - destruct H as (H & _). apply (as_choice_check nobuf) in H. exact H.
  - destruct H as (_ & H). destruct vs as [|[a|] vs]; [contradiction| |].
    + destruct H as (H & _). apply (as_choice_check nobuf) in H. exact H.
    + reflexivity.
Qed.

Lemma signed_data_check nobuf v : shaped t_SignedData v -> check nobuf k_SignedData v = Pass.
Proof.
  intros H. destruct v as [| | | |vs| |]; try contradiction.
  destruct vs as [|[a|] vs]; [contradiction|reflexivity|destruct H; lia].
Qed.

Lemma signed_data_pkcs7_check nobuf v : shaped t_SignedDataPKCS7 v -> check nobuf k_SignedDataPKCS7 v = Pass.
Proof.
  intros H. destruct v as [| | | |vs| |]; try contradiction.
  destruct vs as [|[a|] vs]; [contradiction|reflexivity|destruct H; lia].
Qed.

Lemma digest_check nobuf v : check nobuf k_MessageDigest v = Pass.
Proof. reflexivity. Qed.

(** ** The theorems *)

Lemma exact_with nobuf turns t k (C : value -> Prop) bs v : In (t, k) decoded_with -> bytes bs -> (2 <= turns)%nat ->
  (forall v, shaped t v -> check nobuf k v = Pass <-> C v) ->
  asn1_decode nobuf turns t k bs = Accepted v <-> exists n, (n <= length bs)%nat /\ enc t 0 (firstn n bs) v /\ C v.
Proof.
  intros Ht Hb Hturns HC. rewrite accepted_iff; [|apply decoded_with_in in Ht; assumption|assumption..]. split.
  - intros ((n & Hn & Henc) & Hc). exists n. split; [assumption|]. split; [assumption|].
    apply HC; [|assumption]. eapply enc_shaped; [eassumption|apply bytes_firstn; assumption].
  - intros (n & Hn & Henc & Hc). split; [exists n; split; assumption|]. apply HC; [|assumption].
    eapply enc_shaped; [eassumption|apply bytes_firstn; assumption].
Qed.

(** These five are accepted whenever they are encoded right: nothing else is
    checked. *)
Theorem C66_unchecked nobuf turns t k bs v :
  In (t, k) [(t_RouteOriginAttestation, k_RouteOriginAttestation); (t_ASIdentifiers, k_ASIdentifiers);
             (t_SignedData, k_SignedData); (t_SignedDataPKCS7, k_SignedDataPKCS7); (t_MessageDigest, k_MessageDigest)] ->
  bytes bs -> (2 <= turns)%nat ->
  asn1_decode nobuf turns t k bs = Accepted v <-> exists n, (n <= length bs)%nat /\ enc t 0 (firstn n bs) v.
Proof.
  intros Ht Hb Hturns.
  assert (Hin : In (t, k) decoded_with) by (cbn in *; tauto).
  rewrite (exact_with nobuf turns t k (fun _ => True)); [|assumption..|].
  - split; intros (n & H); exists n; tauto.
  - intros v' Hs. split; [trivial|intros _].
    cbn [In] in Ht. repeat (destruct Ht as [Ht|Ht]; [injection Ht as <- <-|]); [| | | | |contradiction].
    + apply roa_check. assumption.
    + apply asidentifiers_check. assumption.
    + apply signed_data_check. assumption.
    + apply signed_data_pkcs7_check. assumption.
    + apply digest_check.
Qed.

(** A manifest with a version: nothing more.  Without: its number is not
    negative and its thisUpdate is a time; its nextUpdate, algorithm and files
    are not looked at. *)
Theorem C66_manifest nobuf turns bs v : bytes bs -> (2 <= turns)%nat ->
  asn1_decode nobuf turns t_Manifest k_Manifest bs = Accepted v <->
  exists n, (n <= length bs)%nat /\ enc t_Manifest 0 (firstn n bs) v
    /\ exists version number this rest, v = VSeq (version :: Some (VBytes number) :: Some (VBytes this) :: rest)
       /\ (version = None ->
           (number = [] \/ exists b number', number = b :: number' /\ b < 128)
           /\ exists y mo d h mi s, gt_text this y mo d h mi s /\ 1 <= mo <= 12 /\ 1 <= d <= 31 /\ h <= 23 /\ s <= 60).
Proof.
  intros Hb Hturns.
  apply (exact_with nobuf turns t_Manifest k_Manifest (fun v => exists version number this rest,
     v = VSeq (version :: Some (VBytes number) :: Some (VBytes this) :: rest)
       /\ (version = None ->
           (number = [] \/ exists b number', number = b :: number' /\ b < 128)
           /\ exists y mo d h mi s, gt_text this y mo d h mi s /\ 1 <= mo <= 12 /\ 1 <= d <= 31 /\ h <= 23 /\ s <= 60)));
    [cbn; tauto|assumption..|]. clear v. intros v H.
  destruct v as [| | | |vs| |]; try contradiction.
  destruct vs as [|version vs]; [contradiction|].
  assert (Hrest : exists number this rest, vs = Some (VBytes number) :: Some (VBytes this) :: rest /\ bytes number).
  { assert (H' : match vs with Some (VBytes n) :: Some (VBytes t') :: _ => bytes n | _ => False end).
    { destruct version; destruct H as (_ & H); (destruct vs as [|[x|] vs]; [contradiction| |destruct H; lia]);
        destruct H as (H1 & H); destruct x; try contradiction; (destruct vs as [|[y|] vs]; [contradiction| |destruct H; lia]);
        destruct H as (H2 & H); destruct y; try contradiction; assumption. }
    destruct vs as [|[[n| | | | | |]|] [|[[t'| | | | | |]|] rest]]; try contradiction. exists n, t', rest. split; [reflexivity|assumption]. }
  destruct Hrest as (number & this & rest & -> & Hnum). destruct version as [ver|].
  - split; intros _; [|reflexivity]. eexists _, _, _, _. split; [reflexivity|discriminate].
  - assert (E : check nobuf k_Manifest (VSeq (None :: Some (VBytes number) :: Some (VBytes this) :: rest))
      = match (match number with [] => Pass | b :: _ => if Z.land b 128 =? 0 then Pass else Reject end) with
        | Pass => match asn_GT2time this with Ok (Some _) => Pass | Ok None => Reject | _ => Aborts end
        | r => r end) by reflexivity.
    rewrite E. clear E.
    assert (E : (match number with [] => Pass | b :: _ => if Z.land b 128 =? 0 then Pass else Reject end) = Pass
                <-> (number = [] \/ exists b number', number = b :: number' /\ b < 128)).
    { destruct number as [|b number]; [tauto|]. inversion Hnum as [|x l Hx Hl]; subst. unfold is_byte in Hx.
      rewrite land128 by assumption. destruct (Z.ltb_spec b 128).
      - split; [|reflexivity]. intros _. right. eauto.
      - split; [discriminate|]. intros [H'|(x & l & E & Hlt)]; [discriminate|]. injection E as <- <-. lia. }
    assert (F : match asn_GT2time this with Ok (Some _) => Pass | Ok None => Reject | _ => Aborts end = Pass
                <-> exists y mo d h mi s, gt_text this y mo d h mi s /\ 1 <= mo <= 12 /\ 1 <= d <= 31 /\ h <= 23 /\ s <= 60).
    { destruct (gt_cases this) as [Q'|(y & mo & d & h & mi & se & Ht & Hr & ->)].
      - rewrite Q'. split; [discriminate|]. intros (y & mo & d & h & mi & s & Ht & Hr). pose proof (gt_complete _ _ _ _ _ _ _ Ht Hr) as Q.
        rewrite Q in Q'. discriminate.
      - split; [|reflexivity]. intros _. exists y, mo, d, h, mi, se. split; [assumption|exact Hr]. }
    destruct (match number with [] => Pass | b :: _ => if Z.land b 128 =? 0 then Pass else Reject end).
    + rewrite F. split.
      * intros Hf. eexists _, _, _, _. split; [reflexivity|]. intros _. split; [apply E; reflexivity|assumption].
      * intros (v1 & n1 & t1 & r1 & Ev & Hc). injection Ev as <- <- <- <-. apply (Hc eq_refl).
    + split; [discriminate|]. intros (v1 & n1 & t1 & r1 & Ev & Hc). injection Ev as <- <- <- <-. apply E. apply (Hc eq_refl).
    + split; [discriminate|]. intros (v1 & n1 & t1 & r1 & Ev & Hc). injection Ev as <- <- <- <-. apply E. apply (Hc eq_refl).
Qed.

(** The type of a CMS object must be there. *)
Theorem C66_content_info nobuf turns bs v : bytes bs -> (2 <= turns)%nat ->
  asn1_decode nobuf turns t_ContentInfo k_ContentInfo bs = Accepted v <->
  exists n, (n <= length bs)%nat /\ enc t_ContentInfo 0 (firstn n bs) v
    /\ exists b type rest, v = VSeq (Some (VBytes (b :: type)) :: rest).
Proof.
  intros Hb Hturns.
  apply (exact_with nobuf turns t_ContentInfo k_ContentInfo (fun v => exists b type rest, v = VSeq (Some (VBytes (b :: type)) :: rest)));
    [cbn; tauto|assumption..|]. clear v. intros v H.
  destruct v as [| | | |vs| |]; try contradiction. destruct vs as [|[x|] vs]; [contradiction| |destruct H; lia].
  destruct H as (H & _). destruct x as [type| | | | | |]; try contradiction. destruct type as [|b type].
  - split; [discriminate|]. intros (b & type & rest & E). discriminate.
  - split; [|reflexivity]. intros _. eauto.
Qed.

Theorem C66_object_identifier nobuf turns bs v : bytes bs -> (2 <= turns)%nat ->
  asn1_decode nobuf turns t_OBJECT_IDENTIFIER k_OBJECT_IDENTIFIER bs = Accepted v <->
  exists n, (n <= length bs)%nat /\ enc t_OBJECT_IDENTIFIER 0 (firstn n bs) v /\ exists b oid, v = VBytes (b :: oid).
Proof.
  intros Hb Hturns.
  apply (exact_with nobuf turns t_OBJECT_IDENTIFIER k_OBJECT_IDENTIFIER (fun v => exists b oid, v = VBytes (b :: oid)));
    [cbn; tauto|assumption..|]. clear v. intros v H.
  destruct v as [oid| | | | | |]; try contradiction. destruct oid as [|b oid].
  - split; [discriminate|]. intros (b & oid & E). discriminate.
  - split; [|reflexivity]. intros _. eauto.
Qed.

(** The IP resources: each address family has two or three octets.  (And, when
    empty bit strings come without a buffer, there is no empty prefix, and no
    range begins with one.) *)
Definition empty_prefix (v : value) : Prop :=
  match v with
  | VChoice 0 (VBits [] _) => True
  | VChoice 1 (VSeq (Some (VBits [] _) :: _)) => True
  | _ => False
  end.

Definition family_fine (nobuf : bool) (v : value) : Prop :=
  exists family blocks, v = VSeq [Some (VBytes family); Some blocks] /\ (2 <= length family <= 3)%nat
    /\ (nobuf = true -> forall vs, blocks = VChoice 1 (VOf vs) -> forall x, In x vs -> ~ empty_prefix x).

Lemma bits_check nobuf bs u raw : bit_string raw u bs ->
  check nobuf KBits (VBits bs u) = if (length bs =? 0)%nat && nobuf then Reject else Pass.
Proof.
  intros H. cbn [check]. destruct ((length bs =? 0)%nat && nobuf) eqn:E; [reflexivity|].
  destruct H as [|bs b u Hu].
  - reflexivity.
  - rewrite app_length. cbn [length]. replace (length bs + 1 =? 0)%nat with false by (symmetry; apply Nat.eqb_neq; lia).
    destruct (Z.ltb_spec u 0); [lia|]. destruct (Z.ltb_spec 7 u); [lia|]. reflexivity.
Qed.

Lemma entry_check nobuf x : shaped t_IPAddressOrRange x ->
  (check nobuf k_IPAddressOrRange x = Pass /\ (nobuf = true -> ~ empty_prefix x))
  \/ (check nobuf k_IPAddressOrRange x = Reject /\ nobuf = true /\ empty_prefix x).
Proof.
  intros H. destruct x as [| | | | | |k x]; try contradiction. destruct k as [|[|k]]; [| |destruct k; contradiction].
  - destruct x as [|bs u| | | | |]; try contradiction. destruct H as (_ & raw & H).
    change (check nobuf k_IPAddressOrRange (VChoice 0 (VBits bs u))) with (check nobuf KBits (VBits bs u)).
    rewrite (bits_check nobuf bs u raw H). destruct bs, nobuf; cbn; intuition discriminate.
  - destruct x as [| | | |vs| |]; try contradiction. destruct vs as [|[x|] vs]; [contradiction| |destruct H; lia].
    destruct H as (H & _). destruct x as [|bs u| | | | |]; try contradiction. destruct H as (_ & raw & H).
    change (check nobuf k_IPAddressOrRange (VChoice 1 (VSeq (Some (VBits bs u) :: vs)))) with (check nobuf KBits (VBits bs u)).
    rewrite (bits_check nobuf bs u raw H). destruct bs, nobuf; cbn; intuition discriminate.
Qed.

Lemma choice_check nobuf blocks : shaped t_IPAddressChoice blocks ->
  (check nobuf k_IPAddressChoice blocks = Pass
   /\ (nobuf = true -> forall vs, blocks = VChoice 1 (VOf vs) -> forall x, In x vs -> ~ empty_prefix x))
  \/ (check nobuf k_IPAddressChoice blocks = Reject
      /\ nobuf = true /\ exists vs x, blocks = VChoice 1 (VOf vs) /\ In x vs /\ empty_prefix x).
Proof.
  intros H. destruct blocks as [| | | | | |k v]; try contradiction. destruct k as [|[|k]]; [| |destruct k; contradiction].
  - left. split; [reflexivity|]. intros _ vs E. discriminate.
  - change (shaped t_IPAddressChoice_addressesOrRanges v) in H.
    change (check nobuf k_IPAddressChoice (VChoice 1 v)) with (check nobuf k_IPAddressChoice_addressesOrRanges v).
    destruct v as [| | | | |vs|]; try contradiction.
    induction vs as [|x vs IH].
    + left. split; [reflexivity|]. intros _ vs E. injection E as <-. intros x [].
    + destruct H as (H1 & H2). specialize (IH H2).
      change (check nobuf k_IPAddressChoice_addressesOrRanges (VOf (x :: vs)))
        with (match check nobuf k_IPAddressOrRange x with Pass => check nobuf k_IPAddressChoice_addressesOrRanges (VOf vs) | r => r end).
      destruct (entry_check nobuf x H1) as [(-> & Hx)|(-> & Hn & Hx)].
      * destruct IH as [(-> & IH)|(-> & Hn & vs' & x' & E & Hin & He)].
        -- left. split; [reflexivity|]. intros Hn vs' E. injection E as <-. intros y [<-|Hy]; [auto|]. apply (IH Hn vs eq_refl y Hy).
        -- injection E as <-. right. split; [reflexivity|]. split; [assumption|]. exists (x :: vs), x'. split; [reflexivity|].
           split; [right; assumption|assumption].
      * right. split; [reflexivity|]. split; [assumption|]. exists (x :: vs), x. split; [reflexivity|].
        split; [left; reflexivity|assumption].
Qed.

Lemma family_check nobuf v : shaped t_IPAddressFamily v ->
  (check nobuf k_IPAddressFamily v = Pass /\ family_fine nobuf v) \/ (check nobuf k_IPAddressFamily v = Reject /\ ~ family_fine nobuf v).
Proof.
  intros H. destruct v as [| | | |vs| |]; try contradiction. destruct vs as [|[x|] vs]; [contradiction| |destruct H; lia].
  destruct H as (Hx & H). destruct x as [family| | | | | |]; try contradiction.
  destruct vs as [|[blocks|] vs]; [contradiction| |destruct H; lia]. destruct H as (Hc & H). destruct vs as [|y vs]; [|contradiction].
  change (check nobuf k_IPAddressFamily (VSeq [Some (VBytes family); Some blocks]))
    with (match (if (2 <=? length family)%nat && (length family <=? 3)%nat then Pass else Reject) with
          | Pass => check nobuf k_IPAddressChoice blocks | r => r end).
  destruct (Nat.leb_spec 2 (length family)); cbn [andb].
  2: { right. split; [reflexivity|]. intros (f & b & E & Hl & _). injection E as <- <-. lia. }
  destruct (Nat.leb_spec (length family) 3).
  2: { right. split; [reflexivity|]. intros (f & b & E & Hl & _). injection E as <- <-. lia. }
  destruct (choice_check nobuf blocks Hc) as [(-> & Hb)|(-> & Hn & vs & x & E & Hin & He)].
  - left. split; [reflexivity|]. exists family, blocks. split; [reflexivity|]. split; [lia|assumption].
  - right. split; [reflexivity|]. intros (f & b & E' & _ & Hb). injection E' as <- <-. exact (Hb Hn vs E x Hin He).
Qed.

Lemma blocks_check nobuf v : shaped t_IPAddrBlocks v ->
  exists vs, v = VOf vs /\ ((check nobuf k_IPAddrBlocks v = Pass /\ Forall (family_fine nobuf) vs)
                          \/ (check nobuf k_IPAddrBlocks v = Reject /\ ~ Forall (family_fine nobuf) vs)).
Proof.
  intros H. destruct v as [| | | | |vs|]; try contradiction. exists vs. split; [reflexivity|].
  induction vs as [|x vs IH]; [left; split; [reflexivity|constructor]|]. destruct H as (H1 & H2). specialize (IH H2).
  change (check nobuf k_IPAddrBlocks (VOf (x :: vs)))
    with (match check nobuf k_IPAddressFamily x with Pass => check nobuf k_IPAddrBlocks (VOf vs) | r => r end).
  destruct (family_check nobuf x H1) as [(-> & Hx)|(-> & Hx)].
  - destruct IH as [(-> & IH)|(-> & IH)]; [left|right]; (split; [reflexivity|]).
    + constructor; assumption.
    + intros F. inversion F; subst. contradiction.
  - right. split; [reflexivity|]. intros F. inversion F; subst. contradiction.
Qed.

Theorem C66_ip_blocks nobuf turns bs v : bytes bs -> (2 <= turns)%nat ->
  asn1_decode nobuf turns t_IPAddrBlocks k_IPAddrBlocks bs = Accepted v <->
  exists n, (n <= length bs)%nat /\ enc t_IPAddrBlocks 0 (firstn n bs) v
    /\ exists vs, v = VOf vs /\ Forall (family_fine nobuf) vs.
Proof.
  intros Hb Hturns.
  apply (exact_with nobuf turns t_IPAddrBlocks k_IPAddrBlocks (fun v => exists vs, v = VOf vs /\ Forall (family_fine nobuf) vs));
    [cbn; tauto|assumption..|]. clear v. intros v H.
  destruct (blocks_check nobuf v H) as (vs & -> & [(-> & Hf)|(-> & Hf)]).
  - split; [|reflexivity]. intros _. eauto.
  - split; [discriminate|]. intros (vs' & E & Hf'). injection E as <-. contradiction.
Qed.

(** Nothing a repository contains makes the process die here. *)
Theorem C66_never_crashes nobuf turns t k bs : In (t, k) decoded_with -> bytes bs -> (2 <= turns)%nat ->
  asn1_decode nobuf turns t k bs <> Crash.
Proof.
  intros Ht Hb Hturns. unfold asn1_decode.
  destruct (ber_decode turns t bs) as [n v| | |] eqn:E; [|discriminate| |discriminate].
  2: { apply C64_decoder_in_bounds in E; [contradiction|apply decoded_with_in in Ht; assumption|assumption]. }
  apply C64_decoder_exact in E; [|apply decoded_with_in in Ht; assumption|assumption|assumption].
  destruct E as (Hn & Henc). apply enc_shaped in Henc; [|apply bytes_firstn; assumption].
  enough (check nobuf k v <> Aborts) by (destruct (check nobuf k v); congruence).
  cbn [In decoded_with] in Ht. repeat (destruct Ht as [Ht|Ht]; [injection Ht as <- <-|]); [| | | | | | | | |contradiction].
  - rewrite roa_check by assumption. discriminate.
  - destruct v as [| | | |vs| |]; try contradiction.
    destruct vs as [|[version|] vs]; [contradiction|discriminate|]. destruct Henc as (_ & H).
    destruct vs as [|[x|] vs]; [contradiction| |destruct H; lia]. destruct H as (H1 & H). destruct x as [number| | | | | |]; try contradiction.
    destruct vs as [|[y|] vs]; [contradiction| |destruct H; lia]. destruct H as (H2 & H). destruct y as [this| | | | | |]; try contradiction.
    change (check nobuf k_Manifest (VSeq (None :: Some (VBytes number) :: Some (VBytes this) :: vs)))
      with (match (match number with [] => Pass | b :: _ => if Z.land b 128 =? 0 then Pass else Reject end) with
        | Pass => match asn_GT2time this with Ok (Some _) => Pass | Ok None => Reject | _ => Aborts end
        | r => r end).
    destruct (gt_cases this) as [->|(? & ? & ? & ? & ? & ? & _ & _ & ->)];
      (destruct number as [|b number]; [|destruct (Z.land b 128 =? 0)]); discriminate.
  - destruct (blocks_check nobuf v Henc) as (vs & -> & [(-> & _)|(-> & _)]); discriminate.
  - rewrite asidentifiers_check by assumption. discriminate.
  - destruct v as [| | | |vs| |]; try contradiction. destruct vs as [|[x|] vs]; [contradiction| |destruct Henc; lia].
    destruct Henc as (H & _). destruct x as [type| | | | | |]; try contradiction. destruct type; discriminate.
  - rewrite signed_data_check by assumption. discriminate.
  - rewrite signed_data_pkcs7_check by assumption. discriminate.
  - destruct v as [oid| | | | | |]; try contradiction. destruct oid; discriminate.
  - discriminate.
Qed.

(** The full property would be: whatever is accepted satisfies the constraints
    of its ASN.1 module.  It does not.  A ROA without addresses, and a manifest
    whose nextUpdate is "x", whose hash algorithm is empty and whose file name
    is not ASCII: *)
Definition ex_no_addresses : list Z := [48; 5; 2; 1; 1; 48; 0].
Definition ex_wild_manifest : list Z :=
  [48; 34; 2; 1; 7] ++ [24; 15; 50; 48; 50; 54; 48; 49; 48; 49; 48; 48; 48; 48; 48; 48; 90] ++ [24; 1; 120] ++ [6; 0]
  ++ [48; 7; 48; 5; 22; 1; 200; 3; 0].

Theorem C66_constraints_refuted :
  exists v w, asn1_decode false 2 t_RouteOriginAttestation k_RouteOriginAttestation ex_no_addresses = Accepted v
    /\ ~ satisfies k_RouteOriginAttestation v
    /\ asn1_decode false 2 t_Manifest k_Manifest ex_wild_manifest = Accepted w
    /\ ~ satisfies k_Manifest w.
Proof.
  eexists _, _. split; [vm_compute; reflexivity|]. split; [cbn; lia|]. split; [vm_compute; reflexivity|].
  intros H. cbn in H. destruct H as (_ & _ & _ & _ & _ & _ & _ & _ & H & _). congruence.
Qed.

(** A manifest without version whose thisUpdate is not a time is refused; with
    a version it is accepted. *)
Example C66_example :
  asn1_decode false 2 t_Manifest k_Manifest ([48; 19; 2; 1; 7; 24; 1; 120; 24; 1; 120; 6; 0; 48; 6; 48; 4; 22; 0; 3; 0]) = Refused
  /\ (exists v, asn1_decode false 2 t_Manifest k_Manifest ([48; 24; 160; 3; 2; 1; 0; 2; 1; 7; 24; 1; 120; 24; 1; 120; 6; 0; 48; 6; 48; 4; 22; 0; 3; 0]) = Accepted v)
  /\ (exists v, asn1_decode false 2 t_IPAddrBlocks k_IPAddrBlocks [48; 10; 48; 8; 4; 2; 0; 1; 48; 2; 3; 0] = Accepted v)
  /\ asn1_decode true 2 t_IPAddrBlocks k_IPAddrBlocks [48; 10; 48; 8; 4; 2; 0; 1; 48; 2; 3; 0] = Refused
  /\ asn1_decode false 2 t_IPAddrBlocks k_IPAddrBlocks [48; 9; 48; 7; 4; 1; 1; 48; 2; 3; 0] = Refused.
Proof. split; [vm_compute; reflexivity|]. split; [eexists; vm_compute; reflexivity|]. split; [eexists; vm_compute; reflexivity|]. split; vm_compute; reflexivity. Qed.

Print Assumptions C66_unchecked.
Print Assumptions C66_manifest.
Print Assumptions C66_content_info.
Print Assumptions C66_object_identifier.
Print Assumptions C66_ip_blocks.
Print Assumptions C66_never_crashes.
Print Assumptions C66_constraints_refuted.
