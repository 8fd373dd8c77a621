(** Lemmas about the BER model: walking a SignedData; the DER serialisers. *)
From Verif Require Import Base BaseLemmas PduWireProofs Ber BerSpec BerProofs BerProofs2 BerProofs3.

Notation length := List.length.

Lemma skipn_plus {A} (l : list A) a b : skipn (a + b) l = skipn b (skipn a l).
Proof.
  revert l. induction a as [|a IH]; intros l; [reflexivity|]. destruct l; [cbn [plus skipn]; rewrite skipn_nil; reflexivity|].
  cbn [plus skipn]. apply IH.
Qed.

Lemma nth_error_skipn {A} (l : list A) n : nth_error l n = nth_error (skipn n l) 0.
Proof.
  revert l. induction n as [|n IH]; intros l; [reflexivity|]. destruct l; [reflexivity|]. cbn [nth_error skipn]. apply IH.
Qed.

(** [r] is what remains of the object at position [p]; [slack] follows it. *)
Definition pos_at (mem slack : list Z) (p : progress) (r : list Z) : Prop :=
  skipn (p_offset p) mem = r ++ slack /\ p_remaining p = length r.

Section Walk.
  Variables (mem slack : list Z).
  Hypothesis Hslack : bytes slack.
  Hypothesis Hslack1 : slack <> [].

  Lemma at_forward p a r n : pos_at mem slack p (a ++ r) -> n = length a ->
    pos_at mem slack {| p_offset := (p_offset p + n)%nat; p_remaining := (p_remaining p - n)%nat |} r.
  Proof.
    intros [H1 H2] ->. split; cbn [p_offset p_remaining].
    - rewrite skipn_plus, H1, <- app_assoc, skipn_app_exact. reflexivity.
    - rewrite H2, app_length. lia.
  Qed.

  Lemma skip_t_complete p t r : pos_at mem slack p (t :: r) -> exists p', skip_t mem p t = Ok p' /\ pos_at mem slack p' r.
  Proof.
    intros [H1 H2]. unfold skip_t. rewrite nth_error_skipn, H1. cbn [app nth_error]. rewrite Z.eqb_refl. cbn [negb].
    destruct (Nat.eqb_spec (p_remaining p) 0); [rewrite H2 in *; discriminate|].
    eexists; split; [reflexivity|]. rewrite <- Nat.add_1_r. apply (at_forward p [t] r); [split; assumption|reflexivity].
  Qed.
  Lemma skip_t_sound p t r p' : pos_at mem slack p r -> skip_t mem p t = Ok p' -> exists r', r = t :: r' /\ pos_at mem slack p' r'.
  Proof.
    intros [H1 H2]. unfold skip_t. rewrite nth_error_skipn, H1.
    destruct r as [|b r]; cbn [app].
    - destruct slack; [contradiction|]. cbn [nth_error]. destruct (negb _); [discriminate|]. rewrite H2. discriminate.
    - cbn [nth_error]. destruct (Z.eqb_spec b t) as [->|]; cbn [negb]; [|discriminate].
      destruct (Nat.eqb_spec (p_remaining p) 0); [discriminate|]. intros E; injection E as <-.
      exists r. split; [reflexivity|]. rewrite <- Nat.add_1_r. apply (at_forward p [t] r); [split; assumption|reflexivity].
  Qed.
  Lemma skip_t_no_ub p t r : pos_at mem slack p r -> skip_t mem p t = Err EINVAL \/ exists p', skip_t mem p t = Ok p'.
  Proof.
    intros [H1 H2]. unfold skip_t. rewrite nth_error_skipn, H1.
    destruct (nth_error (r ++ slack) 0) eqn:E.
    - destruct (negb _); [auto|]. destruct (_ =? _)%nat; eauto.
    - exfalso. apply nth_error_None in E. rewrite app_length in E. destruct slack; [contradiction|cbn [length] in E; lia].
  Qed.

  Lemma skip_tl_complete p t L v r : bytes r -> length_octets true L v -> length_fits v ->
    pos_at mem slack p (t :: L ++ r) -> exists p', skip_tl mem p t = Ok p' /\ pos_at mem slack p' r.
  Proof.
    intros Hr HL Hf H. destruct (skip_t_complete _ _ _ H) as [p1 [E H1]]. unfold skip_tl. rewrite E.
    pose proof H1 as [A B]. rewrite A, <- app_assoc.
    rewrite (fetch_length_complete true L v); [|left; assumption|apply Forall_app; auto|rewrite B, !app_length; lia].
    destruct v as [v|]; [cbn in Hf; destruct (Z.ltb_spec v 4611686018427387904); [|lia]|];
      (eexists; split; [reflexivity|]; apply (at_forward p1 L r); [exact H1|reflexivity]).
  Qed.
  Lemma skip_tl_sound p t r p' : bytes r -> pos_at mem slack p r -> skip_tl mem p t = Ok p' ->
    exists L v r', r = t :: L ++ r' /\ length_octets true L v /\ length_fits v /\ pos_at mem slack p' r'.
  Proof.
    intros Hr H. unfold skip_tl. destruct (skip_t mem p t) as [p1| |] eqn:E; try discriminate.
    destruct (skip_t_sound _ _ _ _ H E) as (r1 & -> & H1).
    inversion Hr as [|? ? _ Hr1]; subst. pose proof H1 as [A B]. rewrite A.
    destruct (ber_fetch_length true (r1 ++ slack) (p_remaining p1)) as [q| |] eqn:El; try discriminate.
    destruct q as [| |n v]; try discriminate.
    destruct (fetch_length_sound true (r1 ++ slack) (p_remaining p1) n v) as (o & -> & Ha & Hf & Hn);
      [apply Forall_app; auto|rewrite B, app_length; lia|exact El|].
    intros G; injection G as <-. rewrite B in Hn.
    assert (Ef : firstn n (r1 ++ slack) = firstn n r1).
    { rewrite firstn_app. replace (n - length r1)%nat with 0%nat by lia. cbn [firstn]. apply app_nil_r. }
    rewrite Ef in Ha. exists (firstn n r1), o, (skipn n r1). rewrite firstn_skipn.
    split; [reflexivity|]. split; [destruct Ha as [Ha|[Ha _]]; [exact Ha|discriminate]|]. split; [exact Hf|].
    apply (at_forward p1 (firstn n r1) (skipn n r1)); [rewrite firstn_skipn; exact H1|rewrite firstn_length_le by lia; reflexivity].
  Qed.
  Lemma skip_tl_no_ub p t r : bytes r -> pos_at mem slack p r -> skip_tl mem p t = Err EINVAL \/ exists p', skip_tl mem p t = Ok p'.
  Proof.
    intros Hr H. unfold skip_tl. destruct (skip_t_no_ub p t r H) as [->|[p1 E]]; [auto|]. rewrite E.
    destruct (skip_t_sound _ _ _ _ H E) as (r1 & -> & H1). inversion Hr as [|? ? _ Hr1]; subst. pose proof H1 as [A B]. rewrite A.
    destruct (fetch_length_total true (r1 ++ slack) (p_remaining p1)) as [q Eq];
      [apply Forall_app; auto|rewrite B, app_length; lia|]. rewrite Eq. destruct q; eauto.
  Qed.

  Variable frames : nat.

  Lemma skip_tlv_complete p t X r : bytes r -> lv (constructed_bit t) X ->
    (length X < frames)%nat -> Z.of_nat (length X) <= 2147483647 ->
    pos_at mem slack p (t :: X ++ r) -> exists p', skip_tlv frames mem p t = Ok p' /\ pos_at mem slack p' r.
  Proof.
    intros Hr HX Hfr Hi H. destruct (skip_t_complete _ _ _ H) as [p1 [E H1]]. unfold skip_tlv.
    pose proof H as [A0 B0]. rewrite nth_error_skipn, A0. cbn [app nth_error]. rewrite E.
    pose proof H1 as [A B]. rewrite A, <- app_assoc.
    rewrite (proj1 skip_complete _ _ HX); [|apply Forall_app; auto|assumption|rewrite B, !app_length; lia].
    destruct (Z.leb_spec (Z.of_nat (length X)) 2147483647); [|lia].
    eexists; split; [reflexivity|]. apply (at_forward p1 X r); [exact H1|reflexivity].
  Qed.
  Lemma skip_tlv_sound p t r p' : bytes r -> pos_at mem slack p r -> skip_tlv frames mem p t = Ok p' ->
    exists X r', r = t :: X ++ r' /\ lv (constructed_bit t) X /\ pos_at mem slack p' r'.
  Proof.
    intros Hr H. unfold skip_tlv. destruct (nth_error mem (p_offset p)) as [b0|] eqn:E0; [|discriminate].
    destruct (skip_t mem p t) as [p1| |] eqn:E; try discriminate.
    destruct (skip_t_sound _ _ _ _ H E) as (r1 & -> & H1). 
    assert (b0 = t) by (destruct H as [A0 _]; rewrite nth_error_skipn, A0 in E0; cbn in E0; congruence). subst b0.
    inversion Hr as [|? ? _ Hr1]; subst. pose proof H1 as [A B]. rewrite A.
    destruct (ber_skip_length frames (constructed_bit t) (r1 ++ slack) (p_remaining p1)) as [q| |] eqn:El; try discriminate.
    destruct q as [| |n []]; try discriminate.
    apply skip_sound in El; [|apply Forall_app; auto|rewrite B, app_length; lia]. destruct El as [Hn Hlv]. rewrite B in Hn.
    destruct (Z.leb_spec (Z.of_nat n) 2147483647); [|discriminate].
    intros G; injection G as <-.
    assert (Ef : firstn n (r1 ++ slack) = firstn n r1).
    { rewrite firstn_app. replace (n - length r1)%nat with 0%nat by lia. cbn [firstn]. apply app_nil_r. }
    rewrite Ef in Hlv. exists (firstn n r1), (skipn n r1). rewrite firstn_skipn.
    split; [reflexivity|]. split; [exact Hlv|].
    apply (at_forward p1 (firstn n r1) (skipn n r1)); [rewrite firstn_skipn; exact H1|rewrite firstn_length_le by lia; reflexivity].
  Qed.
  Lemma skip_tlv_no_ub p t r : bytes r -> (length r < frames)%nat -> Z.of_nat (length r) <= 2147483647 ->
    pos_at mem slack p r -> skip_tlv frames mem p t = Err EINVAL \/ exists p', skip_tlv frames mem p t = Ok p'.
  Proof.
    intros Hr Hfr Hi H. unfold skip_tlv.
    destruct (nth_error mem (p_offset p)) as [b0|] eqn:E0.
    2:{ exfalso. destruct H as [A0 _]. rewrite nth_error_skipn, A0 in E0. apply nth_error_None in E0.
        rewrite app_length in E0. destruct slack; [contradiction|cbn [length] in E0; lia]. }
    destruct (skip_t_no_ub p t r H) as [->|[p1 E]]; [auto|]. rewrite E.
    destruct (skip_t_sound _ _ _ _ H E) as (r1 & -> & H1). inversion Hr as [|? ? _ Hr1]; subst. pose proof H1 as [A B]. rewrite A.
    cbn [length] in Hfr, Hi.
    destruct (skip_total frames (constructed_bit b0) (r1 ++ slack) (p_remaining p1)) as [q Eq];
      [apply Forall_app; auto|rewrite B, app_length; lia|rewrite B; lia|]. rewrite Eq.
    destruct q as [| |n []]; [auto|auto|].
    apply skip_sound in Eq; [|apply Forall_app; auto|rewrite B, app_length; lia]. destruct Eq as [Hn _].
    destruct (Z.leb_spec (Z.of_nat n) 2147483647); [eauto|lia].
  Qed.
End Walk.

Lemma bytes_app a b : bytes (a ++ b) -> bytes a /\ bytes b.
Proof. apply Forall_app. Qed.

Lemma length_octets_bytes c L v : length_octets c L v -> bytes L.
Proof. intros H. apply (accepted_bytes c L v). left; exact H. Qed.

(** ** The walk finds the signed attributes, and nothing else. *)
Lemma find_sound frames content nul n off : bytes content -> bytes nul -> nul <> [] ->
  find_signedAttrs frames (content ++ nul) (length content) = Ok (off, n) ->
  exists L v rest, signed_attributes_at content L v rest /\ n = code v + Z.of_nat (length L) /\
    skipn off (content ++ nul) = L ++ rest ++ nul.
Proof.
  intros Hc Hn Hn1. unfold find_signedAttrs.
  assert (H0 : pos_at (content ++ nul) nul {| p_offset := 0; p_remaining := length content |} content) by (split; reflexivity).
  generalize dependent {| p_offset := 0; p_remaining := length content |}. intros p0 H0. cbn zeta. unfold bind.
  destruct (skip_tl _ p0 48) as [p1| |] eqn:E1; try discriminate.
  apply (skip_tl_sound _ nul Hn Hn1 _ _ content) in E1; [|assumption|assumption].
  destruct E1 as (L1 & v1 & r1 & -> & HL1 & Hf1 & H1). inversion Hc as [|? ? _ Hc1]; subst. apply bytes_app in Hc1. destruct Hc1 as [_ Hc1].
  clear H0. set (M := (48 :: L1 ++ r1) ++ nul) in *.
  Ltac tlvstep Hn Hn1 H Hb E p' X r Hlv H' :=
    match goal with |- context [skip_tlv ?f ?m ?p ?t] =>
      destruct (skip_tlv f m p t) as [p'| |] eqn:E; try discriminate;
      eapply (skip_tlv_sound _ _ Hn Hn1) in E; [|exact Hb|exact H];
      destruct E as (X & r & -> & Hlv & H');
      inversion Hb as [|? ? _ Hb']; subst; clear Hb; rename Hb' into Hb; apply bytes_app in Hb; destruct Hb as [_ Hb]; clear H
    end.
  Ltac tlstep Hn Hn1 H Hb E p' L v r HL Hf H' :=
    match goal with |- context [skip_tl ?m ?p ?t] =>
      destruct (skip_tl m p t) as [p'| |] eqn:E; try discriminate;
      eapply (skip_tl_sound _ _ Hn Hn1) in E; [|exact Hb|exact H];
      destruct E as (L & v & r & -> & HL & Hf & H');
      inversion Hb as [|? ? _ Hb']; subst; clear Hb; rename Hb' into Hb; apply bytes_app in Hb; destruct Hb as [_ Hb]; clear H
    end.
  clearbody M. clear Hc.
  tlvstep Hn Hn1 H1 Hc1 E2 p2 X2 r2 G2 H2.
  tlvstep Hn Hn1 H2 Hc1 E3 p3 X3 r3 G3 H3.
  tlvstep Hn Hn1 H3 Hc1 E4 p4 X4 r4 G4 H4.
  tlvstep Hn Hn1 H4 Hc1 E5 p5 X5 r5 G5 H5.
  tlstep Hn Hn1 H5 Hc1 E6 p6 L6 v6 r6 G6 F6 H6.
  tlstep Hn Hn1 H6 Hc1 E7 p7 L7 v7 r7 G7 F7 H7.
  tlvstep Hn Hn1 H7 Hc1 E8 p8 X8 r8 G8 H8.
  tlvstep Hn Hn1 H8 Hc1 E9 p9 X9 r9 G9 H9.
  tlvstep Hn Hn1 H9 Hc1 E10 p10 X10 r10 G10 H10.
  destruct (skip_t M p10 160) as [p11| |] eqn:E11; try discriminate.
  eapply (skip_t_sound _ _ Hn Hn1) in E11; [|eassumption]. destruct E11 as (r11 & -> & H11).
  inversion Hc1 as [|? ? _ Hc2]; subst.
  pose proof H11 as [A B].
  destruct (ber_fetch_length true (skipn (p_offset p11) M) (p_remaining p11)) as [q| |] eqn:El; try discriminate.
  destruct q as [| |k v]; try discriminate. rewrite A in El.
  destruct (fetch_length_sound true (r11 ++ nul) (p_remaining p11) k v) as (o & -> & Ha & Hf & Hk);
    [apply Forall_app; auto|rewrite B, app_length; lia|exact El|].
  intros G; injection G as <- <-. rewrite B in Hk.
  assert (Ef : firstn k (r11 ++ nul) = firstn k r11).
  { rewrite firstn_app. replace (k - length r11)%nat with 0%nat by lia. cbn [firstn]. apply app_nil_r. }
  rewrite Ef in Ha. destruct Ha as [Ha|[Ha _]]; [|discriminate].
  exists (firstn k r11), o, (skipn k r11).
  split; [|split; [rewrite firstn_length_le by lia; reflexivity|rewrite A, app_assoc, firstn_skipn; reflexivity]].
  exists (48 :: L1), (2 :: X2), (49 :: X3), (48 :: X4), (160 :: X5), (49 :: L6), (48 :: L7), (2 :: X8), (128 :: X9), (48 :: X10).
  split; [rewrite firstn_skipn; cbn [app]; rewrite <- ?app_assoc; cbn [app]; reflexivity|].
  change (constructed_bit 2) with false in *. change (constructed_bit 49) with true in *.
  change (constructed_bit 48) with true in *. change (constructed_bit 160) with true in *.
  change (constructed_bit 128) with false in *.
  unfold header, field. repeat split; eauto 6.
Qed.

Lemma find_complete frames content nul L v rest : bytes content -> bytes nul -> nul <> [] ->
  (length content < frames)%nat -> Z.of_nat (length content) <= 2147483647 ->
  signed_attributes_at content L v rest ->
  exists off, find_signedAttrs frames (content ++ nul) (length content) = Ok (off, code v + Z.of_nat (length L)) /\
    skipn off (content ++ nul) = L ++ rest ++ nul.
Proof.
  intros Hc Hn Hn1 Hfr Hi (sd & ve & di & co & ce & is & io & iv & si & al & E & H1 & H2 & H3 & H4 & H5 & H6 & H7 & H8 & H9 & H10 & HL & Hf).
  destruct H1 as (L1 & v1 & -> & HL1 & Hf1). destruct H6 as (L6 & v6 & -> & HL6 & Hf6). destruct H7 as (L7 & v7 & -> & HL7 & Hf7).
  destruct H2 as (X2 & -> & H2). destruct H3 as (X3 & -> & H3). destruct H4 as (X4 & -> & H4). destruct H5 as (X5 & -> & H5).
  destruct H8 as (X8 & -> & H8). destruct H9 as (X9 & -> & H9). destruct H10 as (X10 & -> & H10).
  unfold find_signedAttrs.
  assert (H0 : pos_at (content ++ nul) nul {| p_offset := 0; p_remaining := length content |} content) by (split; reflexivity).
  generalize dependent {| p_offset := 0; p_remaining := length content |}. intros p0 H0. cbn zeta. unfold bind.
  rewrite E in H0 at 2. cbn [app] in H0.
  assert (Hlen : forall a X b, content = a ++ X ++ b -> (length X < frames)%nat /\ Z.of_nat (length X) <= 2147483647).
  { intros a X b Ex. rewrite Ex, !app_length in *. lia. }
  cbn [app] in E.
  assert (B0 := Hc). rewrite E in B0. inversion B0 as [|? ? _ B1]; subst x l. apply bytes_app in B1. destruct B1 as [_ B1].
  assert (LX2 : (length X2 < frames)%nat /\ Z.of_nat (length X2) <= 2147483647)
    by (eapply (Hlen (48 :: L1 ++ [2])); rewrite E; cbn [app]; rewrite <- !app_assoc; reflexivity).
  assert (LX3 : (length X3 < frames)%nat /\ Z.of_nat (length X3) <= 2147483647)
    by (eapply (Hlen (48 :: L1 ++ 2 :: X2 ++ [49])); rewrite E; cbn [app]; rewrite <- !app_assoc; cbn [app]; rewrite <- !app_assoc; reflexivity).
  assert (LX4 : (length X4 < frames)%nat /\ Z.of_nat (length X4) <= 2147483647)
    by (rewrite E in Hfr, Hi; repeat (cbn [length app] in Hfr, Hi; rewrite app_length in Hfr, Hi); lia).
  assert (LX5 : (length X5 < frames)%nat /\ Z.of_nat (length X5) <= 2147483647)
    by (rewrite E in Hfr, Hi; repeat (cbn [length app] in Hfr, Hi; rewrite app_length in Hfr, Hi); lia).
  assert (LX8 : (length X8 < frames)%nat /\ Z.of_nat (length X8) <= 2147483647)
    by (rewrite E in Hfr, Hi; repeat (cbn [length app] in Hfr, Hi; rewrite app_length in Hfr, Hi); lia).
  assert (LX9 : (length X9 < frames)%nat /\ Z.of_nat (length X9) <= 2147483647)
    by (rewrite E in Hfr, Hi; repeat (cbn [length app] in Hfr, Hi; rewrite app_length in Hfr, Hi); lia).
  assert (LX10 : (length X10 < frames)%nat /\ Z.of_nat (length X10) <= 2147483647)
    by (rewrite E in Hfr, Hi; repeat (cbn [length app] in Hfr, Hi; rewrite app_length in Hfr, Hi); lia).
  set (M := content ++ nul) in *. clearbody M. clear E Hlen Hfr Hi B0.
  Ltac nxt B := inversion B as [|? ? _ B']; subst; clear B; rename B' into B; apply bytes_app in B; destruct B as [_ B].
  destruct (skip_tl_complete M nul Hn p0 48 L1 v1 _ B1 HL1 Hf1 H0) as [p1 [-> P1]]. nxt B1.
  destruct (skip_tlv_complete M nul Hn frames p1 2 X2 _ B1 H2 (proj1 LX2) (proj2 LX2) P1) as [p2 [-> P2]]. nxt B1.
  destruct (skip_tlv_complete M nul Hn frames p2 49 X3 _ B1 H3 (proj1 LX3) (proj2 LX3) P2) as [p3 [-> P3]]. nxt B1.
  destruct (skip_tlv_complete M nul Hn frames p3 48 X4 _ B1 H4 (proj1 LX4) (proj2 LX4) P3) as [p4 [-> P4]]. nxt B1.
  destruct (skip_tlv_complete M nul Hn frames p4 160 X5 _ B1 H5 (proj1 LX5) (proj2 LX5) P4) as [p5 [-> P5]]. nxt B1.
  destruct (skip_tl_complete M nul Hn p5 49 L6 v6 _ B1 HL6 Hf6 P5) as [p6 [-> P6]]. nxt B1.
  destruct (skip_tl_complete M nul Hn p6 48 L7 v7 _ B1 HL7 Hf7 P6) as [p7 [-> P7]]. nxt B1.
  destruct (skip_tlv_complete M nul Hn frames p7 2 X8 _ B1 H8 (proj1 LX8) (proj2 LX8) P7) as [p8 [-> P8]]. nxt B1.
  destruct (skip_tlv_complete M nul Hn frames p8 128 X9 _ B1 H9 (proj1 LX9) (proj2 LX9) P8) as [p9 [-> P9]]. nxt B1.
  destruct (skip_tlv_complete M nul Hn frames p9 48 X10 _ B1 H10 (proj1 LX10) (proj2 LX10) P9) as [p10 [-> P10]]. nxt B1.
  destruct (skip_t_complete M nul p10 160 _ P10) as [p11 [-> [A B]]].
  rewrite A, <- app_assoc, B.
  rewrite (fetch_length_complete true L v); [|left; assumption|apply Forall_app; auto|rewrite !app_length; lia].
  destruct v as [v|]; [cbn in Hf; destruct (Z.ltb_spec v 4611686018427387904); [|lia]|];
    (eexists; split; [reflexivity|]; rewrite A, <- app_assoc; reflexivity).
Qed.

Lemma find_no_ub frames content nul : bytes content -> bytes nul -> nul <> [] ->
  (length content < frames)%nat -> Z.of_nat (length content) <= 2147483647 ->
  find_signedAttrs frames (content ++ nul) (length content) = Err EINVAL \/
  exists r, find_signedAttrs frames (content ++ nul) (length content) = Ok r.
Proof.
  intros Hc Hn Hn1 Hfr Hi. unfold find_signedAttrs.
  assert (H0 : pos_at (content ++ nul) nul {| p_offset := 0; p_remaining := length content |} content) by (split; reflexivity).
  generalize dependent {| p_offset := 0; p_remaining := length content |}. intros p0 H0. cbn zeta. unfold bind.
  generalize dependent (content ++ nul). intros M H0.
  Ltac tl_nub Hn Hn1 H Hb Hfr Hi :=
    match goal with |- context [skip_tl ?m ?p ?t] =>
      let E := fresh "E" in let p' := fresh "p" in
      destruct (skip_tl_no_ub m _ Hn Hn1 p t _ Hb H) as [E|[p' E]]; rewrite E; [left; reflexivity|];
      eapply (skip_tl_sound _ _ Hn Hn1) in E; [|exact Hb|exact H];
      let L := fresh "L" in let v := fresh "v" in let r := fresh "r" in let H' := fresh "H" in
      destruct E as (L & v & r & -> & _ & _ & H'); clear H; rename H' into H;
      cbn [length] in Hfr, Hi; rewrite app_length in Hfr, Hi;
      apply Forall_inv_tail in Hb; apply bytes_app in Hb; destruct Hb as [_ Hb];
      apply Nat.lt_succ_l, (Nat.le_lt_trans (length r)) in Hfr; [|lia];
      assert (Hi' : Z.of_nat (length r) <= 2147483647) by lia; clear Hi; rename Hi' into Hi
    end.
  Ltac tlv_nub Hn Hn1 H Hb Hfr Hi :=
    match goal with |- context [skip_tlv ?f ?m ?p ?t] =>
      let E := fresh "E" in let p' := fresh "p" in
      destruct (skip_tlv_no_ub m _ Hn Hn1 f p t _ Hb Hfr Hi H) as [E|[p' E]]; rewrite E; [left; reflexivity|];
      eapply (skip_tlv_sound _ _ Hn Hn1) in E; [|exact Hb|exact H];
      let X := fresh "X" in let r := fresh "r" in let H' := fresh "H" in
      destruct E as (X & r & -> & _ & H'); clear H; rename H' into H;
      cbn [length] in Hfr, Hi; rewrite app_length in Hfr, Hi;
      apply Forall_inv_tail in Hb; apply bytes_app in Hb; destruct Hb as [_ Hb];
      apply Nat.lt_succ_l, (Nat.le_lt_trans (length r)) in Hfr; [|lia];
      assert (Hi' : Z.of_nat (length r) <= 2147483647) by lia; clear Hi; rename Hi' into Hi
    end.
  tl_nub Hn Hn1 H0 Hc Hfr Hi.
  tlv_nub Hn Hn1 H0 Hc Hfr Hi.
  tlv_nub Hn Hn1 H0 Hc Hfr Hi.
  tlv_nub Hn Hn1 H0 Hc Hfr Hi.
  tlv_nub Hn Hn1 H0 Hc Hfr Hi.
  tl_nub Hn Hn1 H0 Hc Hfr Hi.
  tl_nub Hn Hn1 H0 Hc Hfr Hi.
  tlv_nub Hn Hn1 H0 Hc Hfr Hi.
  tlv_nub Hn Hn1 H0 Hc Hfr Hi.
  tlv_nub Hn Hn1 H0 Hc Hfr Hi.
  match goal with |- context [skip_t ?m ?p ?t] =>
    destruct (skip_t_no_ub m nul Hn Hn1 p t _ H0) as [E|[p' E]]; rewrite E; [left; reflexivity|];
    eapply (skip_t_sound _ _ Hn Hn1) in E; [|exact H0]; destruct E as (r' & -> & [A B]) end.
  rewrite A, B. apply Forall_inv_tail in Hc.
  destruct (fetch_length_total true (r' ++ nul) (length r')) as [q Eq]; [apply Forall_app; auto|rewrite app_length; lia|].
  rewrite Eq. destruct q; eauto.
Qed.
