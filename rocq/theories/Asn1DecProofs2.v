(** Primitive types and strings: the decoder accepts exactly the encodings of
    Asn1DecSpec.v. *)
From Coq Require Import Lia.
From Verif Require Import Base Ber BerSpec BerProofs BerProofs2 BerProofs4.
From Verif Require Import Asn1Dec Asn1DecSpec Asn1DecProofs.

(** ** Headers are read in one way *)

Lemma code_inj c c' L L' o o' : accepted_length c L o -> accepted_length c' L' o' -> code o = code o' -> o = o'.
Proof.
  intros H H' E. destruct o as [a|], o' as [b|]; cbn [code] in E; try congruence.
  - apply accepted_nonneg in H. lia.
  - apply accepted_nonneg in H'. lia.
Qed.

Lemma hdr_accepted e c o h : hdr e c o h -> exists L, accepted_length c L o.
Proof. intros (T & L & cl & num & _ & _ & _ & _ & H & _). exists L. assumption. Qed.

Lemma sees_unique bs tl ll tag len c tl' ll' tag' len' c' :
  sees bs tl ll tag len c -> sees bs tl' ll' tag' len' c' ->
  tl = tl' /\ ll = ll' /\ tag = tag' /\ len = len' /\ c = c'.
Proof.
  intros (E1 & (b0 & r & -> & H1) & E2) (F1 & (b0' & r' & E & H1') & F2).
  injection E as <- <-. rewrite E1 in F1. assert (c' = c) as -> by congruence.
  injection F1 as A B. subst tl' tag'. rewrite E2 in F2. injection F2 as A B. repeat split; congruence.
Qed.

Lemma hdr_unique e e' c c' o o' h h' r r' : hdr e c o h -> hdr e' c' o' h' -> h ++ r = h' ++ r' ->
  bytes r -> bytes r' -> h = h' /\ c = c' /\ o = o' /\ r = r'.
Proof.
  intros H H' E Br Br'.
  destruct (hdr_complete _ _ _ _ _ H Br) as (tl & ll & tag & S & _ & L & _).
  destruct (hdr_complete _ _ _ _ _ H' Br') as (tl' & ll' & tag' & S' & _ & L' & _).
  rewrite E in S. destruct (sees_unique _ _ _ _ _ _ _ _ _ _ _ S S') as (-> & -> & _ & C & ->).
  destruct (hdr_accepted _ _ _ _ H) as (Q & A). destruct (hdr_accepted _ _ _ _ H') as (Q' & A').
  assert (N : length h = length h') by lia.
  assert (h = h') by (rewrite <- (firstn_app_exact h r), <- (firstn_app_exact h' r'), E, N; reflexivity).
  subst h'. split; [reflexivity|]. split; [reflexivity|]. split; [eapply code_inj; eassumption|].
  apply app_inv_head in E. assumption.
Qed.

Lemma hdr_first e c o h : hdr e c o h -> exists b0 r, h = b0 :: r /\ constructed_bit b0 = c.
Proof.
  intros H. destruct (hdr_complete _ _ _ _ [] H) as (tl & ll & tag & (_ & (b0 & r & E & C) & _) & _); [constructor|].
  rewrite app_nil_r in E. exists b0, r. split; assumption.
Qed.

(** ** Primitive types *)

Lemma checkable_tags tags mode form : tags <> [] -> checkable tags mode form.
Proof. intros. left. assumption. Qed.

Lemma form_false : form_ok (Some false) false.
Proof. intros f E. congruence. Qed.
Lemma form_true : form_ok (Some true) true.
Proof. intros f E. congruence. Qed.
Lemma form_none c : form_ok None c.
Proof. intros f E. discriminate. Qed.

Lemma primitive_sound tags mode bs n v : bytes bs -> tags <> [] -> ber_decode_primitive tags mode bs = Done n v ->
  (n <= length bs)%nat /\ enc (TPrim tags) mode (firstn n bs) v.
Proof.
  intros Hb Ht E. unfold ber_decode_primitive in E.
  destruct (ber_check_tags tags mode (Some false) bs) as [m [len c]| | |] eqn:Ec; try discriminate.
  apply check_sound in Ec; [|assumption|apply checkable_tags; assumption].
  destruct Ec as (Hm & Hf & [(Hd & H0)|(-> & _)]); [|specialize (Hf _ eq_refl); discriminate].
  specialize (Hf _ eq_refl). subst c. cbn zeta in E.
  destruct (Z.ltb_spec (Z.of_nat (length (skipn m bs))) len) as [|Hl]; [discriminate|].
  destruct (Z.ltb_spec len 0); [discriminate|]. injection E as <- <-. rewrite skipn_length in Hl.
  split; [lia|]. rewrite firstn_plus. constructor.
  rewrite firstn_length, skipn_length, Nat.min_l by lia. rewrite Z2Nat.id by lia. assumption.
Qed.

Lemma primitive_complete tags mode b v rest : tags <> [] -> enc (TPrim tags) mode b v -> bytes (b ++ rest) ->
  ber_decode_primitive tags mode (b ++ rest) = Done (length b) v.
Proof.
  intros Ht H Hb. inversion H as [t m p body Hd| | | | | | | | | | | |]; subst. clear H.
  rewrite <- app_assoc in *. apply Forall_app in Hb. destruct Hb as (Bp & Bb).
  unfold ber_decode_primitive. rewrite (check_definite _ _ _ _ _ _ _ (checkable_tags _ _ _ Ht) Hd form_false Bb).
  cbn zeta. rewrite skipn_app_exact, !app_length.
  destruct (Z.ltb_spec (Z.of_nat (length body + length rest)) (Z.of_nat (length body))); [lia|].
  destruct (Z.ltb_spec (Z.of_nat (length body)) 0); [lia|]. rewrite Nat2Z.id, firstn_app_exact. reflexivity.
Qed.

Lemma primitive_total tags mode bs : bytes bs -> tags <> [] ->
  ber_decode_primitive tags mode bs <> Fault /\ ber_decode_primitive tags mode bs <> Spin.
Proof.
  intros Hb Ht. unfold ber_decode_primitive.
  destruct (check_total tags mode (Some false) bs Hb (checkable_tags _ _ _ Ht)) as (C1 & C2).
  destruct (ber_check_tags tags mode (Some false) bs) as [m [len c]| | |] eqn:Ec; try (split; congruence).
  apply check_sound in Ec; [|assumption|apply checkable_tags; assumption].
  destruct Ec as (Hm & Hf & [(Hd & H0)|(-> & _)]); [|specialize (Hf _ eq_refl); discriminate].
  cbn zeta. destruct (_ <? len); [split; discriminate|]. destruct (Z.ltb_spec len 0); [lia|]. split; discriminate.
Qed.

Lemma null_sound tags mode bs n v : bytes bs -> tags <> [] -> NULL_decode_ber tags mode bs = Done n v ->
  (n <= length bs)%nat /\ enc (TNull tags) mode (firstn n bs) v.
Proof.
  intros Hb Ht E. unfold NULL_decode_ber in E.
  destruct (ber_check_tags tags mode (Some false) bs) as [m [len c]| | |] eqn:Ec; try discriminate.
  apply check_sound in Ec; [|assumption|apply checkable_tags; assumption].
  destruct Ec as (Hm & Hf & [(Hd & H0)|(-> & _)]); [|specialize (Hf _ eq_refl); discriminate].
  specialize (Hf _ eq_refl). subst c. destruct (Z.eqb_spec len 0); [|discriminate].
  cbn [negb] in E. injection E as <- <-. subst len. split; [assumption|]. constructor. assumption.
Qed.

Lemma null_complete tags mode b v rest : tags <> [] -> enc (TNull tags) mode b v -> bytes (b ++ rest) ->
  NULL_decode_ber tags mode (b ++ rest) = Done (length b) v.
Proof.
  intros Ht H Hb. inversion H as [|t m p Hd| | | | | | | | | | |]; subst. clear H.
  apply Forall_app in Hb. destruct Hb as (Bp & Bb).
  unfold NULL_decode_ber. rewrite (check_definite _ _ _ _ _ _ _ (checkable_tags _ _ _ Ht) Hd form_false Bb).
  reflexivity.
Qed.

Lemma null_total tags mode bs : bytes bs -> tags <> [] ->
  NULL_decode_ber tags mode bs <> Fault /\ NULL_decode_ber tags mode bs <> Spin.
Proof.
  intros Hb Ht. unfold NULL_decode_ber.
  destruct (check_total tags mode (Some false) bs Hb (checkable_tags _ _ _ Ht)) as (C1 & C2).
  destruct (ber_check_tags tags mode (Some false) bs) as [m [len c]| | |] eqn:Ec; try (split; congruence).
  destruct (negb (len =? 0)); split; discriminate.
Qed.

Lemma boolean_value_sound bs : boolean bs (boolean_value bs).
Proof.
  induction bs as [|b bs IH].
  - apply bool_false. constructor.
  - cbn [boolean_value]. destruct (Z.eqb_spec b 0) as [->|Hb].
    + destruct IH as [l H|l x l' H1 H2].
      * apply bool_false. constructor; [reflexivity|assumption].
      * apply (bool_true (0 :: l) x l'); [constructor; [reflexivity|assumption]|assumption].
    + apply (bool_true [] b bs); [constructor|assumption].
Qed.

Lemma boolean_value_complete bs v : boolean bs v -> boolean_value bs = v.
Proof.
  intros [l H|l x l' H Hx].
  - induction H as [|b l Hb H IH]; [reflexivity|]. cbn [boolean_value]. rewrite Hb. exact IH.
  - induction H as [|b l Hb H IH]; cbn [app boolean_value].
    + destruct (Z.eqb_spec x 0); [contradiction|reflexivity].
    + rewrite Hb. exact IH.
Qed.

Lemma bool_sound tags mode bs n v : bytes bs -> tags <> [] -> BOOLEAN_decode_ber tags mode bs = Done n v ->
  (n <= length bs)%nat /\ enc (TBool tags) mode (firstn n bs) v.
Proof.
  intros Hb Ht E. unfold BOOLEAN_decode_ber in E.
  destruct (ber_check_tags tags mode (Some false) bs) as [m [len c]| | |] eqn:Ec; try discriminate.
  apply check_sound in Ec; [|assumption|apply checkable_tags; assumption].
  destruct Ec as (Hm & Hf & [(Hd & H0)|(-> & _)]); [|specialize (Hf _ eq_refl); discriminate].
  specialize (Hf _ eq_refl). subst c. cbn zeta in E.
  destruct (Z.ltb_spec (Z.of_nat (length (skipn m bs))) len) as [|Hl]; [discriminate|].
  destruct (Z.ltb_spec len 0); [discriminate|]. injection E as <- <-. rewrite skipn_length in Hl.
  split; [lia|]. rewrite firstn_plus. constructor; [|apply boolean_value_sound].
  rewrite firstn_length, skipn_length, Nat.min_l by lia. rewrite Z2Nat.id by lia. assumption.
Qed.

Lemma bool_complete tags mode b v rest : tags <> [] -> enc (TBool tags) mode b v -> bytes (b ++ rest) ->
  BOOLEAN_decode_ber tags mode (b ++ rest) = Done (length b) v.
Proof.
  intros Ht H Hb. inversion H as [| |t m p body x Hd Hx| | | | | | | | | |]; subst. clear H.
  rewrite <- app_assoc in *. apply Forall_app in Hb. destruct Hb as (Bp & Bb).
  unfold BOOLEAN_decode_ber. rewrite (check_definite _ _ _ _ _ _ _ (checkable_tags _ _ _ Ht) Hd form_false Bb).
  cbn zeta. rewrite skipn_app_exact, !app_length.
  destruct (Z.ltb_spec (Z.of_nat (length body + length rest)) (Z.of_nat (length body))); [lia|].
  destruct (Z.ltb_spec (Z.of_nat (length body)) 0); [lia|]. rewrite Nat2Z.id, firstn_app_exact.
  rewrite (boolean_value_complete _ _ Hx). reflexivity.
Qed.

Lemma bool_total tags mode bs : bytes bs -> tags <> [] ->
  BOOLEAN_decode_ber tags mode bs <> Fault /\ BOOLEAN_decode_ber tags mode bs <> Spin.
Proof.
  intros Hb Ht. unfold BOOLEAN_decode_ber.
  destruct (check_total tags mode (Some false) bs Hb (checkable_tags _ _ _ Ht)) as (C1 & C2).
  destruct (ber_check_tags tags mode (Some false) bs) as [m [len c]| | |] eqn:Ec; try (split; congruence).
  apply check_sound in Ec; [|assumption|apply checkable_tags; assumption].
  destruct Ec as (Hm & Hf & [(Hd & H0)|(-> & _)]); [|specialize (Hf _ eq_refl); discriminate].
  cbn zeta. destruct (_ <? len); [split; discriminate|]. destruct (Z.ltb_spec len 0); [lia|]. split; discriminate.
Qed.
