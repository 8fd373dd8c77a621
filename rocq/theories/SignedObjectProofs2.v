(** The decoder and the search for the signed attributes agree. *)
From Coq Require Import Lia.
From Verif Require Import Base BaseLemmas BerSpec Ber BerProofs BerProofs2 BerProofs4 BerProps.
From Verif Require Import Asn1Dec Asn1DecSpec Asn1DecProofs Asn1DecProofs6 Asn1Types Asn1CheckProofs SignedData Objects SignedObjectProofs.
Notation length := List.length.

(** ** Reading the same bytes in two ways *)
Lemma low_byte T cl c num x t y : tag_octets T cl c num -> T ++ x = t :: y -> t mod 32 <> 31 ->
  T = [t] /\ x = y /\ c = ((t / 32) mod 2 =? 1) /\ num * 4 + cl = t mod 32 * 4 + t / 64.
Proof.
  intros H E Ht. destruct H as [cl pc num H1 H2|cl pc cont last H1 H2 H3]; cbn [app] in E; injection E as E1 E2; subst.
  - split; [reflexivity|]. split; [reflexivity|]. destruct pc.
    + replace ((cl * 64 + 32 + num) / 32) with (cl * 2 + 1) by (apply Z.div_unique with num; lia).
      replace ((cl * 64 + 32 + num) mod 32) with num by (apply Z.mod_unique with (cl * 2 + 1); lia).
      replace ((cl * 64 + 32 + num) / 64) with cl by (apply Z.div_unique with (32 + num); lia).
      replace ((cl * 2 + 1) mod 2) with 1 by (apply Z.mod_unique with cl; lia). split; [reflexivity|lia].
    + rewrite Z.add_0_r. replace ((cl * 64 + num) / 32) with (cl * 2) by (apply Z.div_unique with num; lia).
      replace ((cl * 64 + num) mod 32) with num by (apply Z.mod_unique with (cl * 2); lia).
      replace ((cl * 64 + num) / 64) with cl by (apply Z.div_unique with num; lia).
      replace ((cl * 2) mod 2) with 0 by (apply Z.mod_unique with cl; lia). split; [reflexivity|lia].
  - exfalso. apply Ht. destruct pc; symmetry; [apply Z.mod_unique with (cl * 2 + 1)|apply Z.mod_unique with (cl * 2)]; lia.
Qed.

Lemma length_unique c L1 L2 o1 o2 a b : length_octets c L1 o1 -> length_octets c L2 o2 -> L1 ++ a = L2 ++ b -> L1 = L2 /\ o1 = o2 /\ a = b.
Proof.
  intros H1 H2 E. destruct H1 as [x Hx|l Hl Hn|Hc]; destruct H2 as [y Hy|m Hm Hk|Hd]; cbn [app] in E; pose proof (f_equal (hd 0) E) as E1; pose proof (f_equal (@tl Z) E) as E2; cbn [hd tl] in E1, E2; clear E; try lia.
  - subst. auto.
  - assert (length l = length m) by lia. assert (l = m /\ a = b) as (-> & ->).
    { clear -E2 H. revert m H E2. induction l as [|x l IH]; intros [|y m] H E; cbn in *; try lia; [auto|]. injection E as -> E. destruct (IH m ltac:(lia) E). subst. auto. }
    auto.
  - auto.
Qed.

(** A field read as a value, and as the encoding of a type. *)
Lemma same_field b r t c X r' : tlv_of b -> b ++ r = (t :: X) ++ r' -> t mod 32 <> 31 -> c = ((t / 32) mod 2 =? 1) -> lv c X -> bytes r -> bytes r' ->
  b = t :: X /\ r = r'.
Proof.
  intros (T & cl & c' & num & Y & -> & Ht & _ & Hl) E Hm Hc HX Hr Hr'. rewrite <- app_assoc in E. cbn [app] in E.
  destruct (low_byte _ _ _ _ _ _ _ Ht E Hm) as (-> & E' & -> & _). rewrite <- Hc in Hl.
  destruct (C60_unambiguous c Y X r r' Hl HX Hr Hr' E') as (-> & ->). auto.
Qed.

(** A header, and the frame of a constructed value. *)
Lemma same_header e indef body whole r t L v y : framed [e] true indef body whole -> whole ++ r = t :: L ++ y -> t mod 32 <> 31 ->
  length_octets true L v ->
  exists tail, whole = t :: L ++ body ++ tail /\ y = body ++ tail ++ r
    /\ (indef = false -> tail = [] /\ v = Some (Z.of_nat (length body))) /\ (indef = true -> v = None)
    /\ (forall x, e = Some x -> x = t mod 32 * 4 + t / 64).
Proof.
  intros H E Hm Hv. destruct H as [p body Hp|p body _ Hp].
  - inversion Hp as [e' c' len' h' Hh|e' es' c' len' h' p' Hh Hp']; subst; [|inversion Hp'].
    destruct Hh as (T & L' & cl & num & -> & Ht & _ & He & Ha & _). rewrite <- !app_assoc in E.
    destruct (low_byte _ _ _ _ _ _ _ Ht E Hm) as (-> & E' & _ & Hn). destruct Ha as [Ha|(Q & _)]; [|discriminate].
    destruct (length_unique _ _ _ _ _ _ _ Ha Hv E') as (-> & <- & E''). exists []. rewrite <- E''. cbn [app]. rewrite app_nil_r.
    split; [reflexivity|]. split; [reflexivity|]. split; [auto|]. split; [discriminate|]. intros x Hx. rewrite <- (He x Hx). exact Hn.
  - inversion Hp as [e' h' Hh|e' es' h' p' Hh Hp']; subst; [|inversion Hp'].
    destruct Hh as (T & L' & cl & num & -> & Ht & _ & He & Ha & _). rewrite <- !app_assoc in E.
    destruct (low_byte _ _ _ _ _ _ _ Ht E Hm) as (-> & E' & _ & Hn). destruct Ha as [Ha|(Q & _)]; [|discriminate].
    destruct (length_unique _ _ _ _ _ _ _ Ha Hv E') as (-> & <- & E''). exists (eocs 1). rewrite <- E''. cbn [app length]. rewrite <- ?app_assoc.
    split; [reflexivity|]. split; [reflexivity|]. split; [discriminate|]. split; [reflexivity|]. intros x Hx. rewrite <- (He x Hx). exact Hn.
Qed.

(** ** Inversions *)
Lemma inv_seq tags t2e ms mode b v : enc (TSeq tags t2e ms) mode b v ->
  exists indef body vs, framed (chain tags mode) true indef body b /\ enc_members indef ms body vs /\ v = VSeq vs.
Proof. intros H. inversion H; subst. eauto 10. Qed.
Lemma inv_of tags etag elem mode b v : enc (TOf tags etag elem) mode b v ->
  exists indef body vs, framed (chain tags mode) true indef body b /\ enc_elements indef etag elem body vs /\ v = VOf vs.
Proof. intros H. inversion H; subst. eauto 10. Qed.
Lemma inv_member indef mtag md opt any t ms b vs : enc_members indef (Member mtag md opt any t :: ms) b vs ->
  (exists vs', vs = None :: vs' /\ (0 < opt)%nat /\ enc_members indef ms b vs')
  \/ (exists b1 b2 v vs', b = b1 ++ b2 /\ vs = Some v :: vs' /\ starts mtag b1 /\ enc t md b1 v /\ enc_members indef ms b2 vs').
Proof. intros H. inversion H; subst; [left|right]; eauto 12. Qed.
Lemma inv_required indef mtag md any t ms b vs : enc_members indef (Member mtag md 0 any t :: ms) b vs ->
  exists b1 b2 v vs', b = b1 ++ b2 /\ vs = Some v :: vs' /\ starts mtag b1 /\ enc t md b1 v /\ enc_members indef ms b2 vs'.
Proof. intros H. apply inv_member in H. destruct H as [(vs' & _ & H & _)|H]; [lia|exact H]. Qed.
Lemma inv_element indef etag t b v vs : enc_elements indef etag t b (v :: vs) ->
  exists b1 b2, b = b1 ++ b2 /\ starts etag b1 /\ enc t 0 b1 v /\ enc_elements indef etag t b2 vs.
Proof. intros H. inversion H; subst. eauto 10. Qed.

Lemma starts_low x b r t y : starts (Some x) b -> b ++ r = t :: y -> t mod 32 <> 31 -> x = t mod 32 * 4 + t / 64.
Proof.
  intros H E Hm. destruct (H x eq_refl) as (T & cl & c & num & X & -> & Ht & _ & <-). rewrite <- app_assoc in E.
  destruct (low_byte _ _ _ _ _ _ _ Ht E Hm) as (_ & _ & _ & Q). exact Q.
Qed.

(** SignedData, with either kind of content. *)
Definition sd_type (e : ty) : ty :=
  TSeq [64] [(8, 0%nat); (64, 2%nat); (68, 1%nat); (68, 5%nat); (2, 3%nat); (6, 4%nat)]
    [Member (Some 8) 0 0 false t_CMSVersion;
     Member (Some 68) 0 0 false t_DigestAlgorithmIdentifiers;
     Member (Some 64) 0 0 false e;
     Member (Some 2) (-1) 2 false t_CertificateSet;
     Member (Some 6) (-1) 1 false t_RevocationInfoChoices;
     Member (Some 68) 0 0 false t_SignerInfos].

Lemma enc_is_tlv t mode b v r : enc t mode b v -> bytes (b ++ r) -> wf t = true -> no_end t = true -> tlv_of b.
Proof. intros H Hb Hw Hn. apply Forall_app in Hb. apply (proj1 enc_tlv) in H; [apply H|apply Hb|assumption|assumption]. Qed.

Definition first_attributes (v : value) : option value :=
  match v with
  | VSeq [_; _; _; _; _; Some (VOf (VSeq [_; _; _; attrs; _; _; _] :: _))] => attrs
  | _ => None
  end.

Definition has_signer (v : value) : Prop :=
  match v with VSeq [_; _; _; _; _; Some (VOf (_ :: _))] => True | _ => False end.

Lemma bytes_app_r a b : bytes (a ++ b) -> bytes b.
Proof. intros H. apply Forall_app in H. apply H. Qed.

(** What the search finds is what was decoded. *)
Lemma agree e n content v L len rest : wf e = true -> no_end e = true -> bytes content ->
  enc (sd_type e) 0 (firstn n content) v -> has_signer v -> signed_attributes_at content L len rest ->
  exists av, first_attributes v = Some av /\
  (len = None \/ exists V r, rest = V ++ r /\ len = Some (Z.of_nat (length V)) /\ enc t_SignedAttributes 0 (49 :: L ++ V) av).
Proof.
  intros Hwe Hne Hb He Hav (sd & version & digests & ci & certs & infos & info & iversion & sid & alg & E & Hsd & Hver & Hdig & Hci & Hce & Hinfos & Hinfo & Hiv & Hsid & Halg & HL & HLf).
  pose proof (firstn_skipn n content) as Q. rewrite E in Q at 3. set (r0 := skipn n content) in *. set (w := firstn n content) in *.
  assert (Hb2 : bytes (sd ++ version ++ digests ++ ci ++ certs ++ infos ++ info ++ iversion ++ sid ++ alg ++ 160 :: L ++ rest)) by (rewrite <- E; assumption).
  assert (Hw0 : bytes (w ++ r0)) by (rewrite Q; assumption). clear E Hb. clearbody w r0.
  apply inv_seq in He. destruct He as (indef & body & vs & Hf & Hms & ->).
  destruct Hsd as (L1 & v1 & -> & HL1 & _). cbn [app] in Q. rewrite <- app_comm_cons in Q || idtac.
  destruct (same_header _ _ _ _ _ _ _ _ _ Hf Q ltac:(discriminate) HL1) as (tail & -> & Q1 & _).
  cbn [app] in Hb2. apply (bytes_app_r (48 :: L1)) in Hb2.
  clear Q Hf. rename Q1 into Q. rename Hw0 into Hw1.
  assert (Hw : bytes (body ++ tail ++ r0)) by (rewrite <- Q; assumption). clear Hw1.
  (* version *)
  apply inv_required in Hms. destruct Hms as (b1 & body1 & x1 & vs1 & -> & -> & _ & He1 & Hms).
  destruct Hver as (X & -> & HX). rewrite <- !app_assoc in Q, Hw. symmetry in Q.
  destruct (same_field b1 _ 2 false X _ (enc_is_tlv _ _ _ _ _ He1 Hw eq_refl eq_refl) Q ltac:(discriminate) eq_refl HX (bytes_app_r _ _ Hw) (bytes_app_r _ _ Hb2)) as (_ & Q').
  apply bytes_app_r in Hw. apply bytes_app_r in Hb2. clear Q. rename Q' into Q.
  (* digests *)
  apply inv_required in Hms. destruct Hms as (b2 & body2 & x2 & vs2 & -> & -> & _ & He2 & Hms). clear He1 HX X.
  destruct Hdig as (X & -> & HX). rewrite <- !app_assoc in Q, Hw.
  destruct (same_field b2 _ 49 true X _ (enc_is_tlv _ _ _ _ _ He2 Hw eq_refl eq_refl) Q ltac:(discriminate) eq_refl HX (bytes_app_r _ _ Hw) (bytes_app_r _ _ Hb2)) as (_ & Q').
  apply bytes_app_r in Hw. apply bytes_app_r in Hb2. clear Q. rename Q' into Q.
  (* content *)
  apply inv_required in Hms. destruct Hms as (b3 & body3 & x3 & vs3 & -> & -> & _ & He3 & Hms). clear He2 HX X.
  destruct Hci as (X & -> & HX). rewrite <- !app_assoc in Q, Hw.
  destruct (same_field b3 _ 48 true X _ (enc_is_tlv _ _ _ _ _ He3 Hw Hwe Hne) Q ltac:(discriminate) eq_refl HX (bytes_app_r _ _ Hw) (bytes_app_r _ _ Hb2)) as (_ & Q').
  apply bytes_app_r in Hw. apply bytes_app_r in Hb2. clear Q. rename Q' into Q.
  (* certificates *)
  destruct Hce as (X' & -> & HX'). apply inv_member in Hms. destruct Hms as [(vs4 & -> & _ & Hms)|(b4 & body4 & x4 & vs4 & -> & -> & _ & He4 & Hms)].
  { exfalso. apply inv_member in Hms. destruct Hms as [(vs5 & -> & _ & Hms)|(b5 & body5 & x5 & vs5 & -> & -> & Hst & He5 & Hms)].
    - apply inv_required in Hms. destruct Hms as (b6 & body6 & x6 & vs6 & -> & -> & Hst & He6 & Hms). rewrite <- app_assoc in Q.
      pose proof (starts_low _ _ _ _ _ Hst Q ltac:(discriminate)) as F. discriminate.
    - rewrite <- app_assoc in Q. pose proof (starts_low _ _ _ _ _ Hst Q ltac:(discriminate)) as F. discriminate. }
  clear He3 HX X. rewrite <- !app_assoc in Q, Hw.
  destruct (same_field b4 _ 160 true X' _ (enc_is_tlv _ _ _ _ _ He4 Hw eq_refl eq_refl) Q ltac:(discriminate) eq_refl HX' (bytes_app_r _ _ Hw) (bytes_app_r _ _ Hb2)) as (_ & Q').
  apply bytes_app_r in Hw. apply bytes_app_r in Hb2. clear Q. rename Q' into Q.
  (* crls *)
  destruct Hinfos as (L2 & v2 & -> & HL2 & _). rewrite <- app_comm_cons in Q.
  apply inv_member in Hms. destruct Hms as [(vs5 & -> & _ & Hms)|(b5 & body5 & x5 & vs5 & -> & -> & Hst & He5 & Hms)].
  2: { exfalso. rewrite <- app_assoc in Q. pose proof (starts_low _ _ _ _ _ Hst Q ltac:(discriminate)) as F. discriminate. }
  (* signerInfos *)
  apply inv_required in Hms. destruct Hms as (b6 & body6 & x6 & vs6 & -> & -> & _ & He6 & Hms). rewrite <- !app_assoc in Q, Hw.
  inversion Hms; subst vs6 body6. clear Hms He4 HX' X'. cbn [app] in Q, Hw.
  apply inv_of in He6. destruct He6 as (indef6 & c6 & vs6 & Hf & Hels & ->).
  destruct (same_header _ _ _ _ _ _ _ _ _ Hf Q ltac:(discriminate) HL2) as (tail6 & -> & Q6 & _).
  assert (Hw6 : bytes (c6 ++ tail6 ++ tail ++ r0)).
  { rewrite <- app_comm_cons in Hw. inversion Hw as [|? ? _ Hw']; subst. rewrite <- !app_assoc in Hw'. apply bytes_app_r in Hw'. exact Hw'. }
  apply (bytes_app_r (49 :: L2)) in Hb2. clear Q Hf Hw. symmetry in Q6. rename Q6 into Q. rename Hw6 into Hw.
  destruct vs6 as [|x7 vs7]; [destruct Hav|]. apply inv_element in Hels. destruct Hels as (b7 & c7 & -> & _ & He7 & _).
  apply inv_seq in He7. destruct He7 as (indef7 & body7 & vs8 & Hf & Hms & ->). rewrite <- !app_assoc in Q, Hw.
  destruct Hinfo as (L3 & v3 & -> & HL3 & _). rewrite <- app_comm_cons in Q.
  destruct (same_header _ _ _ _ _ _ _ _ _ Hf Q ltac:(discriminate) HL3) as (tail7 & -> & Q7 & _).
  assert (Hw7 : bytes (body7 ++ tail7 ++ c7 ++ tail6 ++ tail ++ r0)).
  { rewrite <- app_comm_cons in Hw. inversion Hw as [|? ? _ Hw']; subst. rewrite <- !app_assoc in Hw'. apply bytes_app_r in Hw'. exact Hw'. }
  apply (bytes_app_r (48 :: L3)) in Hb2. clear Q Hf Hw. symmetry in Q7. rename Q7 into Q. rename Hw7 into Hw.
  (* version *)
  apply inv_required in Hms. destruct Hms as (d1 & e1 & y1 & ws1 & -> & -> & _ & He1 & Hms).
  destruct Hiv as (X & -> & HX). rewrite <- !app_assoc in Q, Hw.
  destruct (same_field d1 _ 2 false X _ (enc_is_tlv _ _ _ _ _ He1 Hw eq_refl eq_refl) Q ltac:(discriminate) eq_refl HX (bytes_app_r _ _ Hw) (bytes_app_r _ _ Hb2)) as (_ & Q').
  apply bytes_app_r in Hw. apply bytes_app_r in Hb2. clear Q. rename Q' into Q.
  (* sid *)
  apply inv_required in Hms. destruct Hms as (d2 & e2 & y2 & ws2 & -> & -> & _ & He2 & Hms). clear He1 HX X.
  destruct Hsid as (X & -> & HX). rewrite <- !app_assoc in Q, Hw.
  assert (T2 : tlv_of d2).
  { inversion He2 as [| | | | | | | | | | |t2e ms k mtag md opt any t bs v Hk Hl He|tags t2e ms mode k mtag md opt any t c indef' body whole v Hm]; subst;
      [|destruct Hm; congruence]. rewrite <- app_comm_cons in Q.
    assert (F : mtag = 2) by (apply (starts_low mtag d2 _ _ _ ltac:(intros ? Z1; injection Z1 as <-; exact Hl) Q); discriminate). subst mtag.
    destruct k as [|[|k]]; [discriminate| |destruct k; discriminate].
    injection Hk as <- <- <- <-. eapply enc_is_tlv; [exact He|exact Hw|reflexivity|reflexivity]. }
  destruct (same_field d2 _ 128 false X _ T2 Q ltac:(discriminate) eq_refl HX (bytes_app_r _ _ Hw) (bytes_app_r _ _ Hb2)) as (_ & Q').
  apply bytes_app_r in Hw. apply bytes_app_r in Hb2. clear Q. rename Q' into Q.
  (* digestAlgorithm *)
  apply inv_required in Hms. destruct Hms as (d3 & e3 & y3 & ws3 & -> & -> & _ & He3 & Hms). clear He2 HX X.
  destruct Halg as (X & -> & HX). rewrite <- !app_assoc in Q, Hw.
  destruct (same_field d3 _ 48 true X _ (enc_is_tlv _ _ _ _ _ He3 Hw eq_refl eq_refl) Q ltac:(discriminate) eq_refl HX (bytes_app_r _ _ Hw) (bytes_app_r _ _ Hb2)) as (_ & Q').
  apply bytes_app_r in Hw. apply bytes_app_r in Hb2. clear Q. rename Q' into Q.
  (* signedAttrs *)
  apply inv_member in Hms. destruct Hms as [(ws4 & -> & _ & Hms)|(d4 & e4 & y4 & ws4 & -> & -> & _ & He4 & Hms)].
  { exfalso. apply inv_required in Hms. destruct Hms as (b9 & body9 & x9 & vs9 & -> & -> & Hst & He9 & Hms). rewrite <- app_assoc in Q.
    pose proof (starts_low _ _ _ _ _ Hst Q ltac:(discriminate)) as F. discriminate. }
  clear He3 HX X. rewrite <- !app_assoc in Q, Hw. exists y4. split.
  { apply inv_required in Hms. destruct Hms as (? & ? & ? & ? & -> & -> & _ & _ & Hms). apply inv_required in Hms. destruct Hms as (? & ? & ? & ? & -> & -> & _ & _ & Hms).
    apply inv_member in Hms. destruct Hms as [(? & -> & _ & Hms)|(? & ? & ? & ? & -> & -> & _ & _ & Hms)]; inversion Hms; subst; reflexivity. }
  apply inv_of in He4. destruct He4 as (indef9 & V & vs9 & Hf & Hels & ->).
  destruct (same_header _ _ _ _ _ _ _ _ _ Hf Q ltac:(discriminate) HL) as (tail9 & -> & Q9 & D & I & _).
  destruct indef9; [left; auto|]. right. destruct (D eq_refl) as (-> & ->). exists V. eexists. split; [exact Q9|]. split; [reflexivity|].
  apply (enc_of [68] (Some 64) t_CMSAttribute 0 false V); [|assumption].
  change (49 :: L ++ V) with ((49 :: L) ++ V). apply framed_definite. apply dchain_last.
  exists [49], L, 0, 17. split; [reflexivity|]. split; [exact (low_tag 0 true 17 ltac:(lia) ltac:(lia))|]. split; [unfold tag_fits; lia|].
  split; [intros t Ht; injection Ht as <-; reflexivity|]. split; [left; assumption|assumption].
Qed.
