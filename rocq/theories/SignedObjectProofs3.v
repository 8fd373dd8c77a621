(** Signed objects in DER. *)
From Coq Require Import Lia.
From Verif Require Import Base BaseLemmas BerSpec Ber BerProofs BerProofs2 BerProofs4 BerProps.
From Verif Require Import Asn1Dec Asn1DecSpec Asn1DecProofs Asn1DecProofs6 Asn1Types Asn1Check Asn1Constraints Asn1CheckProofs Asn1CheckProps SignedData Objects
  ObjectsSpec ObjectsProofs ObjectsProofs2 ObjectsProofs3 ObjectsProofs4 ObjectsProofs5 ObjectsProps SignedObjectProofs SignedObjectProofs2.
Notation length := List.length.

(** ** The signed attributes of a SignedData in DER *)
Lemma reasonable_fits b : reasonable b -> 0 <= Z.of_nat (length b) < 4611686018427387904.
Proof. unfold reasonable. lia. Qed.
Lemma lv_der c T body : bytes body -> reasonable (ObjectsSpec.tlv T body) -> lv c (len_octets (Z.of_nat (length body)) ++ body).
Proof.
  intros Hb Hr. assert (Hr' : Z.of_nat (length body) < 4611686018427387904).
  { apply reasonable_fits in Hr. pose proof (tlv_length T body). lia. }
  apply (lv_definite c _ (Z.of_nat (length body))); [left; apply len_octets_ok; lia|exact Hr'|assumption|reflexivity].
Qed.
Lemma field_der c T body : bytes body -> reasonable (ObjectsSpec.tlv T body) -> BerSpec.field T c (ObjectsSpec.tlv T body).
Proof. intros Hb Hr. eexists. split; [reflexivity|]. eapply lv_der; eassumption. Qed.
Lemma header_der T body : reasonable (ObjectsSpec.tlv T body) -> header T (T :: len_octets (Z.of_nat (length body))).
Proof.
  intros Hr. exists (len_octets (Z.of_nat (length body))), (Some (Z.of_nat (length body))). split; [reflexivity|].
  apply reasonable_fits in Hr. pose proof (tlv_length T body). split; [apply len_octets_ok; lia|cbn; lia].
Qed.
Lemma tlv_split T body : ObjectsSpec.tlv T body = (T :: len_octets (Z.of_nat (length body))) ++ body.
Proof. reflexivity. Qed.
Lemma tlv_body_bytes T body : bytes (ObjectsSpec.tlv T body) -> bytes body.
Proof. rewrite tlv_split. apply bytes_app_r. Qed.

Ltac smaller H := unfold reasonable in *; rewrite ?app_length in H; lia.
Lemma reasonable_l a b : reasonable (a ++ b) -> reasonable a.
Proof. unfold reasonable. rewrite app_length. lia. Qed.
Lemma reasonable_r a b : reasonable (a ++ b) -> reasonable b.
Proof. unfold reasonable. rewrite app_length. lia. Qed.
Lemma reasonable_tlv T body : reasonable (ObjectsSpec.tlv T body) -> reasonable body.
Proof. rewrite tlv_split. apply reasonable_r. Qed.

(** The encodings that [concat] puts one after the other. *)
Lemma bytes_l a b : bytes (a ++ b) -> bytes a.
Proof. intros H. apply Forall_app in H. apply H. Qed.

Lemma attributes_at f sd si ski certs attrs : sd_certs sd = Some certs -> si_attrs si = Some attrs ->
  let content := der_signed_data_with f sd [(si, ski)] in
  bytes content -> reasonable content ->
  let V := concat (map der_attribute attrs) in
  exists rest, signed_attributes_at content (len_octets (Z.of_nat (length V))) (Some (Z.of_nat (length V))) (V ++ rest).
Proof.
  intros Ec Ea content Hb Hr V. unfold content, der_signed_data_with in *. clear content. rewrite Ec in *. cbn [OPTIONAL map fst snd] in *.
  set (P1 := INTEGER (sd_version sd)) in *. set (P2 := SET (map der_alg (sd_digests sd))) in *.
  set (P3 := SEQUENCE [OBJECT_IDENTIFIER (sd_ectype sd); _]) in *. set (P4 := CONTEXT 0 (concat certs)) in *.
  set (D := der_signer si ski) in *. unfold SEQUENCE in Hb, Hr |- *.
  pose proof (header_der _ _ Hr) as H1. pose proof (tlv_body_bytes _ _ Hb) as Hb'. pose proof (reasonable_tlv _ _ Hr) as Hr'.
  rewrite tlv_split. set (H1s := 48 :: len_octets _) in *. clearbody H1s.
  cbn [concat] in *. unfold SET in Hb', Hr' |- *. cbn [concat] in *.
  assert (R2 : reasonable (ObjectsSpec.tlv 49 (D ++ []))). { do 4 apply reasonable_r in Hr'. apply reasonable_l in Hr'. exact Hr'. }
  assert (B2 : bytes (ObjectsSpec.tlv 49 (D ++ []))). { do 4 apply bytes_app_r in Hb'. apply bytes_l in Hb'. exact Hb'. }
  pose proof (header_der _ _ R2) as H2. apply reasonable_tlv in R2. apply tlv_body_bytes in B2.
  rewrite (tlv_split 49). set (H2s := 49 :: len_octets _) in *. clearbody H2s.
  apply reasonable_l in R2. apply bytes_l in B2. unfold D in *. unfold der_signer in *. rewrite Ea in *. cbn [OPTIONAL] in *.
  unfold SEQUENCE in R2, B2 |- *. pose proof (header_der _ _ R2) as H3. apply reasonable_tlv in R2. apply tlv_body_bytes in B2.
  rewrite (tlv_split 48). set (H3s := 48 :: len_octets _) in *. clearbody H3s. cbn [concat] in *.
  set (Q1 := INTEGER (si_version si)) in *. set (Q2 := CONTEXT_PRIMITIVE 0 ski) in *. set (Q3 := der_alg (si_digest si)) in *.
  set (T4 := der_alg (si_sigalg si)) in *. set (T5 := OCTET_STRING (si_signature si)) in *. set (T6 := OPTIONAL (der_attributes 1) (si_unsigned si)) in *.
  assert (EV : der_attributes 0 attrs = (160 :: len_octets (Z.of_nat (length V))) ++ V) by (unfold der_attributes, CONTEXT; apply tlv_split).
  exists ((T4 ++ T5 ++ T6) ++ []).
  assert (F : forall c t body, bytes (ObjectsSpec.tlv t body) -> reasonable (ObjectsSpec.tlv t body) -> BerSpec.field t c (ObjectsSpec.tlv t body)).
  { intros c t body G1 G2. apply field_der; [apply tlv_body_bytes in G1; exact G1|exact G2]. }
  exists H1s, P1, P2, P3, P4, H2s, H3s, Q1, Q2, Q3. split.
  { rewrite EV. rewrite ?app_nil_r, <- ?app_assoc. rewrite <- ?app_comm_cons. rewrite ?app_nil_r, <- ?app_assoc. reflexivity. }
  split; [exact H1|].
  split; [apply F; [apply bytes_l in Hb'; exact Hb'|apply reasonable_l in Hr'; exact Hr']|].
  apply bytes_app_r in Hb'. apply reasonable_r in Hr'. split; [apply F; [apply bytes_l in Hb'; exact Hb'|apply reasonable_l in Hr'; exact Hr']|].
  apply bytes_app_r in Hb'. apply reasonable_r in Hr'. split; [apply F; [apply bytes_l in Hb'; exact Hb'|apply reasonable_l in Hr'; exact Hr']|].
  apply bytes_app_r in Hb'. apply reasonable_r in Hr'. split; [apply F; [apply bytes_l in Hb'; exact Hb'|apply reasonable_l in Hr'; exact Hr']|].
  split; [exact H2|]. split; [exact H3|].
  split; [apply F; [apply bytes_l in B2; exact B2|apply reasonable_l in R2; exact R2]|].
  apply bytes_app_r in B2. apply reasonable_r in R2. split; [apply F; [apply bytes_l in B2; exact B2|apply reasonable_l in R2; exact R2]|].
  apply bytes_app_r in B2. apply reasonable_r in R2. split; [apply F; [apply bytes_l in B2; exact B2|apply reasonable_l in R2; exact R2]|].
  apply reasonable_r in R2. apply reasonable_l in R2. rewrite EV in R2. apply reasonable_r in R2. apply reasonable_fits in R2.
  split; [apply len_octets_ok; lia|cbn; lia].
Qed.

(** ** A SignedData is a value *)
Lemma any_parts T parts : low T -> constructed_octet T = true -> (forall p, In p parts -> p = [] \/ any_der p) -> any_der (ObjectsSpec.tlv T (concat parts)).
Proof.
  intros HT HC Hp. destruct (octet_split T HT) as (E & Hcl & Hnum). rewrite HC in E.
  assert (G : exists ps, any_ders ps /\ concat ps = concat parts).
  { clear - Hp. induction parts as [|p parts IH]; [exists []; split; [constructor|reflexivity]|].
    destruct IH as (ps & H1 & H2); [intros q Hq; apply Hp; right; assumption|].
    destruct (Hp p (or_introl eq_refl)) as [->|Ha]; [exists ps; split; assumption|].
    exists (p :: ps). split; [constructor; assumption|]. cbn [concat]. rewrite H2. reflexivity. }
  destruct G as (ps & H1 & <-). rewrite E. apply any_constructed; assumption.
Qed.
Lemma any_prim T body : low T -> constructed_octet T = false -> bytes body -> any_der (ObjectsSpec.tlv T body).
Proof.
  intros HT HC Hb. destruct (octet_split T HT) as (E & Hcl & Hnum). rewrite HC, Z.add_0_r in E. rewrite E. apply any_primitive; assumption.
Qed.
Ltac lows := unfold low; split; [lia|reflexivity].
Lemma in_nil_any (p : list Z) : In p [] -> p = [] \/ any_der p.
Proof. intros []. Qed.
Lemma in_cons_any (q : list Z) l p : (q = [] \/ any_der q) -> (In p l -> p = [] \/ any_der p) -> In p (q :: l) -> p = [] \/ any_der p.
Proof. intros H1 H2 [<-|H]; auto. Qed.
Ltac parts := let z := fresh "z" in intros z; repeat (apply in_cons_any); [..|apply in_nil_any].

Lemma any_alg a : alg_fine a -> any_der (der_alg a).
Proof.
  intros (H1 & H2). apply any_parts; [lows|reflexivity|]. parts.
  - right. apply any_prim; [lows|reflexivity|assumption].
  - destruct (al_params a); [right; exact H2|left; reflexivity].
Qed.
Lemma any_attribute a : attribute_fine a -> any_der (der_attribute a).
Proof.
  intros (H1 & H2). apply any_parts; [lows|reflexivity|]. parts.
  - right. apply any_prim; [lows|reflexivity|assumption].
  - right. apply any_parts; [lows|reflexivity|]. intros p Hp. right. rewrite Forall_forall in H2. auto.
Qed.
Lemma any_attributes n l : n = 0 \/ n = 1 -> attributes_fine l -> OPTIONAL (der_attributes n) l = [] \/ any_der (OPTIONAL (der_attributes n) l).
Proof.
  intros Hn H. destruct l as [l|]; [right|left; reflexivity]. cbn [OPTIONAL]. unfold der_attributes, CONTEXT.
  apply any_parts; [destruct Hn as [-> | ->]; lows|destruct Hn as [-> | ->]; reflexivity|].
  intros p Hp. apply in_map_iff in Hp. destruct Hp as (a & <- & Ha). right. apply any_attribute. cbn in H. rewrite Forall_forall in H. auto.
Qed.
Lemma any_signer s ski : signer_fine s ski -> any_der (der_signer s ski).
Proof.
  intros (H1 & _ & H3 & H4 & H5 & H6 & H7 & H8). apply any_parts; [lows|reflexivity|]. parts.
  - right. apply any_prim; [lows|reflexivity|assumption].
  - right. apply any_prim; [lows|reflexivity|assumption].
  - right. apply any_alg. assumption.
  - apply any_attributes; auto.
  - right. apply any_alg. assumption.
  - right. apply any_prim; [lows|reflexivity|assumption].
  - apply any_attributes; auto.
Qed.
Lemma any_signed_data sd signers : signed_data_fine sd signers -> any_der (der_signed_data sd signers).
Proof.
  intros (H1 & H2 & H3 & H4 & H5 & _ & _ & H8). apply any_parts; [lows|reflexivity|]. parts.
  - right. apply any_prim; [lows|reflexivity|assumption].
  - right. apply any_parts; [lows|reflexivity|]. intros p Hp. apply in_map_iff in Hp. destruct Hp as (a & <- & Ha). right.
    apply any_alg. rewrite Forall_forall in H2. auto.
  - right. apply any_parts; [lows|reflexivity|]. parts.
    + right. apply any_prim; [lows|reflexivity|assumption].
    + destruct (sd_econtent sd) as [c|]; [right|left; reflexivity]. cbn [OPTIONAL]. unfold CONTEXT.
      rewrite <- (app_nil_r (OCTET_STRING c)). apply (any_parts 160 [OCTET_STRING c]); [lows|reflexivity|]. parts.
      right. apply any_prim; [lows|reflexivity|assumption].
  - destruct (sd_certs sd) as [l|]; [right|left; reflexivity]. cbn [OPTIONAL]. unfold CONTEXT. apply any_parts; [lows|reflexivity|].
    intros p Hp. right. rewrite Forall_forall in H5. auto.
  - right. apply any_parts; [lows|reflexivity|]. intros p Hp. apply in_map_iff in Hp. destruct Hp as (s & <- & Hs). right.
    apply any_signer. rewrite Forall_forall in H8. auto.
Qed.

(** ** The values of the attributes *)
Lemma any_head b : any_der b -> exists T body, b = ObjectsSpec.tlv T body /\ low T /\ bytes body.
Proof.
  intros H. assert (B : bytes b) by (apply any_bytes; assumption). destruct H as [cl num body H1 H2 H3|cl num parts H1 H2 H3].
  - eexists _, _. split; [reflexivity|]. split; [|assumption]. split; [lia|]. replace ((cl * 64 + num) mod 32) with num by (apply Z.mod_unique with (cl * 2); lia). lia.
  - eexists _, _. split; [reflexivity|]. split; [|apply tlv_body_bytes in B; exact B]. split; [lia|].
    replace ((cl * 64 + 32 + num) mod 32) with num by (apply Z.mod_unique with (cl * 2 + 1); lia). lia.
Qed.

Lemma len_octets_not128 n x y : 0 <= n -> len_octets n ++ x <> 128 :: y.
Proof.
  intros Hn. unfold len_octets. destruct (Z.ltb_spec n 128); intros E; cbn [app] in E; apply (f_equal (hd 0)) in E; cbn [hd] in E; [lia|]. cbn zeta in E.
  pose proof (digits256_length 8 n []) as L. assert (L1 : (1 <= length (digits256 8 n []))%nat).
  { cbn [digits256]. destruct (Z.eqb_spec n 0); [lia|]. pose proof (digits256_length 7 (n / 256) [n mod 256]). cbn [length] in *. exact (proj1 H0). }
  lia.
Qed.

Lemma low_ne T : low T -> T mod 32 <> 31. Proof. intros (_ & H). lia. Qed.
Lemma low_inj T T' : low T -> low T' -> constructed_octet T = constructed_octet T' -> T mod 32 * 4 + T / 64 = T' mod 32 * 4 + T' / 64 -> T = T'.
Proof.
  intros H H' C E. destruct (octet_split T H) as (E1 & A1 & A2). destruct (octet_split T' H') as (E2 & B1 & B2). rewrite E1, E2, C.
  assert (T mod 32 = T' mod 32 /\ T / 64 = T' / 64) by lia. lia.
Qed.

(** A primitive value of a known tag. *)
Lemma prim_value T T' body b r p : low T -> low T' -> constructed_octet T' = false -> Z.of_nat (length body) < 4611686018427387904 ->
  dchain [Some (tag_of T')] false (Z.of_nat (length b)) p -> (p ++ b) ++ r = ObjectsSpec.tlv T body -> T = T' /\ b = body /\ r = [].
Proof.
  intros HT HT' HC Hl Hp E. inversion Hp as [e c len h Hh|e es c len h q Hh Hq]; subst; [|inversion Hq].
  destruct Hh as (Tg & L & cl & num & -> & Ht & _ & He & Ha & _). unfold ObjectsSpec.tlv in E. rewrite <- !app_assoc in E.
  destruct (low_byte _ _ _ _ _ _ _ Ht E (low_ne _ HT)) as (-> & E' & Hc & Hn). specialize (He _ eq_refl).
  assert (T = T').
  { apply low_inj; [assumption..| |unfold tag_of in He; lia]. rewrite HC. symmetry. exact Hc. }
  split; [assumption|]. destruct Ha as [Ha|(_ & -> & Q)].
  - destruct (length_unique _ _ _ _ _ _ _ Ha (len_octets_ok false (Z.of_nat (length body)) ltac:(lia)) E') as (_ & Q & E2). injection Q as Q.
    assert (length r = 0)%nat. { apply (f_equal (@length Z)) in E2. rewrite app_length in E2. lia. }
    destruct r; [|discriminate]. rewrite app_nil_r in E2. auto.
  - exfalso. eapply len_octets_not128; [|symmetry; exact E']. lia.
Qed.

Lemma oid_value nobuf turns v b : (2 <= turns)%nat -> any_der v -> Z.of_nat (length v) < 536870912 ->
  (decode_oid nobuf turns v = Some b <-> b <> [] /\ v = OBJECT_IDENTIFIER b).
Proof.
  intros Hturns Hv Hl. assert (Hb : bytes v) by (apply any_bytes; assumption).
  destruct (any_head v Hv) as (T & body & -> & HT & Hbody). split.
  - intros D. unfold decode_oid in D. destruct (asn1_decode nobuf turns t_OBJECT_IDENTIFIER k_OBJECT_IDENTIFIER (ObjectsSpec.tlv T body)) as [x| | |] eqn:A; try discriminate.
    apply accepted_iff in A; [|cbn; tauto|assumption..]. destruct A as ((n & Hn & He) & Hc). cbn [got] in D.
    remember (firstn n (ObjectsSpec.tlv T body)) as w eqn:Ew. inversion He; subst; try discriminate. injection D as <-.
    pose proof (firstn_skipn n (ObjectsSpec.tlv T body)) as E. match goal with H : _ = firstn _ _ |- _ => rewrite <- H in E end.
    assert (Hl' : Z.of_nat (length body) < 4611686018427387904) by (pose proof (tlv_length T body); lia).
    match goal with H : dchain _ _ _ _ |- _ => destruct (prim_value T 6 body _ _ _ HT ltac:(lows) eq_refl Hl' H E) as (-> & -> & _) end.
    split; [|reflexivity]. intros ->. discriminate.
  - intros (Hne & E). rewrite E in *. rewrite <- (app_nil_r (OBJECT_IDENTIFIER b)).
    destruct (C67_primitives nobuf turns b [] Hturns ltac:(constructor)) as (-> & _).
    + apply tlv_body_bytes in Hb. exact Hb.
    + pose proof (tlv_length 6 b). unfold OBJECT_IDENTIFIER in Hl. lia.
    + destruct b; [congruence|reflexivity].
Qed.

Lemma octets_value nobuf turns v b : (2 <= turns)%nat -> any_der v -> Z.of_nat (length v) < 536870912 -> nth 0 v 0 <> 36 ->
  (decode_octets nobuf turns v = Some b <-> v = OCTET_STRING b).
Proof.
  intros Hturns Hv Hl H36. assert (Hb : bytes v) by (apply any_bytes; assumption).
  destruct (any_head v Hv) as (T & body & -> & HT & Hbody). split.
  - intros D. unfold decode_octets in D. destruct (asn1_decode nobuf turns t_MessageDigest k_MessageDigest (ObjectsSpec.tlv T body)) as [x| | |] eqn:A; try discriminate.
    apply accepted_iff in A; [|cbn; tauto|assumption..]. destruct A as ((n & Hn & He) & Hc). cbn [got] in D.
    remember (firstn n (ObjectsSpec.tlv T body)) as w eqn:Ew. pose proof (firstn_skipn n (ObjectsSpec.tlv T body)) as E. rewrite <- Ew in E.
    assert (Hl' : Z.of_nat (length body) < 4611686018427387904) by (pose proof (tlv_length T body); lia).
    inversion He; subst; try discriminate; injection D as <-.
    + match goal with H : _ = firstn _ _ |- _ => rewrite <- H in E end. match goal with H : dchain _ _ _ _ |- _ => destruct (prim_value T 4 body _ _ _ HT ltac:(lows) eq_refl Hl' H E) as (-> & -> & _) end. reflexivity.
    + exfalso. apply H36. cbn [nth ObjectsSpec.tlv].
      match goal with H : opens _ _ |- _ => destruct H as [(p & bd & E1 & Hp)|(p & rs & E1 & Hp)] end.
      * rewrite E1 in E. unfold ObjectsSpec.tlv in E. inversion Hp as [e c len h Hh|e es c len h q Hh Hq]; subst; [|inversion Hq].
        destruct Hh as (Tg & L & cl & num & -> & Ht & _ & He1 & Ha & _). rewrite <- !app_assoc in E.
        destruct (low_byte _ _ _ _ _ _ _ Ht E (low_ne _ HT)) as (-> & E' & Hcc & Hnn). specialize (He1 _ eq_refl).
        apply low_inj; [assumption|lows|symmetry; exact Hcc|]. change (36 mod 32 * 4 + 36 / 64) with 16. lia.
      * rewrite E1 in E. unfold ObjectsSpec.tlv in E. inversion Hp as [e h Hh|e es h q Hh Hq]; subst; [|inversion Hq].
        destruct Hh as (Tg & L & cl & num & -> & Ht & _ & He1 & Ha & _). rewrite <- !app_assoc in E.
        destruct (low_byte _ _ _ _ _ _ _ Ht E (low_ne _ HT)) as (-> & E' & Hcc & Hnn). specialize (He1 _ eq_refl).
        apply low_inj; [assumption|lows|symmetry; exact Hcc|]. change (36 mod 32 * 4 + 36 / 64) with 16. lia.
  - intros E. rewrite E in *. rewrite <- (app_nil_r (OCTET_STRING b)).
    destruct (C67_primitives nobuf turns b [] Hturns ltac:(constructor)) as (_ & ->).
    + apply tlv_body_bytes in Hb. exact Hb.
    + pose proof (tlv_length 4 b). unfold OCTET_STRING in Hl. lia.
    + reflexivity.
Qed.
