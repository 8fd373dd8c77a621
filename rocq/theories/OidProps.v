(** C62: object identifiers are read, compared and printed as X.690 says. *)
From Verif Require Import Base BaseLemmas BerSpec BerProofs Oid OidSpec OidProofs.

(** An identifier is read if and only if its bytes are a sequence of whole
    subidentifiers, at least one; what is read is its arcs modulo 2^32. *)
Theorem C62_arcs (b : list Z) : bytes b ->
  (forall v vs, subids b (v :: vs) ->
     let arcs := first_arcs (v mod 2 ^ 32) ++ map (fun w => w mod 2 ^ 32) vs in
     oid2arcs b = Ok {| oa_arcs := arcs; oa_count := length arcs |}) /\
  ((forall v vs, ~ subids b (v :: vs)) -> exists e, oid2arcs b = Err e).
Proof.
  intros Hb. split.
  - intros v vs H. exact (oid2arcs_complete b v vs H).
  - intros H. destruct (oid2arcs_cases b Hb) as [(v & vs & H2)|H2]; [exfalso; exact (H v vs H2)|exact H2].
Qed.

(** The encoding is unambiguous. *)
Lemma subid_unique_z cont : forall last cont2 last2 r r2, Forall (fun c => 0 <= c < 128) cont -> 0 <= last < 128 ->
  Forall (fun c => 0 <= c < 128) cont2 -> 0 <= last2 < 128 ->
  map (fun c => 128 + c) cont ++ last :: r = map (fun c => 128 + c) cont2 ++ last2 :: r2 -> cont = cont2 /\ last = last2 /\ r = r2.
Proof.
  induction cont as [|c cont IH]; intros last [|c2 cont2] last2 r r2 H1 H2 H3 H4 E; cbn [map app] in E.
  - pose proof (f_equal (hd 0) E). pose proof (f_equal (@tl Z) E). auto.
  - apply (f_equal (hd 0)) in E. cbn [hd] in E. inversion H3; subst. lia.
  - apply (f_equal (hd 0)) in E. cbn [hd] in E. inversion H1; subst. lia.
  - pose proof (f_equal (hd 0) E) as E1. pose proof (f_equal (@tl Z) E) as E2. cbn [hd tl] in E1, E2.
    inversion H1; inversion H3; subst. apply IH in E2; [|assumption..]. destruct E2 as (-> & -> & ->).
    split; [f_equal; lia|auto].
Qed.
Lemma subid_unique b v b2 v2 r r2 : subid b v -> subid b2 v2 -> b ++ r = b2 ++ r2 -> b = b2 /\ v = v2 /\ r = r2.
Proof.
  intros [cont last Hc Hl] [cont2 last2 Hc2 Hl2] E. rewrite <- !app_assoc in E. cbn [app] in E.
  apply subid_unique_z in E; [|assumption..]. destruct E as (-> & -> & ->). auto.
Qed.
Lemma subids_unique b vs : subids b vs -> forall vs2, subids b vs2 -> vs = vs2.
Proof.
  induction 1 as [|b bs v vs Hs Hss IH]; intros vs2 H2.
  - remember [] as e eqn:Ee. destruct H2 as [|b bs v vs Hs Hss]; [reflexivity|].
    apply subid_facts in Hs. destruct b; [cbn [length] in Hs; lia|discriminate].
  - remember (b ++ bs) as e eqn:Ee. destruct H2 as [|b2 bs2 v2 vs2 Hs2 Hss2].
    + apply subid_facts in Hs. destruct b; [cbn [length] in Hs; lia|discriminate].
    + destruct (subid_unique _ _ _ _ _ _ Hs Hs2 (eq_sym Ee)) as (-> & -> & ->). f_equal. auto.
Qed.
Theorem C62_unambiguous (b a1 a2 : list Z) : encodes b a1 -> encodes b a2 -> a1 = a2.
Proof.
  intros (v & vs & H & ->) (v2 & vs2 & H2 & ->). pose proof (subids_unique _ _ H _ H2) as E.
  injection E as -> ->. reflexivity.
Qed.

(** "Is this the identifier so-and-so" is answered right, provided that no
    subidentifier reaches 2^32; no bytes make it read out of bounds. *)
Theorem C62_is_oid_partial (b oid : list Z) : bytes b ->
  (forall vs, subids b vs -> Forall is_u32 vs) ->
  (is_oid b oid = Ok true <-> encodes b oid) /\
  is_oid b oid <> UB.
Proof.
  intros Hb Hs. split; [|apply is_oid_not_ub; assumption]. split.
  - intros E. apply is_oid_true in E; [|assumption]. destruct E as (v & vs & H & <-). exists v, vs. split; [exact H|].
    apply Hs in H. inversion H as [|? ? H1 H2]; subst. unfold arcs32. rewrite wrap32_id by assumption. f_equal.
    clear - H2. induction H2 as [|w ws Hw _ IH]; [reflexivity|]. cbn [map]. rewrite wrap32_id by assumption. f_equal. exact IH.
  - intros (v & vs & H & ->). destruct (is_oid_complete b v vs (first_arcs v ++ vs) H) as [r [Er Hr]].
    rewrite Er. f_equal. apply Hr. apply Hs in H. inversion H as [|? ? H1 H2]; subst. unfold arcs32.
    rewrite wrap32_id by assumption. f_equal.
    clear - H2. induction H2 as [|w ws Hw _ IH]; [reflexivity|]. cbn [map]. rewrite wrap32_id by assumption. f_equal. exact IH.
Qed.

(** Without that proviso the answer can be wrong: the type
    1.2.840.113549.1.9.16.1.4294967320 is taken for a ROA's. *)
Definition big_oid : list Z := [42; 134; 72; 134; 247; 13; 1; 9; 16; 1; 144; 128; 128; 128; 24].
Lemma big_encodes : encodes big_oid [1; 2; 840; 113549; 1; 9; 16; 1; 4294967320].
Proof.
  exists 42, [840; 113549; 1; 9; 16; 1; 4294967320]. split; [|reflexivity].
  apply (subids_cons [42] _ 42); [exact (subid_intro [] 42 ltac:(constructor) ltac:(lia))|].
  apply (subids_cons [134; 72] _ 840); [exact (subid_intro [6] 72 ltac:(repeat constructor; lia) ltac:(lia))|].
  apply (subids_cons [134; 247; 13] _ 113549); [exact (subid_intro [6; 119] 13 ltac:(repeat constructor; lia) ltac:(lia))|].
  apply (subids_cons [1] _ 1); [exact (subid_intro [] 1 ltac:(constructor) ltac:(lia))|].
  apply (subids_cons [9] _ 9); [exact (subid_intro [] 9 ltac:(constructor) ltac:(lia))|].
  apply (subids_cons [16] _ 16); [exact (subid_intro [] 16 ltac:(constructor) ltac:(lia))|].
  apply (subids_cons [1] _ 1); [exact (subid_intro [] 1 ltac:(constructor) ltac:(lia))|].
  apply (subids_cons [144; 128; 128; 128; 24] [] 4294967320 []); [|constructor].
  exact (subid_intro [16; 0; 0; 0] 24 ltac:(repeat constructor; lia) ltac:(lia)).
Qed.
Theorem C62_overflow_refuted : exists b,
  bytes b /\ encodes b [1; 2; 840; 113549; 1; 9; 16; 1; 2 ^ 32 + 24] /\ ~ encodes b OID_ROA /\ is_oid b OID_ROA = Ok true.
Proof.
  exists big_oid. split; [apply Forall_forall; unfold is_byte; cbn [In big_oid]; lia|].
  split; [exact big_encodes|]. split; [|vm_compute; reflexivity].
  intros H. pose proof (C62_unambiguous _ _ _ H big_encodes) as E. discriminate E.
Qed.

(** The text of an identifier is its arcs (modulo 2^32) in dotted decimal, and
    it is produced when it has at most 63 characters. *)
Theorem C62_text (b : list Z) : bytes b ->
  (forall v vs, subids b (v :: vs) ->
     exists s, dotted s (first_arcs (v mod 2 ^ 32) ++ map (fun w => w mod 2 ^ 32) vs) /\
               OBJECT_IDENTIFIER_to_literal b = if (length s <=? 63)%nat then Some s else None) /\
  ((forall v vs, ~ subids b (v :: vs)) -> OBJECT_IDENTIFIER_to_literal b = None).
Proof.
  intros Hb. split.
  - intros v vs H. exists (text_of (arcs32 v vs)). split; [|exact (literal_complete b v vs H)].
    apply (text_dotted (arcs32 v vs)); [unfold arcs32; rewrite first_two; discriminate|apply arcs32_u32].
  - intros H. destruct (OBJECT_IDENTIFIER_to_literal b) as [s|] eqn:E; [|reflexivity].
    destruct (literal_sound b s Hb E) as (v & vs & H2). exfalso. exact (H v vs H2).
Qed.

(** Byte comparison of two identifiers is equality. *)
Theorem C62_equal (a b : list Z) : oid_equal a b = true <-> a = b.
Proof. exact (oid_equal_spec a b). Qed.

(** Non-vacuity. *)
Definition roa_oid : list Z := [42; 134; 72; 134; 247; 13; 1; 9; 16; 1; 24].
Example C62_ex_roa : is_oid roa_oid OID_ROA = Ok true /\ is_oid roa_oid OID_MANIFEST = Ok false /\
  is_oid [42; 134] OID_ROA = Err EINVAL /\
  OBJECT_IDENTIFIER_to_literal roa_oid =
  Some [49; 46; 50; 46; 56; 52; 48; 46; 49; 49; 51; 53; 52; 57; 46; 49; 46; 57; 46; 49; 54; 46; 49; 46; 50; 52].
Proof. vm_compute. auto. Qed.

Print Assumptions C62_arcs.
Print Assumptions C62_unambiguous.
Print Assumptions C62_is_oid_partial.
Print Assumptions C62_overflow_refuted.
Print Assumptions C62_text.
Print Assumptions C62_equal.
