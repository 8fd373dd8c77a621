From Coq Require Import Lia.
From Verif Require Import Base BaseLemmas CertStack Extensions ExtensionsSpec CertProfile CertProfileSpec.
Notation length := List.length.

Lemma until_nul_id l : ~ In 0 l -> until_nul l = l.
Proof.
  induction l as [|c l IH]; [reflexivity|]. intros H. cbn [until_nul]. destruct (Z.eqb_spec c 0) as [->|N]; [destruct H; left; reflexivity|].
  rewrite IH; [reflexivity|]. intros I. apply H. right. exact I.
Qed.

Section Names.
  Context (CN SN : Z) (CS : CN <> SN).
  Local Notation valid_name := (valid_name CN SN).
  Local Notation plain := (plain CN SN).
  Local Notation decode := (x509_name_decode CN SN).

  Lemma decode_loop l : forall n r, name_loop CN SN l n = Ok r ->
    (forall e, In e l -> (ne_nid e = CN \/ ne_nid e = SN) /\ ne_data e <> None) /\
    ((count CN l = O /\ commonName r = commonName n) \/ (exists d, In {| ne_nid := CN; ne_data := Some d |} l /\ commonName r = Some d)) /\
    ((count SN l = O /\ serialNumber r = serialNumber n) \/ (exists d, In {| ne_nid := SN; ne_data := Some d |} l /\ serialNumber r = Some d)).
  Proof.
    induction l as [|[i d] l IH]; intros n r E; cbn [name_loop ne_nid] in E.
    { injection E as <-. split; [intros e []|]. split; left; split; reflexivity. }
    unfold name2string in E. cbn [ne_data] in E. unfold count in *. cbn [filter ne_nid].
    destruct (Z.eqb_spec i CN) as [->|N1]; [|destruct (Z.eqb_spec i SN) as [->|N2]; [|discriminate]];
      (destruct d as [d|]; cbn [bind] in E; [|discriminate]); apply IH in E; cbn [commonName serialNumber] in E; destruct E as (A & B & C).
    - split; [intros e [<-|I]; [split; [left; reflexivity|discriminate]|auto]|]. split.
      + right. destruct B as [(_ & B)|(d' & B & B')]; [exists d; split; [left; reflexivity|exact B]|exists d'; split; [right; exact B|exact B']].
      + destruct (Z.eqb_spec CN SN) as [Q|_]; [contradiction|]. destruct C as [C|(d' & C & C')]; [left; exact C|right; exists d'; split; [right; exact C|exact C']].
    - split; [intros e [<-|I]; [split; [right; reflexivity|discriminate]|auto]|]. split.
      + destruct B as [B|(d' & B & B')]; [left; exact B|right; exists d'; split; [right; exact B|exact B']].
      + right. destruct C as [(_ & C)|(d' & C & C')]; [exists d; split; [left; reflexivity|exact C]|exists d'; split; [right; exact C|exact C']].
  Qed.
  Lemma decode_loop_ok l : (forall e, In e l -> (ne_nid e = CN \/ ne_nid e = SN) /\ ne_data e <> None) -> forall n, exists r, name_loop CN SN l n = Ok r.
  Proof.
    induction l as [|[i d] l IH]; intros H n; [exists n; reflexivity|]. cbn [name_loop ne_nid]. destruct (H _ (or_introl eq_refl)) as (K & D). cbn [ne_nid ne_data] in K, D.
    unfold name2string. cbn [ne_data]. destruct d as [d|]; [|congruence]. cbn [bind].
    destruct (Z.eqb_spec i CN) as [->|N1]; [apply IH; intros; apply H; right; assumption|].
    destruct (Z.eqb_spec i SN) as [->|N2]; [apply IH; intros; apply H; right; assumption|]. destruct K; contradiction.
  Qed.
  Lemma count_in i d l : In {| ne_nid := i; ne_data := d |} l -> (1 <= count i l)%nat.
  Proof.
    intros H. unfold count. assert (I : In {| ne_nid := i; ne_data := d |} (filter (fun e => ne_nid e =? i) l)) by (apply filter_In; split; [exact H|apply Z.eqb_refl]).
    destruct (filter (fun e => ne_nid e =? i) l); [destruct I|cbn; lia].
  Qed.
  Lemma count_one i d d' l : (count i l <= 1)%nat -> In {| ne_nid := i; ne_data := d |} l -> In {| ne_nid := i; ne_data := d' |} l -> d = d'.
  Proof.
    intros H I I'. unfold count in H.
    assert (J : In {| ne_nid := i; ne_data := d |} (filter (fun e => ne_nid e =? i) l)) by (apply filter_In; split; [exact I|apply Z.eqb_refl]).
    assert (J' : In {| ne_nid := i; ne_data := d' |} (filter (fun e => ne_nid e =? i) l)) by (apply filter_In; split; [exact I'|apply Z.eqb_refl]).
    destruct (filter (fun e => ne_nid e =? i) l) as [|a [|b k]]; [destruct J| |cbn in H; lia]. destruct J as [->|[]], J' as [J'|[]]. congruence.
  Qed.

  (** What a decoded name says. *)
  Definition stands (l : list name_entry) (n : rfc5280_name) : Prop :=
    (forall e, In e l <-> (exists d, commonName n = Some d /\ e = {| ne_nid := CN; ne_data := Some d |}) \/ (exists d, serialNumber n = Some d /\ e = {| ne_nid := SN; ne_data := Some d |})) /\
    commonName n <> None.

  Lemma decode_sound l n : plain l -> decode l = Ok n -> valid_name l /\ stands l n.
  Proof.
    intros (P1 & P2 & _) E. unfold x509_name_decode in E. destruct (name_loop CN SN l _) as [r| |] eqn:L; cbn [bind] in E; try discriminate.
    apply decode_loop in L. cbn [commonName serialNumber] in L. destruct L as (A & B & C). destruct (commonName r) as [cn|] eqn:Q; [|discriminate]. injection E as <-.
    destruct B as [(_ & B)|(d & B & B')]; [discriminate|]. injection B' as <-.
    split; [split; [exact A|]; split; [|exact P2]; apply count_in in B; lia|]. split; [|rewrite Q; discriminate].
    intros [i d]. split.
    - intros I. destruct (A _ I) as ([K|K] & D); cbn [ne_nid ne_data] in K, D; subst i; (destruct d as [d|]; [|congruence]).
      + left. exists d. split; [|reflexivity]. rewrite Q. exact (eq_sym (count_one CN _ _ l P1 I B)).
      + right. exists d. split; [|reflexivity]. destruct C as [(C & _)|(d' & C & C')]; [apply count_in in I; lia|]. rewrite C'. exact (eq_sym (count_one SN _ _ l P2 I C)).
    - intros [(d' & D & E)|(d' & D & E)]; injection E as -> ->.
      + rewrite Q in D. injection D as <-. exact B.
      + destruct C as [(_ & C)|(d'' & C & C')]; [congruence|]. rewrite D in C'. injection C' as <-. exact C.
  Qed.
  Lemma decode_complete l : valid_name l -> exists n, decode l = Ok n.
  Proof.
    intros (A & B & C). destruct (decode_loop_ok l A {| commonName := None; serialNumber := None |}) as (r & E). unfold x509_name_decode. rewrite E. cbn [bind].
    apply decode_loop in E. destruct E as (_ & [(B' & _)|(d & _ & B')] & _); [congruence|]. rewrite B'. eauto.
  Qed.
  Lemma decode_cn l n : decode l = Ok n -> commonName n <> None.
  Proof.
    unfold x509_name_decode. destruct (name_loop CN SN l _) as [r| |]; cbn [bind]; try discriminate. destruct (commonName r) as [cn|] eqn:Q; [|discriminate].
    intros E. injection E as <-. congruence.
  Qed.
  Lemma decode_total l : (exists n, decode l = Ok n) \/ exists e, decode l = Err e.
  Proof.
    unfold x509_name_decode. assert (X : forall n, (exists r, name_loop CN SN l n = Ok r) \/ exists e, name_loop CN SN l n = Err e).
    { induction l as [|[i d] l' IH]; intros n; [left; exists n; reflexivity|]. destruct d as [d|]; cbn [name_loop ne_nid]; unfold name2string; cbn [ne_data bind];
        (destruct (i =? CN); [|destruct (i =? SN)]); cbn [bind]; eauto. }
    destruct (X {| commonName := None; serialNumber := None |}) as [(r & ->)|(e & ->)]; cbn [bind]; [|eauto]. destruct (commonName r); eauto.
  Qed.

  Lemma equals_iff a b n m : plain a -> plain b -> stands a n -> stands b m -> (x509_name_equals n m = Ok true <-> same_name a b).
  Proof.
    intros PA PB (SA & CA') (SB & CB'). destruct n as [[ca|] sa], m as [[cb|] sb]; cbn [commonName serialNumber] in *; try congruence. unfold x509_name_equals. cbn [commonName serialNumber].
    assert (NA : ~ In 0 ca). { apply (proj2 (proj2 PA) {| ne_nid := CN; ne_data := Some ca |}); [apply SA; left; eauto|reflexivity]. }
    assert (NB : ~ In 0 cb). { apply (proj2 (proj2 PB) {| ne_nid := CN; ne_data := Some cb |}); [apply SB; left; eauto|reflexivity]. }
    assert (NSA : forall d, sa = Some d -> ~ In 0 d). { intros d ->. apply (proj2 (proj2 PA) {| ne_nid := SN; ne_data := Some d |}); [apply SA; right; eauto|reflexivity]. }
    assert (NSB : forall d, sb = Some d -> ~ In 0 d). { intros d ->. apply (proj2 (proj2 PB) {| ne_nid := SN; ne_data := Some d |}); [apply SB; right; eauto|reflexivity]. }
    assert (Q : str_same ca cb && str_equals sa sb = true <-> ca = cb /\ sa = sb).
    { rewrite Bool.andb_true_iff. unfold str_same. rewrite (list_eqb_spec Z.eqb Z.eqb_eq), !until_nul_id by assumption.
      destruct sa as [sa|], sb as [sb|]; cbn [str_equals]; try (intuition congruence).
      unfold str_same. rewrite (list_eqb_spec Z.eqb Z.eqb_eq), !until_nul_id by auto. intuition congruence. }
    assert (H : Ok (str_same ca cb && str_equals sa sb) = Ok true <-> str_same ca cb && str_equals sa sb = true).
    { split; [intros H; injection H as ->; reflexivity|intros ->; reflexivity]. }
    rewrite H, Q. split.
    - intros (-> & ->) e. rewrite SA, SB. reflexivity.
    - intros S. split.
      + assert (I : In {| ne_nid := CN; ne_data := Some ca |} b) by (apply S, SA; left; eauto). apply SB in I. destruct I as [(d & D & E)|(d & D & E)]; injection E as E; congruence.
      + destruct sa as [sa|].
        * assert (I : In {| ne_nid := SN; ne_data := Some sa |} b) by (apply S, SA; right; eauto). apply SB in I. destruct I as [(d & D & E)|(d & D & E)]; injection E as E; congruence.
        * destruct sb as [sb|]; [|reflexivity].
          assert (I : In {| ne_nid := SN; ne_data := Some sb |} a) by (apply S, SB; right; eauto). apply SA in I. destruct I as [(d & D & E)|(d & D & E)]; injection E as E; congruence.
  Qed.

  Lemma issuer_iff parent l : (forall p, parent = Some p -> plain (x_subject p)) -> plain l ->
    validate_issuer_name CN SN parent l = Ok tt <-> exists p, parent = Some p /\ valid_name l /\ valid_name (x_subject p) /\ same_name (x_subject p) l.
  Proof.
    intros PP PL. unfold validate_issuer_name. destruct parent as [p|]; [|split; [discriminate|intros (? & ? & _); discriminate]]. specialize (PP p eq_refl). split.
    - destruct (decode (x_subject p)) as [n| |] eqn:E1; cbn [bind]; try discriminate. destruct (decode l) as [m| |] eqn:E2; cbn [bind]; try discriminate.
      apply decode_sound in E1; [|exact PP]. apply decode_sound in E2; [|exact PL]. destruct E1 as (V1 & S1), E2 as (V2 & S2).
      pose proof (equals_iff _ _ n m PP PL S1 S2) as Q. destruct (x509_name_equals n m) as [[|]| |]; cbn [bind]; try discriminate. intros _. exists p. split; [reflexivity|]. intuition.
    - intros (p' & Q & V2 & V1 & S). injection Q as <-. destruct (decode_complete _ V1) as (n & E1). destruct (decode_complete _ V2) as (m & E2). rewrite E1, E2. cbn [bind].
      apply decode_sound in E1; [|exact PP]. apply decode_sound in E2; [|exact PL]. destruct E1 as (_ & S1), E2 as (_ & S2).
      rewrite (proj2 (equals_iff _ _ n m PP PL S1 S2) S). reflexivity.
  Qed.
  Lemma issuer_total parent l : validate_issuer_name CN SN parent l = Ok tt \/ exists e, validate_issuer_name CN SN parent l = Err e.
  Proof.
    unfold validate_issuer_name. destruct parent as [p|]; [|eauto]. destruct (decode_total (x_subject p)) as [(n & E)|(e & E)]; rewrite E; cbn [bind]; [|eauto].
    destruct (decode_total l) as [(m & E')|(e & E')]; rewrite E'; cbn [bind]; [|eauto]. apply decode_cn in E, E'. unfold x509_name_equals.
    destruct (commonName n); [|congruence]. destruct (commonName m); [|congruence]. cbn [bind]. destruct (_ && _); eauto.
  Qed.
  Lemma decode_iff l : plain l -> bind (decode l) (fun _ => Ok tt) = Ok tt <-> valid_name l.
  Proof.
    intros P. split.
    - destruct (decode l) as [n| |] eqn:E; try discriminate. intros _. apply decode_sound in E; [|exact P]. apply E.
    - intros V. destruct (decode_complete l V) as (n & ->). reflexivity.
  Qed.
End Names.

Lemma spki_iff a b : spki_cmp a b = Ok tt <-> same_key a b.
Proof.
  unfold spki_cmp, same_key. destruct (pk_param a) as [[alg ka]|]; [|split; [discriminate|intros (? & ? & ? & ? & _); discriminate]].
  destruct (pk_param b) as [[alg' kb]|]; [|split; [discriminate|intros (? & ? & ? & _ & ? & _); discriminate]].
  pose proof (list_eqb_spec Z.eqb Z.eqb_eq (al_oid alg) (al_oid alg')) as L1. pose proof (list_eqb_spec Z.eqb Z.eqb_eq ka kb) as L2. split.
  - destruct (list_eqb Z.eqb (al_oid alg) (al_oid alg')); cbn [negb]; [|discriminate]. destruct (length ka =? length kb)%nat; cbn [negb]; [|discriminate].
    destruct (list_eqb Z.eqb ka kb); cbn [negb]; [|discriminate]. intros _. assert (ka = kb) as -> by intuition. exists alg, alg', kb. intuition.
  - intros (x & y & k & Q1 & Q2 & Q3). injection Q1 as <- <-. injection Q2 as <- <-. rewrite (proj2 L1 Q3), Nat.eqb_refl, (proj2 L2 eq_refl). reflexivity.
Qed.
