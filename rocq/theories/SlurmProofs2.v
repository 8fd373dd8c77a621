From Coq Require Import String Permutation.
From Verif Require Import Base BaseLemmas Types HashSet DbTable CString CLib PduWireSpec Address AddressSpec
  AddressProofs AddressProps Vrps VrpsSpec VrpsProofs Slurm SlurmSpec SlurmProofs.
Notation length := List.length.

Lemma flags_pfx fl : In (no_comment fl) [1; 4; 5] ->
  (no_comment fl = 1 /\ flag_on fl FLAG_ASN = true /\ flag_on fl FLAG_PREFIX = false) \/
  (no_comment fl = 4 /\ flag_on fl FLAG_ASN = false /\ flag_on fl FLAG_PREFIX = true) \/
  (no_comment fl = 5 /\ flag_on fl FLAG_ASN = true /\ flag_on fl FLAG_PREFIX = true).
Proof.
  intros H.
  assert (A : forall b, b = 1 \/ b = 4 -> flag_on fl b = flag_on (no_comment fl) b).
  { intros b Hb. unfold flag_on, no_comment. f_equal. rewrite <- Z.land_assoc. f_equal.
    destruct Hb as [-> | ->]; reflexivity. }
  unfold FLAG_ASN, FLAG_PREFIX. rewrite !A by auto.
  destruct H as [H|[H|[H|[]]]]; rewrite <- H; cbn; auto 10.
Qed.

Lemma Forall2_app_inv {A B} (R : A -> B -> Prop) l1 l2 m1 m2 :
  Forall2 R l1 m1 -> Forall2 R l2 m2 -> Forall2 R (l1 ++ l2) (m1 ++ m2).
Proof. intros H1 H2. apply Forall2_app; auto. Qed.
Lemma Forall2_In_l {A B} (R : A -> B -> Prop) l m x : Forall2 R l m -> In x l -> exists y, In y m /\ R x y.
Proof.
  induction 1 as [|a b l m H F IH]; intros [].
  - subst. exists b. cbn. auto.
  - destruct (IH H0) as (y & Hy & Ry). exists y. cbn. auto.
Qed.
Lemma Forall2_In_r {A B} (R : A -> B -> Prop) l m y : Forall2 R l m -> In y m -> exists x, In x l /\ R x y.
Proof.
  induction 1 as [|a b l m H F IH]; intros [].
  - subst. exists a. cbn. auto.
  - destruct (IH H0) as (x & Hx & Rx). exists x. cbn. auto.
Qed.

(** ** Deleting while iterating. *)
Lemma fold_del {A} (eqb : A -> A -> bool) (EQ : forall x y, eqb x y = true <-> x = y) (p : A -> bool) l :
  forall acc x, In x (fold_left (fun acc v => if p v then hs_del eqb v acc else acc) l acc) <->
    In x acc /\ ~ (In x l /\ p x = true).
Proof.
  induction l as [|a l IH]; intros acc x; cbn [fold_left In].
  - tauto.
  - rewrite IH. destruct (p a) eqn:P.
    + rewrite (hs_del_In eqb EQ). split.
      * intros [[H1 H2] H3]. split; auto. intros [[->|H] Q]; auto.
      * intros [H1 H2]. split; [split; auto|]; intros Q; apply H2; [subst; auto|tauto].
    + split.
      * intros [H1 H2]. split; auto. intros [[->|H] Q]; [congruence|auto].
      * intros [H1 H2]. split; auto. tauto.
Qed.

Lemma apply_pfx_roas l t0 : forall t x,
  In x (t_roas (fold_left (fun t v => if db_slurm_vrp_is_filtered l v then db_table_remove_roa t v else t) t0 t)) <->
  In x (t_roas t) /\ ~ (In x t0 /\ db_slurm_vrp_is_filtered l x = true).
Proof.
  intros t x.
  replace (t_roas (fold_left (fun t v => if db_slurm_vrp_is_filtered l v then db_table_remove_roa t v else t) t0 t))
    with (fold_left (fun acc v => if db_slurm_vrp_is_filtered l v then hs_del vrp_equals v acc else acc) t0 (t_roas t)).
  - apply fold_del. exact vrp_equals_eq.
  - revert t. induction t0 as [|a t0 IH]; intros t; cbn [fold_left]; auto.
    rewrite <- IH. f_equal. destruct (db_slurm_vrp_is_filtered l a); reflexivity.
Qed.
Lemma apply_pfx_rks l t0 : forall t,
  t_rks (fold_left (fun t v => if db_slurm_vrp_is_filtered l v then db_table_remove_roa t v else t) t0 t) = t_rks t.
Proof.
  induction t0 as [|a t0 IH]; intros t; cbn [fold_left]; auto. rewrite IH.
  destruct (db_slurm_vrp_is_filtered l a); reflexivity.
Qed.

Section Oracles.
  Variable pton4 : list Z -> option Z.
  Variable pton6 : list Z -> option (list Z).
  Variable b64url : list Z -> option (list Z).
  Variable valid_spki : list Z -> bool.
  Hypothesis PT : pton_ok pton4 pton6.
  Notation reads := (reads_prefix pton4 pton6).
  Notation entry_p := (entry_p pton4 pton6).
  Notation entry_b := (entry_b b64url valid_spki).
  Notation parse_prefix := (parse_prefix pton4 pton6).
  Notation parse_bgpsec := (parse_bgpsec b64url valid_spki).
  Notation filter_matches_vrp := (filter_matches_vrp pton4 pton6).
  Notation filter_matches_key := (filter_matches_key b64url).

  Lemma member_fun o k a b : json_ok o -> member o k a -> member o k b -> a = b.
  Proof. intros OK H1 H2. apply member_get in H1, H2; auto. congruence. Qed.

  Lemma filtered_by_iff o f v : json_ok o -> entry_p false o f -> canonical v ->
    (prefix_filtered_by f {| sp_flag := Z.lor (Z.lor FLAG_ASN FLAG_PREFIX) FLAG_MAX_LENGTH; sp_vrp := v |} = true
     <-> filter_matches_vrp o v).
  Proof.
    intros OK (EA & EP & _ & _ & FL) CV. unfold prefix_filtered_by, has_asn, has_pfx in *. cbn [sp_flag sp_vrp].
    assert (A1 : flag_on (sp_flag f) FLAG_ASN = true ->
       ((v_asn (sp_vrp f) =? v_asn v) = true <-> forall x, member o "asn" x -> x = JInt (v_asn v))).
    { intros F. rewrite F in EA. rewrite Z.eqb_eq. split.
      - intros E x M. rewrite <- E. exact (member_fun _ _ _ _ OK M EA).
      - intros H. specialize (H _ EA). congruence. }
    assert (A0 : flag_on (sp_flag f) FLAG_ASN = false -> forall x, member o "asn" x -> x = JInt (v_asn v)).
    { intros F. rewrite F in EA. intros x M. exfalso. exact (EA x M). }
    assert (P1 : flag_on (sp_flag f) FLAG_PREFIX = true ->
       (vrp_prefix_cov (sp_vrp f) v = true <->
        forall x, member o "prefix" x -> exists s addr len, x = JStr s /\ reads s (v_fam v) addr len /\
         forall ip, in_prefix (width (v_fam v)) (v_addr v) (v_len v) ip -> in_prefix (width (v_fam v)) addr len ip)).
    { intros F. rewrite F in EP. destruct EP as (s & M & R).
      assert (CF : canonical (sp_vrp f)).
      { pose proof (reads_canonical _ _ PT _ _ _ _ (v_asn (sp_vrp f)) (v_max (sp_vrp f)) R) as C.
        destruct (sp_vrp f); exact C. }
      rewrite vrp_prefix_cov_spec by auto. split.
      - intros [EF IN] x Mx. exists s, (v_addr (sp_vrp f)), (v_len (sp_vrp f)).
        rewrite EF in R. split; [exact (member_fun _ _ _ _ OK Mx M)|]. split; auto.
        rewrite EF in IN. exact IN.
      - intros H. destruct (H _ M) as (s' & a & le & ES & R' & IN). inversion ES; subst s'.
        destruct (reads_prefix_fun _ _ _ _ _ _ _ _ _ R R') as (E1 & E2 & E3).
        split; auto. rewrite E1, E2, E3. exact IN. }
    assert (P0 : flag_on (sp_flag f) FLAG_PREFIX = false ->
       forall x, member o "prefix" x -> exists s addr len, x = JStr s /\ reads s (v_fam v) addr len /\
         forall ip, in_prefix (width (v_fam v)) (v_addr v) (v_len v) ip -> in_prefix (width (v_fam v)) addr len ip).
    { intros F. rewrite F in EP. intros x M. exfalso. exact (EP x M). }
    change (no_comment (Z.lor (Z.lor FLAG_ASN FLAG_PREFIX) FLAG_MAX_LENGTH)) with 13.
    change (flag_on (Z.lor (Z.lor FLAG_ASN FLAG_PREFIX) FLAG_MAX_LENGTH) FLAG_ASN) with true.
    change (flag_on (Z.lor (Z.lor FLAG_ASN FLAG_PREFIX) FLAG_MAX_LENGTH) FLAG_PREFIX) with true.
    change (Z.lor FLAG_ASN FLAG_PREFIX) with 5.
    unfold SlurmSpec.filter_matches_vrp.
    destruct (flags_pfx _ FL) as [(N & FA & FP)|[(N & FA & FP)|(N & FA & FP)]]; rewrite N, FA, FP;
      cbn [Z.eqb negb Pos.eqb andb].
    - rewrite (A1 FA). specialize (P0 FP). tauto.
    - rewrite (P1 FP). specialize (A0 FA). tauto.
    - rewrite andb_true_iff, (A1 FA), (P1 FP). tauto.
  Qed.

  Lemma firstn_all_eq (l : list Z) n : length l = n -> firstn n l = l.
  Proof. intros <-. apply firstn_all. Qed.

  Lemma bgpsec_filtered_by_iff o f k : json_ok o -> entry_b false o f -> key_sized k ->
    exists b, bgpsec_filtered_by f {| sb_flag := Z.lor FLAG_ASN FLAG_PREFIX; sb_asn := rk_asn k;
                                      sb_ski := Some (rk_ski k); sb_spk := None |} = Ok b /\
     (b = true <-> filter_matches_key o k).
  Proof.
    intros OK (EA & EP & _ & _ & FL) [KS _]. unfold bgpsec_filtered_by. cbn [sb_flag sb_asn sb_ski sb_spk].
    assert (A1 : flag_on (sb_flag f) FLAG_ASN = true ->
       (sb_asn f = rk_asn k <-> forall x, member o "asn" x -> x = JInt (rk_asn k))).
    { intros F. rewrite F in EA. split.
      - intros E x M. rewrite <- E. exact (member_fun _ _ _ _ OK M EA).
      - intros H. specialize (H _ EA). congruence. }
    assert (A0 : flag_on (sb_flag f) FLAG_ASN = false -> forall x, member o "asn" x -> x = JInt (rk_asn k)).
    { intros F. rewrite F in EA. intros x M. exfalso. exact (EA x M). }
    assert (P1 : flag_on (sb_flag f) FLAG_PREFIX = true ->
       exists b, memcmp20 (Some (rk_ski k)) (sb_ski f) = Ok b /\ memcmp20 (sb_ski f) (Some (rk_ski k)) = Ok b /\
        (b = true <-> forall x, member o "SKI" x -> exists s, x = JStr s /\ b64url s = Some (rk_ski k))).
    { intros F. rewrite F in EP. destruct EP as (s & ski & M & B & E & L).
      rewrite E. unfold memcmp20. rewrite KS, L. cbn [Nat.leb andb].
      rewrite !firstn_all_eq by auto. exists (list_eqb Z.eqb (rk_ski k) ski).
      split; auto. split.
      - f_equal. destruct (list_eqb Z.eqb (rk_ski k) ski) eqn:Q, (list_eqb Z.eqb ski (rk_ski k)) eqn:Q2; auto.
        + apply keyeq in Q. symmetry in Q. apply keyeq in Q. congruence.
        + apply keyeq in Q2. symmetry in Q2. apply keyeq in Q2. congruence.
      - rewrite keyeq. split.
        + intros -> x Mx. exists s. split; auto. exact (member_fun _ _ _ _ OK Mx M).
        + intros H. destruct (H _ M) as (s' & ES & B'). inversion ES; subst s'. congruence. }
    assert (P0 : flag_on (sb_flag f) FLAG_PREFIX = false ->
        forall x, member o "SKI" x -> exists s, x = JStr s /\ b64url s = Some (rk_ski k)).
    { intros F. rewrite F in EP. intros x M. exfalso. exact (EP x M). }
    change (no_comment (Z.lor FLAG_ASN FLAG_PREFIX)) with 5.
    change (flag_on (Z.lor FLAG_ASN FLAG_PREFIX) FLAG_ASN) with true.
    change (flag_on (Z.lor FLAG_ASN FLAG_PREFIX) FLAG_PREFIX) with true.
    change (Z.lor FLAG_ASN FLAG_PREFIX) with 5.
    unfold SlurmSpec.filter_matches_key.
    destruct (flags_pfx _ FL) as [(N & FA & FP)|[(N & FA & FP)|(N & FA & FP)]]; rewrite N, FA, FP;
      cbn [Z.eqb negb Pos.eqb andb].
    - exists (rk_asn k =? sb_asn f). split; auto. rewrite Z.eqb_eq. specialize (A1 FA). specialize (P0 FP).
      split; intros; [split; auto; apply A1; congruence|symmetry; apply A1; tauto].
    - destruct (P1 FP) as (b & E1 & E2 & I). exists b. split; auto. rewrite I. specialize (A0 FA). tauto.
    - destruct (P1 FP) as (b & E1 & E2 & I). specialize (A1 FA).
      destruct (sb_asn f =? rk_asn k) eqn:EQ; cbn [andb].
      + exists b. split; auto. rewrite I. apply Z.eqb_eq in EQ. tauto.
      + exists false. split; auto. split; [discriminate|]. intros [H _]. apply A1 in H. lia.
  Qed.

  (** ** Files. *)
  Definition arr_of (root : json) (sec arr : string) : list json :=
    match json_object_get root (cstr sec) with
    | Some s => match json_object_get s (cstr arr) with Some (JArr l) => l | _ => [] end
    | None => []
    end.
  Definition arrs (files : list (option json)) (sec arr : string) : list json :=
    flat_map (fun f => match f with Some r => arr_of r sec arr | None => [] end) files.
  Definition files_ok (files : list (option json)) : Prop := forall r, In (Some r) files -> json_ok r.

  Lemma element_arrs files sec arr x : files_ok files -> (element files sec arr x <-> In x (arrs files sec arr)).
  Proof.
    intros OK. unfold element, arrs. rewrite in_flat_map. split.
    - intros (root & s & l & IR & MS & ML & IX). exists (Some root). split; auto.
      apply member_get in MS; [|auto]. unfold arr_of. rewrite MS.
      pose proof (json_ok_get _ _ _ (OK _ IR) MS) as OS. apply member_get in ML; auto. rewrite ML. exact IX.
    - intros ([root|] & IR & IX); [|destruct IX]. unfold arr_of in IX.
      destruct (json_object_get root (cstr sec)) as [s|] eqn:GS; [|destruct IX].
      destruct (json_object_get s (cstr arr)) as [[| l | | | |]|] eqn:GA; try (destruct IX; fail).
      exists root, s, l. pose proof (json_ok_get _ _ _ (OK _ IR) GS).
      repeat split; auto; apply member_get; auto.
  Qed.
  Lemma json_ok_arrs files sec arr x : files_ok files -> In x (arrs files sec arr) -> json_ok x.
  Proof.
    intros OK H. apply element_arrs in H; auto. destruct H as (root & s & l & IR & MS & ML & IX).
    apply member_get in MS; [|auto]. pose proof (json_ok_get _ _ _ (OK _ IR) MS) as OS.
    apply member_get in ML; auto. pose proof (json_ok_get _ _ _ OS ML) as OL. inversion OL; subst. auto.
  Qed.

  Definition add_p (ia : bool) (c : slurm_lists) (es : list slurm_prefix) : slurm_lists :=
    if ia then {| filter_pfx := filter_pfx c; assertion_pfx := assertion_pfx c ++ es;
                  filter_bgps := filter_bgps c; assertion_bgps := assertion_bgps c |}
    else {| filter_pfx := filter_pfx c ++ es; assertion_pfx := assertion_pfx c;
            filter_bgps := filter_bgps c; assertion_bgps := assertion_bgps c |}.
  Definition add_b (ia : bool) (c : slurm_lists) (es : list slurm_bgpsec) : slurm_lists :=
    if ia then {| filter_pfx := filter_pfx c; assertion_pfx := assertion_pfx c;
                  filter_bgps := filter_bgps c; assertion_bgps := assertion_bgps c ++ es |}
    else {| filter_pfx := filter_pfx c; assertion_pfx := assertion_pfx c;
            filter_bgps := filter_bgps c ++ es; assertion_bgps := assertion_bgps c |}.
  Lemma lists_eta c : {| filter_pfx := filter_pfx c; assertion_pfx := assertion_pfx c;
                  filter_bgps := filter_bgps c; assertion_bgps := assertion_bgps c |} = c.
  Proof. destruct c; reflexivity. Qed.

  Lemma load_prefixes l ia a : forall c c',
    load_array (fun c x => load_single_prefix pton4 pton6 l c ia x) c a = Ok c' ->
    exists es, Forall2 (fun j e => parse_prefix ia j = Ok e) a es /\ c' = add_p ia c es /\
      Forall (fun e => prefix_exists l e = false) es.
  Proof.
    induction a as [|x a IH]; intros c c'; cbn [load_array].
    - intros E; inversion E; subst. exists []. split; [constructor|]. split; [|constructor].
      unfold add_p. rewrite !app_nil_r. destruct ia; symmetry; apply lists_eta.
    - rewrite load_single_prefix_eq. destruct (parse_prefix ia x) as [e| |] eqn:P; cbn [bind]; try discriminate.
      unfold db_slurm_add_prefix. destruct (prefix_exists l e) eqn:X; cbn [bind]; try discriminate.
      intros H. apply IH in H. destruct H as (es & F & -> & G). exists (e :: es).
      split; [constructor; auto|]. split; [|constructor; auto].
      unfold add_p. destruct ia; cbn [filter_pfx assertion_pfx filter_bgps assertion_bgps]; rewrite <- app_assoc; reflexivity.
  Qed.
  Lemma load_bgpsecs l ia a : forall c c',
    load_array (fun c x => load_single_bgpsec b64url valid_spki l c ia x) c a = Ok c' ->
    exists es, Forall2 (fun j e => parse_bgpsec ia j = Ok e) a es /\ c' = add_b ia c es /\
      Forall (fun e => bgpsec_exists l e = false) es.
  Proof.
    induction a as [|x a IH]; intros c c'; cbn [load_array].
    - intros E; inversion E; subst. exists []. split; [constructor|]. split; [|constructor].
      unfold add_b. rewrite !app_nil_r. destruct ia; symmetry; apply lists_eta.
    - rewrite load_single_bgpsec_eq. destruct (parse_bgpsec ia x) as [e| |] eqn:P; cbn [bind]; try discriminate.
      unfold db_slurm_add_bgpsec. destruct (bgpsec_exists l e) eqn:X; cbn [bind]; try discriminate.
      intros H. apply IH in H. destruct H as (es & F & -> & G). exists (e :: es).
      split; [constructor; auto|]. split; [|constructor; auto].
      unfold add_b. destruct ia; cbn [filter_pfx assertion_pfx filter_bgps assertion_bgps]; rewrite <- app_assoc; reflexivity.
  Qed.

  Lemma load_section_spec ia so sp sb root l c c' :
    load_section pton4 pton6 b64url valid_spki ia (cstr so) (cstr sp) (cstr sb) root l c = Ok c' ->
    exists ps bs, Forall2 (fun j e => parse_prefix ia j = Ok e) (arr_of root so sp) ps /\
      Forall2 (fun j e => parse_bgpsec ia j = Ok e) (arr_of root so sb) bs /\
      Forall (fun e => prefix_exists l e = false) ps /\ Forall (fun e => bgpsec_exists l e = false) bs /\
      c' = add_b ia (add_p ia c ps) bs.
  Proof.
    unfold load_section, json_get_object, json_get_array, arr_of.
    destruct (json_object_get root (cstr so)) as [s|]; cbn [bind]; [|discriminate].
    destruct s as [m| | | | |] eqn:ES; cbn [bind]; try discriminate. rewrite <- ES in *. clear ES m.
    destruct (json_object_get s (cstr sp)) as [[| lp | | | |]|]; cbn [bind]; try discriminate.
    destruct (json_object_get s (cstr sb)) as [[| lb | | | |]|]; cbn [bind]; try discriminate.
    destruct (json_valid_members_count s 2); cbn [negb]; [|discriminate].
    destruct (load_array _ c lp) as [c1| |] eqn:L1; cbn [bind]; try discriminate.
    intros L2. apply load_prefixes in L1. apply load_bgpsecs in L2.
    destruct L1 as (ps & F1 & -> & G1). destruct L2 as (bs & F2 & -> & G2). exists ps, bs. auto.
  Qed.

  Definition FF := "validationOutputFilters"%string.
  Definition AA := "locallyAddedAssertions"%string.

  Lemma handle_json_spec root l l' : handle_json pton4 pton6 b64url valid_spki root l = Ok l' ->
    exists fp fb ap ab,
      Forall2 (fun j e => parse_prefix false j = Ok e) (arr_of root FF "prefixFilters") fp /\
      Forall2 (fun j e => parse_bgpsec false j = Ok e) (arr_of root FF "bgpsecFilters") fb /\
      Forall2 (fun j e => parse_prefix true j = Ok e) (arr_of root AA "prefixAssertions") ap /\
      Forall2 (fun j e => parse_bgpsec true j = Ok e) (arr_of root AA "bgpsecAssertions") ab /\
      Forall (fun e => prefix_exists l e = false) (fp ++ ap) /\
      Forall (fun e => bgpsec_exists l e = false) (fb ++ ab) /\
      l' = {| filter_pfx := filter_pfx l ++ fp; assertion_pfx := assertion_pfx l ++ ap;
              filter_bgps := filter_bgps l ++ fb; assertion_bgps := assertion_bgps l ++ ab |}.
  Proof.
    unfold handle_json. destruct root as [m| | | | |] eqn:ER; try discriminate. rewrite <- ER. clear ER m.
    destruct (load_version root); cbn [bind]; try discriminate.
    unfold load_filters, load_assertions.
    destruct (load_section _ _ _ _ false _ _ _ root l _) as [c1| |] eqn:S1; cbn [bind]; try discriminate.
    destruct (load_section _ _ _ _ true _ _ _ root l _) as [c2| |] eqn:S2; cbn [bind]; try discriminate.
    destruct (json_valid_members_count root 3); cbn [negb]; [|discriminate].
    intros E; inversion E; subst l'; clear E.
    apply load_section_spec in S1. apply load_section_spec in S2.
    destruct S1 as (fp & fb & F1 & F2 & G1 & G2 & ->). destruct S2 as (ap & ab & F3 & F4 & G3 & G4 & ->).
    exists fp, fb, ap, ab. repeat split; auto; try (apply Forall_app; auto).
  Qed.

  Lemma parse_files_spec files : forall l l', parse_files pton4 pton6 b64url valid_spki files l = Ok l' ->
    (forall f, In f files -> f <> None) /\
    exists fp fb ap ab,
      Forall2 (fun j e => parse_prefix false j = Ok e) (arrs files FF "prefixFilters") fp /\
      Forall2 (fun j e => parse_bgpsec false j = Ok e) (arrs files FF "bgpsecFilters") fb /\
      Forall2 (fun j e => parse_prefix true j = Ok e) (arrs files AA "prefixAssertions") ap /\
      Forall2 (fun j e => parse_bgpsec true j = Ok e) (arrs files AA "bgpsecAssertions") ab /\
      Forall (fun e => prefix_exists l e = false) (fp ++ ap) /\
      Forall (fun e => bgpsec_exists l e = false) (fb ++ ab) /\
      l' = {| filter_pfx := filter_pfx l ++ fp; assertion_pfx := assertion_pfx l ++ ap;
              filter_bgps := filter_bgps l ++ fb; assertion_bgps := assertion_bgps l ++ ab |}.
  Proof.
    induction files as [|f files IH]; intros l l'; cbn [parse_files].
    - intros E; inversion E; subst. split; [intros ? []|]. exists [], [], [], []. cbn [arrs flat_map app].
      rewrite !app_nil_r, lists_eta. repeat split; constructor.
    - destruct f as [root|]; cbn [slurm_parse bind]; [|discriminate].
      destruct (handle_json _ _ _ _ root l) as [l1| |] eqn:H1; cbn [bind]; try discriminate.
      intros H2. apply handle_json_spec in H1. apply IH in H2.
      destruct H1 as (fp & fb & ap & ab & F1 & F2 & F3 & F4 & G1 & G2 & ->).
      destruct H2 as (NN & fp' & fb' & ap' & ab' & F1' & F2' & F3' & F4' & G1' & G2' & ->).
      split. { intros f [<-|H]; [discriminate|auto]. }
      exists (fp ++ fp'), (fb ++ fb'), (ap ++ ap'), (ab ++ ab').
      cbn [filter_pfx assertion_pfx filter_bgps assertion_bgps].
      rewrite <- !app_assoc. unfold arrs. cbn [flat_map].
      split; [apply Forall2_app; auto|]. split; [apply Forall2_app; auto|].
      split; [apply Forall2_app; auto|]. split; [apply Forall2_app; auto|].
      assert (X1 : forall e, prefix_exists {| filter_pfx := filter_pfx l ++ fp; assertion_pfx := assertion_pfx l ++ ap;
              filter_bgps := filter_bgps l ++ fb; assertion_bgps := assertion_bgps l ++ ab |} e = false ->
              prefix_exists l e = false).
      { intros e. unfold prefix_exists. cbn [filter_pfx assertion_pfx]. rewrite !existsb_app, !orb_false_iff. tauto. }
      assert (X2 : forall e, bgpsec_exists {| filter_pfx := filter_pfx l ++ fp; assertion_pfx := assertion_pfx l ++ ap;
              filter_bgps := filter_bgps l ++ fb; assertion_bgps := assertion_bgps l ++ ab |} e = false ->
              bgpsec_exists l e = false).
      { intros e. unfold bgpsec_exists. cbn [filter_bgps assertion_bgps]. rewrite !existsb_app, !orb_false_iff. tauto. }
      rewrite Forall_app in G1, G2, G1', G2'. destruct G1 as [a1 a2], G2 as [a3 a4], G1' as [a5 a6], G2' as [a7 a8].
      repeat rewrite Forall_app.
      apply (Forall_impl _ X1) in a5, a6. apply (Forall_impl _ X2) in a7, a8. auto 10.
  Qed.

  (** ** The whole thing. *)
  Variable files : list (option json).
  Variable l : slurm_lists.
  Hypothesis OKF : files_ok files.
  Hypothesis LOAD : parse_files pton4 pton6 b64url valid_spki files slurm_lists_create = Ok l.

  Lemma vrp_filtered_iff v : canonical v ->
    (db_slurm_vrp_is_filtered l v = true <-> exists j, prefix_filter files j /\ filter_matches_vrp j v).
  Proof.
    intros CV. destruct (parse_files_spec _ _ _ LOAD) as (_ & fp & fb & ap & ab & F1 & _ & _ & _ & _ & _ & E).
    unfold db_slurm_vrp_is_filtered, prefix_filtered. rewrite E. cbn [filter_pfx slurm_lists_create app].
    rewrite existsb_exists. split.
    - intros (f & IF & FB). destruct (Forall2_In_r _ _ _ _ F1 IF) as (j & IJ & P).
      assert (OJ := json_ok_arrs _ _ _ _ OKF IJ).
      exists j. split; [apply element_arrs; auto|].
      apply (filtered_by_iff j f v OJ); auto. apply parse_prefix_spec; auto.
    - intros (j & IJ & M). apply element_arrs in IJ; auto. destruct (Forall2_In_l _ _ _ _ F1 IJ) as (f & IF & P).
      assert (OJ := json_ok_arrs _ _ _ _ OKF IJ).
      exists f. split; auto. apply (filtered_by_iff j f v OJ); auto. apply parse_prefix_spec; auto.
  Qed.

  Lemma key_filtered_iff k : key_sized k ->
    exists b, db_slurm_bgpsec_is_filtered l k = Ok b /\
     (b = true <-> exists j, bgpsec_filter files j /\ filter_matches_key j k).
  Proof.
    intros KS. destruct (parse_files_spec _ _ _ LOAD) as (_ & fp & fb & ap & ab & _ & F1 & _ & _ & _ & _ & E).
    unfold db_slurm_bgpsec_is_filtered. rewrite E. cbn [filter_bgps slurm_lists_create app].
    assert (Q : forall js es, Forall2 (fun j e => parse_bgpsec false j = Ok e) js es ->
      (forall j, In j js -> json_ok j) ->
      exists b, bgpsec_filtered es {| sb_flag := Z.lor FLAG_ASN FLAG_PREFIX; sb_asn := rk_asn k;
         sb_ski := Some (rk_ski k); sb_spk := None |} = Ok b /\ (b = true <-> exists j, In j js /\ filter_matches_key j k)).
    { induction 1 as [|j e js es P F IH]; intros OJ; cbn [bgpsec_filtered].
      - exists false. split; auto. split; [discriminate|]. intros (j & [] & _).
      - destruct (bgpsec_filtered_by_iff j e k (OJ j (or_introl eq_refl))) as (b & EB & IB); auto.
        { apply parse_bgpsec_spec; auto. apply OJ. left. auto. }
        rewrite EB. cbn [bind]. destruct IH as (b' & EB' & IB'); [intros; apply OJ; right; auto|].
        destruct b.
        + exists true. split; auto. split; auto. intros _. exists j. split; [left; auto|apply IB; auto].
        + exists b'. split; auto. rewrite IB'. split.
          * intros (x & Hx & M). exists x. split; [right; auto|auto].
          * intros (x & [->|Hx] & M); [apply IB in M; discriminate|exists x; auto]. }
    destruct (Q _ _ F1) as (b & EB & IB). { intros j IJ. apply (json_ok_arrs _ _ _ _ OKF IJ). }
    exists b. split; auto. rewrite IB. split; intros (j & IJ & M); exists j; split; auto; apply element_arrs; auto.
  Qed.

  (** The VRP added for an assertion. *)
  Definition asserted (p : slurm_prefix) : vrp :=
    {| v_asn := v_asn (sp_vrp p); v_addr := v_addr (sp_vrp p); v_len := v_len (sp_vrp p);
       v_max := if Z.land (sp_flag p) FLAG_MAX_LENGTH =? 0 then v_len (sp_vrp p) else v_max (sp_vrp p);
       v_fam := v_fam (sp_vrp p) |}.
  Lemma pfx_add_eq t p : pfx_assertion_add t p = add_roa t (asserted p).
  Proof. unfold pfx_assertion_add, asserted. destruct (v_fam (sp_vrp p)); reflexivity. Qed.

  Lemma pfx_adds ps : forall t, (forall v, In v (t_roas (fold_left pfx_assertion_add ps t)) <->
     In v (t_roas t) \/ In v (map asserted ps)) /\ t_rks (fold_left pfx_assertion_add ps t) = t_rks t.
  Proof.
    induction ps as [|p ps IH]; intros t; cbn [fold_left map In]; [split; [tauto|auto]|].
    destruct (IH (pfx_assertion_add t p)) as [H1 H2]. rewrite H2, pfx_add_eq in *. split; [|reflexivity].
    intros v. rewrite H1. cbn [add_roa t_roas]. rewrite (hs_add_In vrp_equals vrp_equals_eq).
    split; intros H; [destruct H as [[H|H]|H]|destruct H as [H|[H|H]]]; auto.
  Qed.

  Lemma land8 fl : (Z.land fl 8 =? 0) = negb (flag_on fl 8).
  Proof.
    unfold flag_on. assert (0 <= Z.land fl 8) by (apply Z.land_nonneg; lia).
    destruct (Z.land fl 8 =? 0) eqn:E, (0 <? Z.land fl 8) eqn:E2; auto; lia.
  Qed.

  Lemma asserted_iff v : In v (map asserted (assertion_pfx l)) <->
    exists j, prefix_assertion files j /\ asserts_vrp pton4 pton6 j v.
  Proof.
    destruct (parse_files_spec _ _ _ LOAD) as (_ & fp & fb & ap & ab & _ & _ & F1 & _ & _ & _ & E).
    rewrite E. cbn [assertion_pfx slurm_lists_create app]. rewrite in_map_iff.
    assert (K : forall j e, json_ok j -> parse_prefix true j = Ok e -> forall v, (asserted e = v <-> asserts_vrp pton4 pton6 j v)).
    { intros j e OJ P w. apply parse_prefix_spec in P; auto. destruct P as (EA & EP & EM & [HA HP] & FL).
      unfold has_asn, has_pfx in *. rewrite HA in EA. rewrite HP in EP. destruct EP as (s & MS & RS).
      unfold asserted. change FLAG_MAX_LENGTH with 8 in *. rewrite land8.
      assert (L0 : v_len (sp_vrp e) <= width (v_fam (sp_vrp e)))
        by (destruct RS as (? & ? & ? & ? & ? & _ & _ & _ & ? & _); lia).
      split.
      - intros <-. unfold asserts_vrp. cbn [v_asn v_addr v_len v_max v_fam].
        split; auto. split; [exists s; auto|].
        destruct (flag_on (sp_flag e) 8); cbn [negb]; [destruct EM; split; auto|].
        split; [right; auto|lia].
      - intros (MA & (s' & MS' & RS') & MM & LE).
        pose proof (member_fun _ _ _ _ OJ MA EA) as QA. pose proof (member_fun _ _ _ _ OJ MS' MS) as QS.
        inversion QS; subst s'. destruct (reads_prefix_fun _ _ _ _ _ _ _ _ _ RS RS') as (E1 & E2 & E3).
        assert (E4 : (if negb (flag_on (sp_flag e) 8) then v_len (sp_vrp e) else v_max (sp_vrp e)) = v_max w).
        { destruct (flag_on (sp_flag e) 8); cbn [negb].
          - destruct EM as [EM _]. destruct MM as [MM|[MM _]]; [|destruct (MM _ EM)].
            pose proof (member_fun _ _ _ _ OJ MM EM). congruence.
          - destruct MM as [MM|[_ MM]]; [destruct (EM _ MM)|lia]. }
        rewrite E4, E1, E2, E3. assert (Q : v_asn w = v_asn (sp_vrp e)) by congruence. rewrite <- Q. destruct w; reflexivity. }
    split.
    - intros (e & EQ & IE). destruct (Forall2_In_r _ _ _ _ F1 IE) as (j & IJ & P).
      assert (OJ := json_ok_arrs _ _ _ _ OKF IJ). exists j. split; [apply element_arrs; auto|].
      apply (K j e OJ P). auto.
    - intros (j & IJ & M). apply element_arrs in IJ; auto. destruct (Forall2_In_l _ _ _ _ F1 IJ) as (e & IE & P).
      assert (OJ := json_ok_arrs _ _ _ _ OKF IJ). exists e. split; auto. apply (K j e OJ P). auto.
  Qed.

  Lemma bgpsec_filters_loop_spec ks : forall t, Forall key_sized ks ->
    exists t', bgpsec_filters_loop l ks t = Ok t' /\ t_roas t' = t_roas t /\
     (forall k, In k (t_rks t') <-> In k (t_rks t) /\
        ~ (In k ks /\ exists j, bgpsec_filter files j /\ filter_matches_key j k)).
  Proof.
    induction ks as [|k ks IH]; intros t F; cbn [bgpsec_filters_loop].
    - exists t. split; auto. split; auto. intros k. cbn. tauto.
    - inversion F; subst. destruct (key_filtered_iff k H1) as (b & EB & IB). rewrite EB. cbn [bind].
      destruct (IH (if b then db_table_remove_router_key t k else t) H2) as (t' & E' & R' & I').
      exists t'. split; auto. split; [rewrite R'; destruct b; reflexivity|].
      intros k0. rewrite I'. cbn [In]. destruct b.
      + cbn [db_table_remove_router_key t_rks]. rewrite (hs_del_In rk_equals rk_equals_eq). split.
        * intros [[P1 P2] P3]. split; auto. intros [[->|Q] M]; [congruence|tauto].
        * intros [P1 P2]. split; [split; auto|tauto]. intros ->. apply P2. split; auto. apply IB; auto.
      + split.
        * intros [P1 P2]. split; auto. intros [[->|Q] M]; [apply IB in M; discriminate|tauto].
        * intros [P1 P2]. split; auto. tauto.
  Qed.

  (** The keys an accepted file asserts are complete. *)
  Hypothesis SPKI : forall s, valid_spki s = true -> length s = 91%nat.

  Lemma bgpsec_assertions_spec t :
    exists t', bgpsec_assertions_loop (assertion_bgps l) t = Ok t' /\ t_roas t' = t_roas t /\
     (forall k, In k (t_rks t') <-> In k (t_rks t) \/ exists j, bgpsec_assertion files j /\ asserts_key b64url j k).
  Proof.
    destruct (parse_files_spec _ _ _ LOAD) as (_ & fp & fb & ap & ab & _ & _ & _ & F1 & _ & _ & E).
    rewrite E. cbn [assertion_bgps slurm_lists_create app].
    assert (Q : forall js es, Forall2 (fun j e => parse_bgpsec true j = Ok e) js es ->
      (forall j, In j js -> json_ok j) -> forall t,
      exists t', bgpsec_assertions_loop es t = Ok t' /\ t_roas t' = t_roas t /\
        (forall k, In k (t_rks t') <-> In k (t_rks t) \/ exists j, In j js /\ asserts_key b64url j k)).
    { induction 1 as [|j e js es P F IH]; intros OJ t0; cbn [bgpsec_assertions_loop].
      - exists t0. split; auto. split; auto. intros k. split; auto. intros [H|(j & [] & _)]; auto.
      - assert (OJj := OJ j (or_introl eq_refl)).
        apply parse_bgpsec_spec in P; auto. destruct P as (EA & ES & EK & [FA FS] & _).
        rewrite FA in EA. rewrite FS in ES. destruct ES as (s & ski & MS & BS & SS & LS).
        destruct EK as (s2 & spk & MK & BK & VK & SK).
        unfold bgpsec_assertion_add. rewrite SS, SK, LS, (SPKI _ VK). cbn [Nat.leb andb bind].
        rewrite (firstn_all_eq ski 20), (firstn_all_eq spk 91) by auto.
        destruct (IH (fun j H => OJ j (or_intror H)) (rtrhandler_handle_router_key t0 ski (sb_asn e) spk))
          as (t' & E' & R' & I').
        exists t'. split; auto. split; [rewrite R'; reflexivity|].
        intros k. rewrite I'. cbn [rtrhandler_handle_router_key add_router_key t_rks].
        rewrite (hs_add_In rk_equals rk_equals_eq).
        assert (X : k = {| rk_ski := ski; rk_asn := sb_asn e; rk_spk := spk |} <-> asserts_key b64url j k).
        { split.
          - intros ->. unfold asserts_key. cbn. split; auto. split; [exists s; auto|exists s2; auto].
          - intros (MA & (s' & MS' & BS') & (s2' & MK' & BK')).
            pose proof (member_fun _ _ _ _ OJj MA EA) as QA. pose proof (member_fun _ _ _ _ OJj MS' MS) as QS.
            pose proof (member_fun _ _ _ _ OJj MK' MK) as QK.
            inversion QA as [HA]. inversion QS; inversion QK; subst. rewrite BS in BS'. rewrite BK in BK'.
            inversion BS'; inversion BK'. destruct k; cbn in *; congruence. }
        split.
        + intros [[H|H]|(j' & H & M)]; auto; right; [exists j|exists j']; split; cbn; auto. apply X; auto.
        + intros [H|(j' & [<-|H] & M)]; auto; [left; right; apply X; auto|right; exists j'; auto]. }
    destruct (Q _ _ F1) with (t := t) as (t' & E' & R' & I'). { intros j IJ. apply (json_ok_arrs _ _ _ _ OKF IJ). }
    exists t'. split; auto. split; auto. intros k. rewrite I'.
    split; intros [H|(j & IJ & M)]; auto; right; exists j; split; auto; apply element_arrs; auto.
  Qed.

  Lemma apply_lists_spec t : Forall canonical (t_roas t) -> Forall key_sized (t_rks t) ->
    exists t', apply_lists t l = Ok t' /\
     (forall v, In v (t_roas t') <->
        (In v (t_roas t) /\ ~ exists j, prefix_filter files j /\ filter_matches_vrp j v) \/
        exists j, prefix_assertion files j /\ asserts_vrp pton4 pton6 j v) /\
     (forall k, In k (t_rks t') <->
        (In k (t_rks t) /\ ~ exists j, bgpsec_filter files j /\ filter_matches_key j k) \/
        exists j, bgpsec_assertion files j /\ asserts_key b64url j k).
  Proof.
    intros CR CK. unfold apply_lists. cbv zeta.
    set (t1 := apply_pfx_filters l t).
    assert (K1 : t_rks t1 = t_rks t) by apply apply_pfx_rks.
    destruct (bgpsec_filters_loop_spec (t_rks t1) t1) as (t2 & E2 & R2 & I2). { rewrite K1. auto. }
    rewrite E2. cbn [bind].
    destruct (pfx_adds (assertion_pfx l) t2) as [RA KA].
    destruct (bgpsec_assertions_spec (fold_left pfx_assertion_add (assertion_pfx l) t2)) as (t4 & E4 & R4 & I4).
    exists t4. split; auto. split.
    - intros v. rewrite R4, RA, R2, asserted_iff. unfold t1, apply_pfx_filters. rewrite apply_pfx_roas.
      assert (D : In v (t_roas t) -> (db_slurm_vrp_is_filtered l v = true <-> exists j, prefix_filter files j /\ filter_matches_vrp j v)).
      { intros H. apply vrp_filtered_iff. rewrite Forall_forall in CR. auto. }
      tauto.
    - intros k. rewrite I4, KA, I2, K1. tauto.
  Qed.
End Oracles.
