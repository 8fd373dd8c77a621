From Coq Require Import String Permutation.
From Verif Require Import Base BaseLemmas Types HashSet DbTable CString CLib PduWireSpec Address AddressSpec
  AddressProofs AddressProps Vrps VrpsSpec VrpsProofs Slurm SlurmSpec SlurmProofs SlurmProofs2 SlurmProofs3.
Notation length := List.length.

Lemma filter2 (p : string -> bool) a b :
  length (filter p [a; b]) = (b2n (p a) + b2n (p b))%nat.
Proof. cbn [filter]. destruct (p a), (p b); reflexivity. Qed.
Lemma filter3 (p : string -> bool) a b c :
  length (filter p [a; b; c]) = (b2n (p a) + b2n (p b) + b2n (p c))%nat.
Proof. cbn [filter]. destruct (p a), (p b), (p c); reflexivity. Qed.

Section Oracles.
  Variable pton4 : list Z -> option Z.
  Variable pton6 : list Z -> option (list Z).
  Variable b64url : list Z -> option (list Z).
  Variable valid_spki : list Z -> bool.
  Hypothesis PT : pton_ok pton4 pton6.
  Notation reads := (reads_prefix pton4 pton6).
  Notation parse_prefix := (parse_prefix pton4 pton6).
  Notation parse_bgpsec := (parse_bgpsec b64url valid_spki).

  Lemma set_ski_iff o ia : json_ok o -> forall r, set_ski b64url o ia = Ok r <->
    match r with
    | Some ski => exists s, member o "SKI" (JStr s) /\ ~ In 61 s /\ b64url s = Some ski /\ length ski = 20%nat
    | None => absent o "SKI" /\ ia = false
    end.
  Proof.
    intros OK r. unfold set_ski, json_get_str, validate_base64url_encoded.
    destruct (json_object_get o (cstr "SKI")) as [j|] eqn:G.
    - pose proof (proj2 (member_get _ _ _ OK) G) as M.
      assert (J : forall s, member o "SKI" (JStr s) -> j = JStr s) by (intros s Ms; exact (member_fun _ _ _ _ OK M Ms)).
      destruct j as [| |s| | |]; cbn [bind];
        try (split; [discriminate|]; destruct r; [intros (s' & Ms & _); discriminate (J _ Ms)|intros [A _]; destruct (A _ M)]).
      destruct (has_char 61 s) eqn:H61; cbn [bind].
      { split; [discriminate|]. destruct r; [|intros [A _]; destruct (A _ M)].
        intros (s' & Ms & N & _). pose proof (J _ Ms) as Q. inversion Q; subst. apply has_char_In in H61. tauto. }
      apply has_char_notIn in H61.
      destruct (b64url s) as [ski|] eqn:B.
      + destruct (Nat.eqb (length ski) 20) eqn:L.
        * apply Nat.eqb_eq in L. split.
          -- intros E; inversion E; subst. eauto 10.
          -- destruct r; [|intros [A _]; destruct (A _ M)]. intros (s' & Ms & _ & B' & _).
             pose proof (J _ Ms) as Q. inversion Q; subst. congruence.
        * apply Nat.eqb_neq in L. split; [discriminate|]. destruct r; [|intros [A _]; destruct (A _ M)].
          intros (s' & Ms & _ & B' & L'). pose proof (J _ Ms) as Q. inversion Q; subst. congruence.
      + split; [discriminate|]. destruct r; [|intros [A _]; destruct (A _ M)].
        intros (s' & Ms & _ & B' & L'). pose proof (J _ Ms) as Q. inversion Q; subst. congruence.
    - cbn [bind]. pose proof (proj2 (get_absent _ _ OK) G) as A. destruct r.
      + split; [destruct ia; discriminate|]. intros (s & Ms & _). destruct (A _ Ms).
      + destruct ia; split; auto; try discriminate. intros [_ ?]; discriminate.
  Qed.
  Lemma set_spk_iff o ia : json_ok o -> forall r, set_router_pub_key b64url valid_spki o ia = Ok r <->
    match r with
    | Some spk => ia = true /\ exists s, member o "routerPublicKey" (JStr s) /\ ~ In 61 s /\ b64url s = Some spk /\ valid_spki spk = true
    | None => absent o "routerPublicKey" /\ ia = false
    end.
  Proof.
    intros OK r. unfold set_router_pub_key, json_get_str, validate_base64url_encoded.
    destruct (json_object_get o (cstr "routerPublicKey")) as [j|] eqn:G.
    - pose proof (proj2 (member_get _ _ _ OK) G) as M.
      assert (J : forall s, member o "routerPublicKey" (JStr s) -> j = JStr s) by (intros s Ms; exact (member_fun _ _ _ _ OK M Ms)).
      destruct j as [| |s| | |]; cbn [bind];
        try (split; [discriminate|]; destruct r; [intros (_ & s' & Ms & _); discriminate (J _ Ms)|intros [A _]; destruct (A _ M)]).
      destruct ia; cbn [negb].
      2:{ split; [discriminate|]. destruct r; [intros [? _]; discriminate|intros [A _]; destruct (A _ M)]. }
      destruct (has_char 61 s) eqn:H61; cbn [bind].
      { split; [discriminate|]. destruct r; [|intros [A _]; destruct (A _ M)].
        intros (_ & s' & Ms & N & _). pose proof (J _ Ms) as Q. inversion Q; subst. apply has_char_In in H61. tauto. }
      apply has_char_notIn in H61.
      destruct (b64url s) as [ski|] eqn:B.
      + destruct (valid_spki ski) eqn:L.
        * split.
          -- intros E; inversion E; subst. eauto 10.
          -- destruct r; [|intros [A _]; destruct (A _ M)]. intros (_ & s' & Ms & _ & B' & _).
             pose proof (J _ Ms) as Q. inversion Q; subst. congruence.
        * split; [discriminate|]. destruct r; [|intros [A _]; destruct (A _ M)].
          intros (_ & s' & Ms & _ & B' & L'). pose proof (J _ Ms) as Q. inversion Q; subst. congruence.
      + split; [discriminate|]. destruct r; [|intros [A _]; destruct (A _ M)].
        intros (_ & s' & Ms & _ & B' & L'). pose proof (J _ Ms) as Q. inversion Q; subst. congruence.
    - cbn [bind]. pose proof (proj2 (get_absent _ _ OK) G) as A. destruct r.
      + split; [destruct ia; discriminate|]. intros (_ & s & Ms & _). destruct (A _ Ms).
      + destruct ia; cbn [negb]; split; auto; try discriminate. intros [_ ?]; discriminate.
  Qed.
  Lemma set_asn_iff o ia : json_ok o -> forall r, set_asn o ia = Ok r <->
    match r with
    | Some n => member o "asn" (JInt n) /\ is_u32 n
    | None => absent o "asn" /\ ia = false
    end.
  Proof.
    intros OK r. unfold set_asn, json_get_u32.
    destruct (json_object_get o (cstr "asn")) as [j|] eqn:G.
    - pose proof (proj2 (member_get _ _ _ OK) G) as M.
      assert (J : forall s, member o "asn" (JInt s) -> j = JInt s) by (intros s Ms; exact (member_fun _ _ _ _ OK M Ms)).
      destruct j as [| | |n| |]; cbn [bind];
        try (split; [discriminate|]; destruct r; [intros (Ms & _); discriminate (J _ Ms)|intros [A _]; destruct (A _ M)]).
      unfold is_u32, UINT_MAX. destruct ((n <? 0) || (4294967295 <? n)) eqn:B; cbn [bind].
      + split; [discriminate|]. destruct r; [intros (Ms & R); pose proof (J _ Ms) as Q; inversion Q; subst; lia|intros [A _]; destruct (A _ M)].
      + split.
        * intros E; inversion E; subst. split; auto. lia.
        * destruct r; [intros (Ms & R); pose proof (J _ Ms) as Q; inversion Q; subst; auto|intros [A _]; destruct (A _ M)].
    - cbn [bind]. pose proof (proj2 (get_absent _ _ OK) G) as A. destruct r.
      + split; [destruct ia; discriminate|]. intros (Ms & _). destruct (A _ Ms).
      + destruct ia; split; auto; try discriminate. intros [_ ?]; discriminate.
  Qed.
  Lemma set_comment_iff o : json_ok o -> forall r, set_comment o = Ok r <->
    (strings_only o "comment" /\ r = isSome (json_object_get o (cstr "comment"))).
  Proof.
    intros OK r. unfold set_comment, json_get_str.
    destruct (json_object_get o (cstr "comment")) as [j|] eqn:G.
    - pose proof (proj2 (member_get _ _ _ OK) G) as M.
      destruct j as [| |s| | |]; cbn [bind isSome];
        try (split; [discriminate|]; intros [S _]; destruct (S _ M) as (? & ?); discriminate).
      split.
      + intros E; inversion E; subst. split; auto. intros x Mx. exists s. exact (member_fun _ _ _ _ OK Mx M).
      + intros [_ ->]. reflexivity.
    - cbn [bind isSome]. pose proof (proj2 (get_absent _ _ OK) G) as A. split.
      + intros E; inversion E; subst. split; auto. intros x Mx. destruct (A _ Mx).
      + intros [_ ->]. reflexivity.
  Qed.
  Lemma isSome_member o k : json_ok o -> (isSome (json_object_get o (cstr k)) = true <-> exists x, member o k x).
  Proof.
    intros OK. destruct (json_object_get o (cstr k)) as [j|] eqn:G; cbn [isSome].
    - split; auto. intros _. exists j. apply member_get; auto.
    - split; [discriminate|]. intros (x & M). apply member_get in M; auto. congruence.
  Qed.

  Ltac norm_flags :=
    repeat match goal with |- context [Z.lor ?a ?b] => let v := eval vm_compute in (Z.lor a b) in change (Z.lor a b) with v end;
    repeat match goal with |- context [Z.land ?a ?b =? 0] => let v := eval vm_compute in (Z.land a b =? 0) in
                                                         change (Z.land a b =? 0) with v end;
    cbn [Z.eqb FLAG_COMMENT negb Pos.eqb andb].

  Lemma bgpsec_iff ia o : json_ok o ->
    ((exists e, parse_bgpsec ia o = Ok e) <->
     if ia then bgpsec_assertion_ok b64url valid_spki o else bgpsec_filter_ok b64url o).
  Proof.
    intros OK. split.
    - intros (e & P). pose proof (parse_bgpsec_spec _ _ _ _ _ OK P) as (_ & _ & _ & EH & _).
      unfold SlurmProofs.parse_bgpsec in P. destruct o as [mem| | | | |] eqn:EO; try discriminate.
      assert (IO : is_object o) by (exists mem; auto).
      rewrite <- EO in *. clear EO mem.
      destruct (set_asn o ia) as [asn| |] eqn:SA; cbn [bind] in P; try discriminate.
      destruct (set_ski b64url o ia) as [ski| |] eqn:SP; cbn [bind] in P; try discriminate.
      destruct (set_router_pub_key b64url valid_spki o ia) as [spk| |] eqn:SM; cbn [bind] in P; try discriminate.
      destruct (set_comment o) as [cm| |] eqn:SC; cbn [bind] in P; try discriminate.
      assert (CNT : json_valid_members_count o (opt_count asn + opt_count ski + opt_count spk + (if cm then 1 else 0)) = true
         /\ (ia = false -> asn <> None \/ ski <> None)).
      { destruct (_ =? FLAG_COMMENT) eqn:FC; [discriminate|]. destruct ia; cbn [negb] in P.
        - destruct (json_valid_members_count _ _); [split; [auto|discriminate]|discriminate].
        - destruct (Z.land _ _ =? 0) eqn:FZ; [discriminate|].
          destruct (json_valid_members_count _ _); [|discriminate]. split; auto. intros _.
          destruct asn, ski; try (left; discriminate); try (right; discriminate).
          destruct spk, cm; discriminate. }
      destruct CNT as [CNT NE]. clear P.
      apply set_asn_iff in SA; auto. apply set_ski_iff in SP; auto. apply set_spk_iff in SM; auto.
      apply set_comment_iff in SC; auto. destruct SC as [SC1 SC2].
      assert (Q1 : opt_count asn = b2n (isSome (json_object_get o (cstr "asn")))).
      { destruct asn; [destruct SA as [SA _]; apply member_get in SA; auto; rewrite SA; auto|
          destruct SA as [SA _]; apply get_absent in SA; auto; rewrite SA; auto]. }
      assert (Q2 : opt_count ski = b2n (isSome (json_object_get o (cstr "SKI")))).
      { destruct ski; [destruct SP as (s & SP & _); apply member_get in SP; auto; rewrite SP; auto|
          destruct SP as [SP _]; apply get_absent in SP; auto; rewrite SP; auto]. }
      assert (Q3 : opt_count spk = b2n (isSome (json_object_get o (cstr "routerPublicKey")))).
      { destruct spk; [destruct SM as (_ & s & SM & _); apply member_get in SM; auto; rewrite SM; auto|
          destruct SM as [SM _]; apply get_absent in SM; auto; rewrite SM; auto]. }
      assert (OM : only_members o ["asn"; "SKI"; "routerPublicKey"; "comment"]%string).
      { apply members_count; auto using strs_nodup2. rewrite filter4, <- Q1, <- Q2, <- Q3, <- SC2. exact CNT. }
      assert (UA : u32s_only o "asn").
      { intros x M. destruct asn; [destruct SA as [SA R]; pose proof (member_fun _ _ _ _ OK M SA); eauto|destruct SA as [SA _]; destruct (SA _ M)]. }
      destruct ia.
      + split; auto. split; auto. split; auto. split; auto.
        destruct asn; [|destruct SA; discriminate]. destruct ski; [|destruct SP; discriminate].
        destruct spk; [|destruct SM; discriminate].
        split; [destruct SA; eauto|]. destruct SP as (s & P1 & P2 & P3 & P4). destruct SM as (_ & s' & M1 & M2 & M3 & M4).
        split; [exists (JStr s); split; auto; exists s, l; auto|exists s', l0; auto].
      + destruct spk; [destruct SM; discriminate|]. destruct SM as [SM _].
        split; auto. split.
        { intros m k v E I. pose proof (OM m k v E I) as H. cbn [map In] in *.
          destruct H as [H|[H|[H|[H|[]]]]]; auto. exfalso. subst k. apply (SM v). exists m. auto. }
        split; auto. split; auto. split.
        * intros x M. destruct ski; [|destruct SP as [SP _]; destruct (SP _ M)].
          destruct SP as (s & P1 & P2 & P3 & P4). pose proof (member_fun _ _ _ _ OK M P1). subst. exists s, l. auto.
        * destruct (NE eq_refl) as [N|N].
          -- left. destruct asn; [destruct SA; eauto|congruence].
          -- right. destruct ski; [destruct SP as (s & P1 & _); eauto|congruence].
    - intros H.
      assert (IO : is_object o) by (destruct ia; apply H).
      assert (UA : u32s_only o "asn") by (destruct ia; apply H).
      assert (UC : strings_only o "comment") by (destruct ia; apply H).
      assert (CASES : exists asn ski spk rc,
         set_asn o ia = Ok asn /\ set_ski b64url o ia = Ok ski /\
         set_router_pub_key b64url valid_spki o ia = Ok spk /\ set_comment o = Ok rc /\
         (if ia then asn <> None /\ ski <> None /\ spk <> None else spk = None /\ (asn <> None \/ ski <> None)) /\
         json_valid_members_count o (opt_count asn + opt_count ski + opt_count spk + (if rc then 1 else 0)) = true).
      { assert (HA : exists asn, set_asn o ia = Ok asn /\ opt_count asn = b2n (isSome (json_object_get o (cstr "asn"))) /\
           ((exists x, member o "asn" x) -> asn <> None)).
        { destruct (json_object_get o (cstr "asn")) as [j|] eqn:G.
          - pose proof (proj2 (member_get _ _ _ OK) G) as M. destruct (UA _ M) as (n & -> & R).
            exists (Some n). split; [apply set_asn_iff; auto|]. split; auto. discriminate.
          - pose proof (proj2 (get_absent _ _ OK) G) as A. exists None. split; [|split; auto; intros (x & M); destruct (A _ M)].
            apply set_asn_iff; auto. split; auto. destruct ia; auto. destruct H as (_ & _ & _ & _ & (x & M) & _). destruct (A _ M). }
        assert (HS : exists ski, set_ski b64url o ia = Ok ski /\ opt_count ski = b2n (isSome (json_object_get o (cstr "SKI"))) /\
           ((exists x, member o "SKI" x) -> ski <> None)).
        { destruct (json_object_get o (cstr "SKI")) as [j|] eqn:G.
          - pose proof (proj2 (member_get _ _ _ OK) G) as M.
            assert (SO : ski_ok b64url j).
            { destruct ia; [destruct H as (_ & _ & _ & _ & _ & (x & Mx & SO) & _)|destruct H as (_ & _ & _ & _ & SO & _); auto].
              rewrite (member_fun _ _ _ _ OK M Mx). exact SO. }
            destruct SO as (s & ski & -> & S1 & S2 & S3).
            exists (Some ski). split; [apply set_ski_iff; auto; exists s; auto|]. split; auto. discriminate.
          - pose proof (proj2 (get_absent _ _ OK) G) as A. exists None. split; [|split; auto; intros (x & M); destruct (A _ M)].
            apply set_ski_iff; auto. split; auto. destruct ia; auto. destruct H as (_ & _ & _ & _ & _ & (x & M & _) & _). destruct (A _ M). }
        assert (HK : exists spk, set_router_pub_key b64url valid_spki o ia = Ok spk /\ opt_count spk = b2n (isSome (json_object_get o (cstr "routerPublicKey"))) /\
           (if ia then spk <> None else spk = None)).
        { destruct ia.
          - destruct H as (_ & _ & _ & _ & _ & _ & s & k & M & K1 & K2 & K3). exists (Some k).
            split; [apply set_spk_iff; auto; split; auto; exists s; auto|]. apply member_get in M; auto. rewrite M. split; auto. discriminate.
          - destruct H as (_ & OM & _). exists None.
            assert (A : absent o "routerPublicKey").
            { intros v (m & E & M). pose proof (OM m _ _ E M) as X. cbn [map In] in X.
              destruct X as [X|[X|[X|[]]]]; apply cstr_inj in X; discriminate. }
            split; [apply set_spk_iff; auto|]. apply get_absent in A; auto. rewrite A. auto. }
        destruct HA as (asn & SA & Q1 & NA). destruct HS as (ski & SS & Q2 & NS). destruct HK as (spk & SK & Q3 & NK).
        exists asn, ski, spk, (isSome (json_object_get o (cstr "comment"))).
        split; auto. split; auto. split; auto. split; [apply set_comment_iff; auto|].
        split.
        { destruct ia.
          - destruct H as (_ & _ & _ & _ & HA & (x & HS & _) & _). split; [exact (NA HA)|]. split; [exact (NS (ex_intro _ x HS))|auto].
          - split; auto. destruct H as (_ & _ & _ & _ & _ & [HA|HS]); [left; exact (NA HA)|right; exact (NS HS)]. }
        assert (OM : only_members o ["asn"; "SKI"; "routerPublicKey"; "comment"]%string).
        { destruct ia; [apply H|]. destruct H as (_ & OM & _). intros m k v E I. specialize (OM m k v E I).
          cbn [map In] in *. tauto. }
        apply members_count in OM; auto using strs_nodup2. rewrite filter4 in OM. rewrite Q1, Q2, Q3. exact OM. }
      destruct CASES as (ra & rp & rm & rc & SA & SP & SM & SC & HT & CNT).
      destruct IO as (mem & EO). unfold SlurmProofs.parse_bgpsec. rewrite EO. rewrite <- EO. clear EO mem.
      rewrite SA. cbn [bind]. rewrite SP. cbn [bind]. rewrite SM. cbn [bind]. rewrite SC. cbn [bind].
      cbv zeta. rewrite CNT. cbn [negb].
      destruct ia; [destruct HT as (T1 & T2 & T3)|destruct HT as (T3 & T1)];
        destruct ra, rp, rm, rc; try congruence; cbn [opt_flag]; norm_flags; eauto;
        exfalso; destruct T1; congruence.
  Qed.

  (** ** Whole file, alone. *)
  Lemma load_prefixes_complete l ia a : (forall e, prefix_exists l e = false) ->
    Forall (fun j => exists e, parse_prefix ia j = Ok e) a -> forall c,
    exists c', load_array (fun c x => load_single_prefix pton4 pton6 l c ia x) c a = Ok c'.
  Proof.
    intros NE. induction 1 as [|j a (e & P) F IH]; intros c; cbn [load_array]; [eauto|].
    rewrite load_single_prefix_eq, P. cbn [bind]. unfold db_slurm_add_prefix. rewrite NE. cbn [bind]. apply IH.
  Qed.
  Lemma load_bgpsecs_complete l ia a : (forall e, bgpsec_exists l e = false) ->
    Forall (fun j => exists e, parse_bgpsec ia j = Ok e) a -> forall c,
    exists c', load_array (fun c x => load_single_bgpsec b64url valid_spki l c ia x) c a = Ok c'.
  Proof.
    intros NE. induction 1 as [|j a (e & P) F IH]; intros c; cbn [load_array]; [eauto|].
    rewrite load_single_bgpsec_eq, P. cbn [bind]. unfold db_slurm_add_bgpsec. rewrite NE. cbn [bind]. apply IH.
  Qed.

  Lemma Forall2_ex {A B} (R : A -> B -> Prop) l m : Forall2 R l m -> Forall (fun a => exists b, R a b) l.
  Proof. induction 1; constructor; eauto. Qed.

  Lemma section_iff ia so sp sb root l c : json_ok root -> NoDup [sp; sb] ->
    (forall e, prefix_exists l e = false) -> (forall e, bgpsec_exists l e = false) ->
    ((exists c', load_section pton4 pton6 b64url valid_spki ia (cstr so) (cstr sp) (cstr sb) root l c = Ok c') <->
     section_ok root so sp sb (if ia then prefix_assertion_ok pton4 pton6 else prefix_filter_ok pton4 pton6)
                  (if ia then bgpsec_assertion_ok b64url valid_spki else bgpsec_filter_ok b64url)).
  Proof using PT.
    intros OK ND NP NB. split.
    - intros (c' & L). pose proof L as L0. apply load_section_spec in L0.
      destruct L0 as (ps & bs & F1 & F2 & _ & _ & _). revert L F1 F2.
      unfold load_section, json_get_object, json_get_array, arr_of.
      destruct (json_object_get root (cstr so)) as [s|] eqn:GS; cbn [bind]; [|discriminate].
      pose proof (json_ok_get _ _ _ OK GS) as OS.
      destruct s as [m| | | | |] eqn:ES; cbn [bind]; try discriminate. rewrite <- ES in *.
      assert (IS : is_object s) by (exists m; auto). clear ES m.
      destruct (json_object_get s (cstr sp)) as [[| lp | | | |]|] eqn:G1; cbn [bind]; try discriminate.
      destruct (json_object_get s (cstr sb)) as [[| lb | | | |]|] eqn:G2; cbn [bind]; try discriminate.
      destruct (json_valid_members_count s 2) eqn:CNT; cbn [negb]; [|discriminate].
      intros _ F1 F2. exists s, lp, lb.
      pose proof (json_ok_get _ _ _ OS G1) as O1. inversion O1; subst.
      pose proof (json_ok_get _ _ _ OS G2) as O2. inversion O2; subst.
      split; [apply member_get; auto|]. split; auto. split.
      { apply members_count; auto. rewrite filter2, G1, G2. exact CNT. }
      split; [apply member_get; auto|]. split; [apply member_get; auto|].
      apply Forall2_ex in F1, F2. rewrite Forall_forall in F1, F2. split; apply Forall_forall; intros j Hj.
      + specialize (F1 _ Hj). apply prefix_iff in F1; auto. destruct ia; auto.
      + specialize (F2 _ Hj). apply bgpsec_iff in F2; auto. destruct ia; auto.
    - intros (s & ps & bs & MS & IS & OM & M1 & M2 & F1 & F2).
      apply member_get in MS; auto. pose proof (json_ok_get _ _ _ OK MS) as OS.
      apply member_get in M1, M2; auto.
      unfold load_section, json_get_object, json_get_array. rewrite MS.
      destruct IS as (m & ES). rewrite ES. cbn [bind]. rewrite <- ES. rewrite M1. cbn [bind]. rewrite M2. cbn [bind].
      apply members_count in OM; auto; [|exists m; auto]. rewrite filter2, M1, M2 in OM. cbn [isSome b2n Nat.add] in OM. rewrite OM.
      cbn [negb].
      pose proof (json_ok_get _ _ _ OS M1) as O1. inversion O1; subst.
      pose proof (json_ok_get _ _ _ OS M2) as O2. inversion O2; subst.
      assert (FP : Forall (fun j => exists e, parse_prefix ia j = Ok e) ps).
      { rewrite Forall_forall in *. intros j Hj. apply prefix_iff; auto. specialize (F1 _ Hj). destruct ia; auto. }
      destruct (load_prefixes_complete l ia ps NP FP c) as (c1 & E1).
      rewrite E1. cbn [bind]. apply load_bgpsecs_complete; auto.
      rewrite Forall_forall in *. intros j Hj. apply bgpsec_iff; auto. specialize (F2 _ Hj). destruct ia; auto.
  Qed.

  Lemma file_iff root : json_ok root ->
    ((exists l, slurm_parse pton4 pton6 b64url valid_spki (Some root) slurm_lists_create = Ok l) <->
     slurm_file_ok pton4 pton6 b64url valid_spki root).
  Proof using PT.
    intros OK.
    assert (N1 : NoDup ["prefixFilters"; "bgpsecFilters"]%string) by (repeat constructor; cbn; intuition discriminate).
    assert (N2 : NoDup ["prefixAssertions"; "bgpsecAssertions"]%string) by (repeat constructor; cbn; intuition discriminate).
    assert (NP : forall e, prefix_exists slurm_lists_create e = false) by reflexivity.
    assert (NB : forall e, bgpsec_exists slurm_lists_create e = false) by reflexivity.
    cbn [slurm_parse]. split.
    - intros (l & H). unfold handle_json in H. destruct root as [m| | | | |] eqn:ER; try discriminate.
      assert (IR : is_object root) by (exists m; auto). rewrite <- ER in *. clear ER m.
      destruct (load_version root) eqn:LV; cbn [bind] in H; try discriminate.
      destruct (load_filters pton4 pton6 b64url valid_spki root _ _) as [c1| |] eqn:S1; cbn [bind] in H; try discriminate.
      destruct (load_assertions pton4 pton6 b64url valid_spki root _ c1) as [c2| |] eqn:S2; cbn [bind] in H; try discriminate.
      destruct (json_valid_members_count root 3) eqn:CNT; cbn [negb] in H; [|discriminate].
      pose proof (proj1 (section_iff false "validationOutputFilters" "prefixFilters" "bgpsecFilters" root slurm_lists_create slurm_lists_create OK N1 NP NB) (ex_intro _ c1 S1)) as K1.
      pose proof (proj1 (section_iff true "locallyAddedAssertions" "prefixAssertions" "bgpsecAssertions" root slurm_lists_create c1 OK N2 NP NB) (ex_intro _ c2 S2)) as K2.
      cbv iota in K1, K2.
      unfold load_version, json_get_u32 in LV.
      destruct (json_object_get root (cstr "slurmVersion")) as [[| | |n| |]|] eqn:GV; cbn [bind] in LV; try discriminate.
      destruct (_ || _); cbn [bind] in LV; try discriminate. destruct (n =? 1) eqn:E1; cbn [negb] in LV; try discriminate.
      apply Z.eqb_eq in E1. subst n.
      split; auto. split.
      { apply members_count; auto using strs_nodup3. rewrite filter3, GV.
        destruct K1 as (s1 & _ & _ & M1 & _). destruct K2 as (s2 & _ & _ & M2 & _). apply member_get in M1, M2; auto.
        rewrite M1, M2. exact CNT. }
      split; [apply member_get; auto|]. auto.
    - intros (IR & OM & MV & K1 & K2).
      pose proof (members_count root _ OK IR strs_nodup3) as MC. apply MC in OM. clear MC. rewrite filter3 in OM.
      pose proof K1 as (s1 & _ & _ & M1 & _). pose proof K2 as (s2 & _ & _ & M2 & _).
      apply member_get in M1, M2, MV; auto. rewrite M1, M2, MV in OM. cbn [isSome b2n Nat.add] in OM.
      unfold handle_json. destruct IR as (m & ER). rewrite ER. rewrite <- ER. clear ER m.
      unfold load_version, json_get_u32. rewrite MV. cbn [bind]. 
      change ((1 <? 0) || (UINT_MAX <? 1)) with false. cbv iota. cbn [bind]. change (negb (1 =? 1)) with false. cbv iota. cbn [bind].
      apply (section_iff false "validationOutputFilters" "prefixFilters" "bgpsecFilters" root slurm_lists_create slurm_lists_create OK N1 NP NB) in K1.
      destruct K1 as (c1 & S1). unfold load_filters. rewrite S1. cbn [bind].
      apply (section_iff true "locallyAddedAssertions" "prefixAssertions" "bgpsecAssertions" root slurm_lists_create c1 OK N2 NP NB) in K2.
      destruct K2 as (c2 & S2). unfold load_assertions. rewrite S2. cbn [bind]. rewrite OM. cbn [negb]. eauto.
  Qed.

  (** ** Conflicts between files. *)
  Lemma prefixes_nested W a la b lb ip : 0 <= la <= lb -> lb <= W ->
    in_prefix W a la ip -> in_prefix W b lb ip -> forall x, in_prefix W b lb x -> in_prefix W a la x.
  Proof.
    intros L LB [_ A] [_ B] x [R X]. split; auto.
    replace (W - la) with ((W - lb) + (lb - la)) in * by lia.
    rewrite Z.pow_add_r in * by lia.
    rewrite <- !Z.div_div in * by (try apply Z.pow_nonzero; try apply Z.pow_pos_nonneg; lia).
    rewrite X, <- B. exact A.
  Qed.

  Lemma no_conflict f1 a f2 b f3 l : files_ok (f1 ++ Some a :: f2 ++ Some b :: f3) ->
    parse_files pton4 pton6 b64url valid_spki (f1 ++ Some a :: f2 ++ Some b :: f3) slurm_lists_create = Ok l ->
    (forall fam a1 l1 a2 l2 ip, uses_prefix pton4 pton6 a fam a1 l1 -> uses_prefix pton4 pton6 b fam a2 l2 ->
       in_prefix (width fam) a1 l1 ip -> in_prefix (width fam) a2 l2 ip -> False) /\
    (forall n, uses_asn a n -> uses_asn b n -> False).
  Proof using PT.
    intros OKF P.
    assert (SPLIT : forall x y l0 l1, parse_files pton4 pton6 b64url valid_spki (x ++ y) l0 = Ok l1 ->
       exists m, parse_files pton4 pton6 b64url valid_spki x l0 = Ok m /\ parse_files pton4 pton6 b64url valid_spki y m = Ok l1).
    { induction x as [|f x IH]; intros y l0 l1; cbn [app parse_files]; [eauto|].
      destruct (slurm_parse _ _ _ _ f l0) as [l2| |]; cbn [bind]; try discriminate. apply IH. }
    change (f1 ++ Some a :: f2 ++ Some b :: f3) with (f1 ++ ([Some a] ++ f2 ++ [Some b] ++ f3)) in P.
    apply SPLIT in P. destruct P as (m1 & _ & P).
    apply SPLIT in P. destruct P as (m2 & PA & P).
    apply SPLIT in P. destruct P as (m3 & P2 & P).
    apply SPLIT in P. destruct P as (m4 & PB & _).
    assert (OA : json_ok a) by (apply OKF; rewrite in_app_iff; right; left; auto).
    assert (OB : json_ok b) by (apply OKF; rewrite in_app_iff; right; right; rewrite in_app_iff; right; left; auto).
    assert (OFA : files_ok [Some a]) by (intros r [E|[]]; inversion E; subst; auto).
    assert (OFB : files_ok [Some b]) by (intros r [E|[]]; inversion E; subst; auto).
    apply parse_files_spec in PA. destruct PA as (_ & fpa & fba & apa & aba & A1 & A2 & A3 & A4 & _ & _ & EA).
    apply parse_files_spec in P2. destruct P2 as (_ & fp2 & fb2 & ap2 & ab2 & _ & _ & _ & _ & _ & _ & E2).
    apply parse_files_spec in PB. destruct PB as (_ & fpb & fbb & apb & abb & B1 & B2 & B3 & B4 & B5 & B6 & _).
    split.
    - intros fam a1 l1 a2 l2 ip (ja & sa & INA & MA & RA) (jb & sb & INB & MB & RB) IA IB.
      assert (XA : exists e, In e (filter_pfx m3 ++ assertion_pfx m3) /\ has_pfx e = true /\
         canonical (sp_vrp e) /\ v_fam (sp_vrp e) = fam /\ v_addr (sp_vrp e) = a1 /\ v_len (sp_vrp e) = l1).
      { assert (K : forall ia es, json_ok ja -> (exists e, In e es /\ parse_prefix ia ja = Ok e) ->
           exists e, In e es /\ has_pfx e = true /\ canonical (sp_vrp e) /\ v_fam (sp_vrp e) = fam /\
             v_addr (sp_vrp e) = a1 /\ v_len (sp_vrp e) = l1).
        { intros ia es OJ (e & IE & PE). exists e. split; auto. apply parse_prefix_spec in PE; auto.
          destruct PE as (_ & EP & _ & _ & _). destruct (has_pfx e); [|destruct (EP _ MA)].
          destruct EP as (s & MS & RS). pose proof (member_fun _ _ _ _ OJ MS MA) as Q. inversion Q; subst s.
          destruct (reads_prefix_fun _ _ _ _ _ _ _ _ _ RS RA) as (Q1 & Q2 & Q3). repeat split; auto; try lia.
          all: pose proof (reads_canonical _ _ PT _ _ _ _ (v_asn (sp_vrp e)) (v_max (sp_vrp e)) RS) as C;
            unfold canonical in C; cbn [v_len v_fam v_addr] in C; tauto. }
        rewrite E2, EA. cbn [filter_pfx assertion_pfx].
        destruct INA as [INA|INA]; apply element_arrs in INA; auto;
          pose proof (json_ok_arrs _ _ _ _ OFA INA) as OJ.
        - destruct (K false fpa OJ) as (e & IE & R). { destruct (Forall2_In_l _ _ _ _ A1 INA) as (e & IE & PE). eauto. }
          exists e. split; auto. repeat rewrite in_app_iff. auto.
        - destruct (K true apa OJ) as (e & IE & R). { destruct (Forall2_In_l _ _ _ _ A3 INA) as (e & IE & PE). eauto. }
          exists e. split; auto. repeat rewrite in_app_iff. auto. }
      assert (XB : exists e, In e (fpb ++ apb) /\ has_pfx e = true /\
         canonical (sp_vrp e) /\ v_fam (sp_vrp e) = fam /\ v_addr (sp_vrp e) = a2 /\ v_len (sp_vrp e) = l2).
      { assert (K : forall ia es, json_ok jb -> (exists e, In e es /\ parse_prefix ia jb = Ok e) ->
           exists e, In e es /\ has_pfx e = true /\ canonical (sp_vrp e) /\ v_fam (sp_vrp e) = fam /\
             v_addr (sp_vrp e) = a2 /\ v_len (sp_vrp e) = l2).
        { intros ia es OJ (e & IE & PE). exists e. split; auto. apply parse_prefix_spec in PE; auto.
          destruct PE as (_ & EP & _ & _ & _). destruct (has_pfx e); [|destruct (EP _ MB)].
          destruct EP as (s & MS & RS). pose proof (member_fun _ _ _ _ OJ MS MB) as Q. inversion Q; subst s.
          destruct (reads_prefix_fun _ _ _ _ _ _ _ _ _ RS RB) as (Q1 & Q2 & Q3). repeat split; auto; try lia.
          all: pose proof (reads_canonical _ _ PT _ _ _ _ (v_asn (sp_vrp e)) (v_max (sp_vrp e)) RS) as C;
            unfold canonical in C; cbn [v_len v_fam v_addr] in C; tauto. }
        destruct INB as [INB|INB]; apply element_arrs in INB; auto;
          pose proof (json_ok_arrs _ _ _ _ OFB INB) as OJ.
        - destruct (K false fpb OJ) as (e & IE & R). { destruct (Forall2_In_l _ _ _ _ B1 INB) as (e & IE & PE). eauto. }
          exists e. split; auto. repeat rewrite in_app_iff. auto.
        - destruct (K true apb OJ) as (e & IE & R). { destruct (Forall2_In_l _ _ _ _ B3 INB) as (e & IE & PE). eauto. }
          exists e. split; auto. repeat rewrite in_app_iff. auto. }
      destruct XA as (ea & IEA & HA & CA & FA & AA1 & LA). destruct XB as (eb & IEB & HB & CB & FB & AB1 & LB).
      rewrite Forall_forall in B5. specialize (B5 _ IEB). unfold prefix_exists in B5.
      rewrite orb_false_iff in B5. destruct B5 as [B5 B5'].
      assert (NC : prefix_contained ea eb = false /\ prefix_contained eb ea = false).
      { apply in_app_iff in IEA. destruct IEA as [I|I].
        - destruct (prefix_contained ea eb) eqn:Q1, (prefix_contained eb ea) eqn:Q2; auto; exfalso;
            assert (existsb (fun c => prefix_contained c eb || prefix_contained eb c) (filter_pfx m3) = true)
              by (apply existsb_exists; exists ea; split; auto; rewrite Q1, Q2; reflexivity); congruence.
        - destruct (prefix_contained ea eb) eqn:Q1, (prefix_contained eb ea) eqn:Q2; auto; exfalso;
            assert (existsb (fun c => prefix_contained c eb || prefix_contained eb c) (assertion_pfx m3) = true)
              by (apply existsb_exists; exists ea; split; auto; rewrite Q1, Q2; reflexivity); congruence. }
      destruct NC as [N1 N2]. unfold prefix_contained, has_pfx in *. rewrite HA, HB in N1, N2. cbn [andb] in N1, N2.
      pose proof (proj1 CA) as LA0. pose proof (proj1 CB) as LB0. rewrite FA, LA in LA0. rewrite FB, LB in LB0.
      destruct (Z.le_ge_cases l1 l2).
      + assert (vrp_prefix_cov (sp_vrp ea) (sp_vrp eb) = true); [|congruence].
        apply vrp_prefix_cov_spec; auto. split; [congruence|]. rewrite FA, FB, AA1, AB1, LA, LB.
        apply (prefixes_nested (width fam) a1 l1 a2 l2 ip); auto; lia.
      + assert (vrp_prefix_cov (sp_vrp eb) (sp_vrp ea) = true); [|congruence].
        apply vrp_prefix_cov_spec; auto. split; [congruence|]. rewrite FA, FB, AA1, AB1, LA, LB.
        apply (prefixes_nested (width fam) a2 l2 a1 l1 ip); auto; lia.
    - intros n (ja & INA & MA) (jb & INB & MB).
      assert (XA : exists e, In e (filter_bgps m3 ++ assertion_bgps m3) /\ flag_on (sb_flag e) FLAG_ASN = true /\ sb_asn e = n).
      { assert (K : forall ia es, json_ok ja -> (exists e, In e es /\ parse_bgpsec ia ja = Ok e) ->
           exists e, In e es /\ flag_on (sb_flag e) FLAG_ASN = true /\ sb_asn e = n).
        { intros ia es OJ (e & IE & PE). exists e. split; auto. apply parse_bgpsec_spec in PE; auto.
          destruct PE as (EP & _). destruct (flag_on (sb_flag e) FLAG_ASN); [|destruct (EP _ MA)].
          pose proof (member_fun _ _ _ _ OJ EP MA) as Q. inversion Q; subst. auto. }
        rewrite E2, EA. cbn [filter_bgps assertion_bgps].
        destruct INA as [INA|INA]; apply element_arrs in INA; auto;
          pose proof (json_ok_arrs _ _ _ _ OFA INA) as OJ.
        - destruct (K false fba OJ) as (e & IE & R). { destruct (Forall2_In_l _ _ _ _ A2 INA) as (e & IE & PE). eauto. }
          exists e. split; auto. repeat rewrite in_app_iff. auto.
        - destruct (K true aba OJ) as (e & IE & R). { destruct (Forall2_In_l _ _ _ _ A4 INA) as (e & IE & PE). eauto. }
          exists e. split; auto. repeat rewrite in_app_iff. auto. }
      assert (XB : exists e, In e (fbb ++ abb) /\ flag_on (sb_flag e) FLAG_ASN = true /\ sb_asn e = n).
      { assert (K : forall ia es, json_ok jb -> (exists e, In e es /\ parse_bgpsec ia jb = Ok e) ->
           exists e, In e es /\ flag_on (sb_flag e) FLAG_ASN = true /\ sb_asn e = n).
        { intros ia es OJ (e & IE & PE). exists e. split; auto. apply parse_bgpsec_spec in PE; auto.
          destruct PE as (EP & _). destruct (flag_on (sb_flag e) FLAG_ASN); [|destruct (EP _ MB)].
          pose proof (member_fun _ _ _ _ OJ EP MB) as Q. inversion Q; subst. auto. }
        destruct INB as [INB|INB]; apply element_arrs in INB; auto;
          pose proof (json_ok_arrs _ _ _ _ OFB INB) as OJ.
        - destruct (K false fbb OJ) as (e & IE & R). { destruct (Forall2_In_l _ _ _ _ B2 INB) as (e & IE & PE). eauto. }
          exists e. split; auto. repeat rewrite in_app_iff. auto.
        - destruct (K true abb OJ) as (e & IE & R). { destruct (Forall2_In_l _ _ _ _ B4 INB) as (e & IE & PE). eauto. }
          exists e. split; auto. repeat rewrite in_app_iff. auto. }
      destruct XA as (ea & IEA & HA & NA). destruct XB as (eb & IEB & HB & NB).
      rewrite Forall_forall in B6. specialize (B6 _ IEB). unfold bgpsec_exists in B6.
      rewrite orb_false_iff in B6. destruct B6 as [B6 B6'].
      assert (C : bgpsec_contained ea eb = true).
      { unfold bgpsec_contained. rewrite HA, HB, NA, NB, Z.eqb_refl. reflexivity. }
      apply in_app_iff in IEA. destruct IEA as [I|I].
      + assert (existsb (fun c => bgpsec_contained c eb || bgpsec_contained eb c) (filter_bgps m3) = true)
          by (apply existsb_exists; exists ea; split; auto; rewrite C; reflexivity). congruence.
      + assert (existsb (fun c => bgpsec_contained c eb || bgpsec_contained eb c) (assertion_bgps m3) = true)
          by (apply existsb_exists; exists ea; split; auto; rewrite C; reflexivity). congruence.
  Qed.
End Oracles.

(** ** Checksums. *)
Lemma csums_equal_perm new old : NoDup new -> (are_csum_lists_equals new old = true <-> Permutation new old).
Proof.
  intros ND. unfold are_csum_lists_equals. split.
  - destruct (Nat.eqb (length new) (length old)) eqn:L; cbn [negb]; [|discriminate].
    apply Nat.eqb_eq in L. rewrite forallb_forall. intros H.
    apply NoDup_Permutation_bis; auto; [lia|]. intros x Hx. specialize (H _ Hx). apply existsb_exists in H.
    destruct H as (y & Hy & E). apply keyeq in E. subst. auto.
  - intros P. rewrite (Permutation_length P), Nat.eqb_refl. cbn [negb]. apply forallb_forall. intros x Hx.
    apply existsb_exists. exists x. split; [eapply Permutation_in; eauto|]. apply keyeq. reflexivity.
Qed.
