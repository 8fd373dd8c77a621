From Coq Require Import String Permutation.
From Verif Require Import Base BaseLemmas Types HashSet DbTable CString CLib PduWireSpec Address AddressSpec
  AddressProofs AddressProps Vrps VrpsSpec VrpsProofs Slurm SlurmSpec SlurmProofs SlurmProofs2.
Notation length := List.length.

Definition isSome {A} (o : option A) : bool := match o with Some _ => true | None => false end.
Lemma count_members m ks : NoDup (map fst m) -> NoDup ks ->
  ((length m = length (filter (fun k => isSome (assoc k m)) ks)) <-> (forall k v, In (k, v) m -> In k ks)).
Proof.
  intros NM NK. set (P := filter _ ks).
  assert (NP : NoDup P) by (apply NoDup_filter; auto).
  assert (IP : incl P (map fst m)).
  { intros k H. apply filter_In in H. destruct H as [_ H]. destruct (assoc k m) eqn:E; [|discriminate].
    apply assoc_In in E. apply (in_map fst) in E. exact E. }
  split.
  - intros E k v H. assert (I : incl (map fst m) P).
    { apply NoDup_length_incl; auto. rewrite map_length. lia. }
    apply (in_map fst) in H. apply I in H. apply filter_In in H. tauto.
  - intros H. assert (I : incl (map fst m) P).
    { intros k Hk. apply in_map_iff in Hk. destruct Hk as ([k' v] & <- & Hk). cbn [fst].
      apply filter_In. split; [eauto|]. destruct (assoc k' m) eqn:E; auto. exfalso. exact (assoc_None _ _ E _ Hk). }
    pose proof (NoDup_incl_length NM I). pose proof (NoDup_incl_length NP IP). rewrite map_length in *. lia.
Qed.

Lemma cstr_inj a b : cstr a = cstr b -> a = b.
Proof.
  unfold cstr. intros H.
  assert (forall x y, map (fun c => Z.of_N (Ascii.N_of_ascii c)) x = map (fun c => Z.of_N (Ascii.N_of_ascii c)) y -> x = y).
  { induction x as [|c x IH]; destruct y as [|d y]; cbn; intros E; try discriminate; auto.
    inversion E as [[E1 E2]]. apply IH in E2. subst. f_equal.
    apply N2Z.inj in E1. rewrite <- (Ascii.ascii_N_embedding c), <- (Ascii.ascii_N_embedding d), E1. reflexivity. }
  apply H0 in H. rewrite <- (string_of_list_ascii_of_string a), <- (string_of_list_ascii_of_string b), H. reflexivity.
Qed.
Lemma NoDup_cstr l : NoDup l -> NoDup (map cstr l).
Proof. apply FinFun.Injective_map_NoDup. intros a b. apply cstr_inj. Qed.

Lemma members_count o ks : json_ok o -> is_object o -> NoDup ks ->
  (json_valid_members_count o (length (filter (fun k => isSome (json_object_get o (cstr k))) ks)) = true <->
   only_members o ks).
Proof.
  intros OK (m & ->) ND. inversion OK; subst.
  unfold json_valid_members_count. cbn [json_object_size json_object_get]. rewrite Nat.eqb_eq.
  replace (length (filter (fun k => isSome (assoc (cstr k) m)) ks))
    with (length (filter (fun k => isSome (assoc k m)) (map cstr ks))).
  - rewrite count_members by (auto using NoDup_cstr). unfold only_members. split.
    + intros H m' k v E. inversion E; subst. apply H.
    + intros H k v. apply H. reflexivity.
  - clear. induction ks as [|k ks IH]; cbn; auto. destruct (assoc (cstr k) m); cbn; auto.
Qed.

Definition b2n (b : bool) : nat := if b then 1 else 0.
Lemma filter4 (p : string -> bool) a b c d :
  length (filter p [a; b; c; d]) = (b2n (p a) + b2n (p b) + b2n (p c) + b2n (p d))%nat.
Proof. cbn [filter]. destruct (p a), (p b), (p c), (p d); reflexivity. Qed.
Lemma strs_nodup1 : NoDup ["asn"; "prefix"; "maxPrefixLength"; "comment"]%string.
Proof. repeat constructor; cbn; intros H; repeat destruct H as [H|H]; try discriminate; auto. Qed.
Lemma strs_nodup2 : NoDup ["asn"; "SKI"; "routerPublicKey"; "comment"]%string.
Proof. repeat constructor; cbn; intros H; repeat destruct H as [H|H]; try discriminate; auto. Qed.
Lemma strs_nodup3 : NoDup ["slurmVersion"; "validationOutputFilters"; "locallyAddedAssertions"]%string.
Proof. repeat constructor; cbn; intros H; repeat destruct H as [H|H]; try discriminate; auto. Qed.

Section Oracles.
  Variable pton4 : list Z -> option Z.
  Variable pton6 : list Z -> option (list Z).
  Variable b64url : list Z -> option (list Z).
  Variable valid_spki : list Z -> bool.
  Hypothesis PT : pton_ok pton4 pton6.
  Notation reads := (reads_prefix pton4 pton6).
  Notation parse_prefix := (parse_prefix pton4 pton6).
  Notation parse_bgpsec := (parse_bgpsec b64url valid_spki).

  Lemma set_prefix_complete o ia s f a l : json_ok o -> member o "prefix" (JStr s) -> reads s f a l ->
    set_prefix pton4 pton6 o ia = Ok (Some (f, a, l)).
  Proof using PT.
    clear b64url valid_spki. intros OK M (x & r & t & r' & e & T1 & T2 & U & L & MD & F). apply member_get in M; auto.
    unfold set_prefix, json_get_str. rewrite M. cbn [bind]. rewrite T1, T2. cbn [fst prefix_length_parse].
    rewrite U. destruct f.
    - destruct F as [F1 F2]. apply has_char_notIn in F1. rewrite F1. cbn [negb]. rewrite F2. cbn [width] in *.
      replace (32 <? l) with false by (symmetry; lia). cbn [bind].
      rewrite (proj2 (validate4 a l L)) by auto. reflexivity.
    - destruct F as (F1 & b & F2 & ->). apply has_char_In in F1. rewrite F1. cbn [negb]. rewrite F2. cbn [width] in *.
      replace (128 <? l) with false by (symmetry; lia). cbn [bind].
      destruct (proj2 PT _ _ F2). rewrite (proj2 (validate6 b l L H H0)) by auto. reflexivity.
  Qed.

  Lemma u32_get o k : json_ok o -> u32s_only o k ->
    exists r, json_get_u32 o (cstr k) = Ok r /\
      match r with Some n => member o k (JInt n) /\ json_object_get o (cstr k) = Some (JInt n)
                 | None => absent o k /\ json_object_get o (cstr k) = None end.
  Proof.
    intros OK U. unfold json_get_u32. destruct (json_object_get o (cstr k)) as [j|] eqn:G.
    - pose proof (proj2 (member_get o k j OK) G) as M. destruct (U _ M) as (n & -> & R).
      unfold is_u32, UINT_MAX in *. replace ((n <? 0) || (4294967295 <? n)) with false by (symmetry; lia).
      exists (Some n). auto.
    - exists None. split; auto. split; auto. apply get_absent; auto.
  Qed.
  Lemma str_get o k : json_ok o -> strings_only o k ->
    exists r, json_get_str o (cstr k) = Ok r /\
      match r with Some n => json_object_get o (cstr k) = Some (JStr n) | None => json_object_get o (cstr k) = None end.
  Proof.
    intros OK U. unfold json_get_str. destruct (json_object_get o (cstr k)) as [j|] eqn:G.
    - pose proof (proj2 (member_get o k j OK) G) as M. destruct (U _ M) as (n & ->). exists (Some n). auto.
    - exists None. auto.
  Qed.

  Ltac norm_flags :=
    repeat match goal with |- context [Z.lor ?a ?b] => let v := eval vm_compute in (Z.lor a b) in change (Z.lor a b) with v end;
    repeat match goal with |- context [Z.land ?a ?b =? 0] => let v := eval vm_compute in (Z.land a b =? 0) in
                                                         change (Z.land a b =? 0) with v end;
    repeat match goal with |- context [flag_on ?a ?b] => let v := eval vm_compute in (flag_on a b) in
                                                         change (flag_on a b) with v end;
    cbn [Z.eqb FLAG_COMMENT negb Pos.eqb andb].

  Lemma u32_only_of o k r : json_ok o -> json_get_u32 o (cstr k) = Ok r -> u32s_only o k.
  Proof.
    intros OK. unfold json_get_u32. destruct (json_object_get o (cstr k)) as [j|] eqn:G.
    - destruct j; try discriminate. destruct ((n <? 0) || (UINT_MAX <? n)) eqn:B; [discriminate|].
      intros _ x M. apply member_get in M; auto. rewrite G in M. inversion M; subst. exists n. split; auto.
      unfold is_u32, UINT_MAX in *. lia.
    - intros _ x M. apply member_get in M; auto. congruence.
  Qed.
  Lemma str_only_of o k r : json_ok o -> json_get_str o (cstr k) = Ok r -> strings_only o k.
  Proof.
    intros OK. unfold json_get_str. destruct (json_object_get o (cstr k)) as [j|] eqn:G.
    - destruct j; try discriminate.
      intros _ x M. apply member_get in M; auto. rewrite G in M. inversion M; subst. exists s. auto.
    - intros _ x M. apply member_get in M; auto. congruence.
  Qed.

  (** What the presence count of an accepted entry is. *)
  Lemma prefix_iff ia o : json_ok o ->
    ((exists e, parse_prefix ia o = Ok e) <->
     if ia then prefix_assertion_ok pton4 pton6 o else prefix_filter_ok pton4 pton6 o).
  Proof using PT.
    clear b64url valid_spki.
    intros OK. split.
    - intros (e & P). pose proof (parse_prefix_spec _ _ PT _ _ _ OK P) as (EA & EP & EM & EH & _).
      unfold SlurmProofs.parse_prefix in P. destruct o as [mem| | | | |] eqn:EO; try discriminate.
      assert (IO : is_object o) by (exists mem; auto).
      rewrite <- EO in *. clear EO mem.
      destruct (set_asn o ia) as [asn| |] eqn:SA; cbn [bind] in P; try discriminate.
      destruct (set_prefix pton4 pton6 o ia) as [pfx| |] eqn:SP; cbn [bind] in P; try discriminate.
      pose proof (set_prefix_spec _ _ PT _ _ _ OK SP) as SP'.
      remember (match pfx with Some p => p | None => (AF_INET, 0, 0) end) as pp eqn:EPP. destruct pp as [[fam addr] len].
      destruct (set_max_prefix_length o ia fam) as [mx| |] eqn:SM; cbn [bind] in P; try discriminate.
      destruct (set_comment o) as [cm| |] eqn:SC; cbn [bind] in P; try discriminate.
      unfold set_asn in SA. destruct (json_get_u32 o (cstr "asn")) as [ra| |] eqn:GA; cbn [bind] in SA; try discriminate.
      unfold set_comment in SC. destruct (json_get_str o (cstr "comment")) as [rc| |] eqn:GC; cbn [bind] in SC; try discriminate.
      unfold set_max_prefix_length in SM.
      destruct (json_get_u32 o (cstr "maxPrefixLength")) as [rm| |] eqn:GM; cbn [bind] in SM; try discriminate.
      pose proof (u32_only_of _ _ _ OK GA) as UA. pose proof (str_only_of _ _ _ OK GC) as UC.
      assert (CNT : json_valid_members_count o (opt_count asn + opt_count pfx + opt_count mx + (if cm then 1 else 0)) = true).
      { destruct (_ =? FLAG_COMMENT); [discriminate|]. destruct ia; cbn [negb] in P.
        - destruct (flag_on _ _ && _); [discriminate|].
          destruct (json_valid_members_count _ _); [auto|discriminate].
        - destruct (Z.land _ _ =? 0); [discriminate|].
          destruct (json_valid_members_count _ _); [auto|discriminate]. }
      assert (OM : only_members o ["asn"; "prefix"; "maxPrefixLength"; "comment"]%string).
      { apply members_count; auto using strs_nodup1. rewrite filter4.
        assert (Q1 : opt_count asn = b2n (isSome (json_object_get o (cstr "asn")))).
        { unfold json_get_u32 in GA. destruct (json_object_get o (cstr "asn")) as [[]|]; try discriminate.
          - destruct (_ || _); inversion GA; subst. inversion SA; reflexivity.
          - inversion GA; subst. destruct ia; inversion SA; reflexivity. }
        assert (Q2 : opt_count pfx = b2n (isSome (json_object_get o (cstr "prefix")))).
        { destruct pfx as [[[f a] l]|].
          - destruct SP' as (s & M & _). apply member_get in M; auto. rewrite M. reflexivity.
          - destruct SP' as [M _]. apply get_absent in M; auto. rewrite M. reflexivity. }
        assert (Q3 : opt_count mx = b2n (isSome (json_object_get o (cstr "maxPrefixLength")))).
        { unfold json_get_u32 in GM. destruct (json_object_get o (cstr "maxPrefixLength")) as [[]|]; try discriminate.
          - destruct (_ || _); inversion GM; subst. destruct ia; cbn [negb] in SM; [|discriminate].
            destruct (_ <? n); inversion SM; reflexivity.
          - inversion GM; subst. destruct ia; inversion SM; reflexivity. }
        assert (Q4 : (if cm then 1%nat else 0%nat) = b2n (isSome (json_object_get o (cstr "comment")))).
        { unfold json_get_str in GC. destruct (json_object_get o (cstr "comment")) as [[]|]; try discriminate.
          - inversion GC; subst. inversion SC; reflexivity.
          - inversion GC; subst. inversion SC; reflexivity. }
        rewrite <- Q1, <- Q2, <- Q3, <- Q4. exact CNT. }
      clear P CNT SA SP SM SC GA GC GM.
      unfold has_asn, has_pfx in *.
      destruct ia.
      + destruct EH as [HA HP]. rewrite HA in EA. rewrite HP in EP. destruct EP as (s & MS & RS).
        split; auto. split; auto. split; auto. split; auto. split; [eauto|].
        exists s, (v_fam (sp_vrp e)), (v_addr (sp_vrp e)), (v_len (sp_vrp e)). split; auto. split; auto.
        intros x Mx. destruct (flag_on (sp_flag e) FLAG_MAX_LENGTH).
        * destruct EM as [EM B]. pose proof (member_fun _ _ _ _ OK Mx EM). eauto.
        * destruct (EM _ Mx).
      + destruct EH as [HH HM]. rewrite HM in EM.
        split; auto. split.
        { intros m k v E I. pose proof (OM m k v E I) as H. cbn [map In] in *.
          destruct H as [H|[H|[H|[H|[]]]]]; auto. exfalso. subst k. apply (EM v). exists m. auto. }
        split; auto. split; auto. split.
        * intros x Mx. destruct (flag_on (sp_flag e) FLAG_PREFIX).
          -- destruct EP as (s & MS & RS). pose proof (member_fun _ _ _ _ OK Mx MS). subst.
             exists s. do 3 eexists. split; eauto.
          -- destruct (EP _ Mx).
        * destruct HH as [HH|HH]; rewrite HH in *; [left; eauto|right]. destruct EP as (s & MS & _). eauto.
    - (* completeness *)
      intros H.
      assert (IO : is_object o) by (destruct ia; apply H).
      assert (CASES : exists ra rp rm rc,
         set_asn o ia = Ok ra /\ set_prefix pton4 pton6 o ia = Ok rp /\
         set_max_prefix_length o ia (fst (fst (match rp with Some p => p | None => (AF_INET, 0, 0) end))) = Ok rm /\
         set_comment o = Ok rc /\
         (ia = true -> ra <> None /\ rp <> None /\ match rm, rp with Some n, Some (_, _, l) => l <= n | _, _ => True end) /\
         (ia = false -> rm = None /\ (ra <> None \/ rp <> None)) /\
         json_valid_members_count o (opt_count ra + opt_count rp + opt_count rm + (if rc then 1 else 0)) = true).
      { assert (UA : u32s_only o "asn") by (destruct ia; apply H).
        assert (UC : strings_only o "comment") by (destruct ia; apply H).
        destruct (u32_get o "asn" OK UA) as (ra & GA & RA).
        destruct (str_get o "comment" OK UC) as (rc & GC & RC).
        assert (HP : exists rp, set_prefix pton4 pton6 o ia = Ok rp /\ (ia = true -> rp <> None) /\
           match rp with Some (f, a, l) => exists s, member o "prefix" (JStr s) /\ reads s f a l | None => absent o "prefix" end).
        { destruct ia.
          - destruct H as (_ & _ & _ & _ & _ & s & f & a & l & MS & RS & _).
            exists (Some (f, a, l)). split; [eapply set_prefix_complete; eauto|]. split; [discriminate|eauto].
          - destruct H as (_ & _ & _ & _ & H & _).
            destruct (json_object_get o (cstr "prefix")) as [j|] eqn:G.
            + pose proof (proj2 (member_get _ "prefix" _ OK) G) as M. destruct (H _ M) as (s & f & a & l & -> & RS).
              exists (Some (f, a, l)). split; [eapply set_prefix_complete; eauto|]. split; [discriminate|eauto].
            + exists None. split; [unfold set_prefix, json_get_str; rewrite G; reflexivity|].
              split; [discriminate|apply get_absent; auto]. }
        destruct HP as (rp & SP & NP & RP).
        assert (HM : exists rm, set_max_prefix_length o ia (fst (fst (match rp with Some p => p | None => (AF_INET, 0, 0) end))) = Ok rm /\
           (ia = false -> rm = None) /\ (ia = true -> match rm, rp with Some n, Some (_, _, l) => l <= n | _, _ => True end) /\
           match rm with Some n => json_object_get o (cstr "maxPrefixLength") = Some (JInt n)
                       | None => json_object_get o (cstr "maxPrefixLength") = None end).
        { unfold set_max_prefix_length, json_get_u32. destruct ia; cbn [negb].
          - destruct H as (_ & _ & _ & _ & _ & s & f & a & l & MS & RS & MX).
            assert (E : rp = Some (f, a, l)).
            { rewrite (set_prefix_complete o true s f a l OK MS RS) in SP. congruence. }
            rewrite E. cbn [fst]. destruct (json_object_get o (cstr "maxPrefixLength")) as [j|] eqn:G; cbn [bind].
            + pose proof (proj2 (member_get _ _ _ OK) G) as M. destruct (MX _ M) as (n & -> & B).
              assert (0 <= l) by (destruct RS as (?&?&?&?&?&_&_&_&?&_); lia).
              unfold UINT_MAX. replace ((n <? 0) || (4294967295 <? n)) with false by (symmetry; destruct f; cbn [width] in *; lia).
              cbn [bind]. replace (_ <? n) with false by (symmetry; destruct f; cbn [width] in *; lia).
              exists (Some n). repeat split; auto; try discriminate; intros; lia.
            + exists None. repeat split; auto.
          - destruct H as (_ & OM & _). destruct (json_object_get o (cstr "maxPrefixLength")) as [j|] eqn:G; cbn [bind].
            + exfalso. destruct IO as (m & EOm). pose proof (proj2 (member_get _ _ _ OK) G) as (m' & E' & M).
              pose proof (OM m' _ _ E' M) as X. cbn [map In] in X.
              destruct X as [X|[X|[X|[]]]]; apply cstr_inj in X; discriminate.
            + exists None. repeat split; auto. }
        destruct HM as (rm & SM & NM & LM & RM).
        exists ra, rp, rm, (match rc with None => false | Some _ => true end).
        assert (RA2 : ia = true -> ra <> None).
        { intros ->. destruct H as (_ & _ & _ & _ & (x & Mx) & _). destruct ra; [discriminate|].
          destruct RA as [RA _]. destruct (RA _ Mx). }
        split. { unfold set_asn. rewrite GA. cbn [bind]. destruct ra; auto. destruct ia; auto. destruct (RA2 eq_refl eq_refl). }
        split; auto. split; auto. split. { unfold set_comment. rewrite GC. reflexivity. }
        split; [intros T; exact (conj (RA2 T) (conj (NP T) (LM T)))|]. split.
        { intros ->. split; [exact (NM eq_refl)|]. destruct H as (_ & _ & _ & _ & _ & [(x & Mx)|(x & Mx)]).
          - left. destruct ra; [discriminate|]. destruct RA as [RA _]. destruct (RA _ Mx).
          - right. destruct rp as [[[? ?] ?]|]; [discriminate|]. destruct (RP _ Mx). }
        assert (OM : only_members o ["asn"; "prefix"; "maxPrefixLength"; "comment"]%string).
        { destruct ia; [apply H|]. destruct H as (_ & OM & _). intros m k v E I. specialize (OM m k v E I).
          cbn [map In] in *. tauto. }
        apply members_count in OM; auto using strs_nodup1. rewrite filter4 in OM.
        assert (Q1 : opt_count ra = b2n (isSome (json_object_get o (cstr "asn")))).
        { destruct ra; destruct RA as [_ RA]; rewrite RA; reflexivity. }
        assert (Q2 : opt_count rp = b2n (isSome (json_object_get o (cstr "prefix")))).
        { destruct rp as [[[f a] l]|].
          - destruct RP as (s & M & _). apply member_get in M; auto. rewrite M. reflexivity.
          - apply get_absent in RP; auto. rewrite RP. reflexivity. }
        assert (Q3 : opt_count rm = b2n (isSome (json_object_get o (cstr "maxPrefixLength")))).
        { destruct rm; rewrite RM; reflexivity. }
        assert (Q4 : (if (match rc with None => false | Some _ => true end) then 1%nat else 0%nat) = b2n (isSome (json_object_get o (cstr "comment")))).
        { destruct rc; rewrite RC; reflexivity. }
        rewrite Q1, Q2, Q3, Q4. exact OM. }
      destruct CASES as (ra & rp & rm & rc & SA & SP & SM & SC & HT & HF & CNT).
      destruct IO as (mem & EO). unfold SlurmProofs.parse_prefix. rewrite EO. rewrite <- EO. clear EO mem.
      rewrite SA. cbn [bind]. rewrite SP. cbn [bind].
      destruct rp as [[[f a] l]|]; cbn [fst] in SM; rewrite SM; cbn [bind]; rewrite SC; cbn [bind];
        cbv zeta; rewrite CNT; cbn [negb];
        destruct ia;
        try (destruct (HT eq_refl) as (T1 & T2 & T3)); try (destruct (HF eq_refl) as (T1 & T2)); try congruence;
        destruct ra, rm, rc; try congruence; cbn [opt_flag]; norm_flags; cbn [sp_vrp v_max];
        try (replace (_ <? l) with false by (symmetry; lia)); eauto;
        exfalso; destruct T2; congruence.
  Qed.
End Oracles.
