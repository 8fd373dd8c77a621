(** C100: what's loaded and hashed is what the file has. *)
From Coq Require Import ZArith List Bool Lia.
From Verif Require Import Base BaseLemmas PathBuilder Manifest FileIO FileIOSpec FileIOProofs.
Import ListNotations.
Open Scope list_scope.
Open Scope Z_scope.

(** errno is positive after an error. *)
Definition sane (p : path_state) : Prop :=
  match p with NotOpened e => 0 < e | Opened (inl e) _ => 0 < e | Opened (inr _) _ => True end.
Definition all_work (e : evp) : Prop := known e = true /\ init_works e = true /\ (forall t, update_works e t = true) /\ final_works e = true.

Section Load.
  Variable ferror : Z.
  Hypothesis fe : ferror <> 0.

  Lemma load_spec st kernel : st_isreg st = true ->
    (exists m, file_load ferror (Opened (inr st) kernel) = (0, Some (firstn (st_size st) (got kernel m)), [Fopen; Malloc; Fclose]) /\
       (st_size st <= length (got kernel m))%nat) \/
    (exists K r, (length (got kernel K) < st_size st)%nat /\ file_load ferror (Opened (inr st) kernel) = (r, None, [Fopen; Malloc; Free; Fclose]) /\
       ((ends kernel K /\ r = - c_EINVAL) \/ (fails kernel K /\ r = ferror))).
  Proof.
    intros RG. unfold file_load, file_open. rewrite RG. cbn [negb].
    pose proof (fread_spec kernel (st_size st) fresh [] eq_refl eq_refl eq_refl ltac:(intros k K; inversion K)) as S.
    destruct (fread kernel (st_size st) fresh) as [b f'].
    destruct S as [(L&E'&O'&I'&A')|(L&K&G&X)].
    - left. rewrite L, Nat.ltb_irrefl. exists (reads f'). cbn [app] in I'. rewrite <- I', <- L, firstn_app, Nat.sub_diag, firstn_all.
      cbn [firstn]. rewrite app_nil_r, app_length. split; [reflexivity|lia].
    - right. cbn [app] in G. rewrite G in *. apply Nat.ltb_lt in L. rewrite L. apply Nat.ltb_lt in L.
      destruct X as [(EN&E'&O')|(FA&E'&O')]; rewrite E'.
      + exists K, (- c_EINVAL). cbn [Z.eqb negb]. auto.
      + exists K, ferror. replace (ferror =? 0) with false by (symmetry; apply Z.eqb_neq; exact fe). cbn [negb]. auto.
  Qed.

  (** Success: as many bytes as fstat() said, of a regular file, each of which the file had at its place at
      some time during the call; whatever others do with the file meanwhile. *)
  Theorem C100_load_sound f st kernel r b ev : reads_from f kernel -> file_load ferror (Opened (inr st) kernel) = (r, Some b, ev) ->
    r = 0 /\ st_isreg st = true /\ length b = st_size st /\ mixture f b.
  Proof.
    intros R H. destruct (st_isreg st) eqn:RG; [|unfold file_load, file_open in H; rewrite RG in H; discriminate H].
    destruct (load_spec st kernel RG) as [(m&Q&L)|(K&r'&_&Q&_)]; rewrite Q in H; [|discriminate H].
    injection H as <- <- <-. split; [reflexivity|]. split; [reflexivity|]. split; [rewrite firstn_length; lia|].
    apply firstn_incl_mixture, got_mixture, R.
  Qed.

  (** A result is 0 exactly if there's a buffer. *)
  Theorem C100_load_code p r o ev : sane p -> file_load ferror p = (r, o, ev) -> r = 0 <-> o <> None.
  Proof.
    intros S H. destruct p as [e|[e|st] kernel].
    - unfold file_load, file_open in H. cbn [sane] in S. destruct e; try lia; injection H as <- <- <-; split; [discriminate|congruence].
    - unfold file_load, file_open in H. cbn [sane] in S. destruct e; try lia; injection H as <- <- <-; split; [discriminate|congruence].
    - destruct (st_isreg st) eqn:RG.
      + destruct (load_spec st kernel RG) as [(m&Q&L)|(K&r'&_&Q&X)]; rewrite Q in H; injection H as <- <- <-.
        * split; [intros _ Z; discriminate Z|auto].
        * split; [|congruence]. destruct X as [[_ ->]|[_ ->]]; [discriminate|congruence].
      + unfold file_load, file_open in H. rewrite RG in H. injection H as <- <- <-. split; [discriminate|congruence].
  Qed.

  (** If the bytes that fstat() saw don't change (though more may be appended), they are what's loaded, or
      nothing if a read() fails. *)
  Theorem C100_load_still f st kernel c : reads_from f kernel -> st_isreg st = true -> length c = st_size st ->
    (forall k, firstn (st_size st) (f k) = c) ->
    (forall r b ev, file_load ferror (Opened (inr st) kernel) = (r, Some b, ev) -> b = c) /\
    (no_errors kernel -> exists ev, file_load ferror (Opened (inr st) kernel) = (0, Some c, ev)).
  Proof.
    intros R RG L S.
    assert (X : forall m, (st_size st <= length (got kernel m))%nat -> firstn (st_size st) (got kernel m) = c).
    { intros m M. rewrite (got_prefix kernel f c (st_size st) m R S L), firstn_length, Nat.min_l by lia. rewrite <- L. apply firstn_all. }
    destruct (load_spec st kernel RG) as [(m&Q&M)|(K&r'&M&Q&V)]; rewrite Q.
    - split; [intros r b ev H; injection H as <- <- <-; auto|]. intros _. rewrite (X m M). eauto.
    - split; [discriminate|]. intros NE. destruct V as [[[_ E] _]|[[_ [e E]] _]].
      + exfalso. pose proof (R K) as RK. rewrite E in RK. destruct RK as [_ RK]. specialize (RK eq_refl).
        rewrite <- (got_length kernel K) in RK. assert (length (firstn (st_size st) (f K)) = st_size st) by (rewrite S; exact L).
        rewrite firstn_length in H. lia.
      + destruct (NE K e E).
  Qed.

  (** If it has less bytes than fstat() said, it's not loaded. *)
  Theorem C100_load_short f st kernel : reads_from f kernel -> (forall k, (length (f k) < st_size st)%nat) ->
    exists r ev, file_load ferror (Opened (inr st) kernel) = (r, None, ev) /\ r <> 0 /\ (no_errors kernel -> r = - c_EINVAL).
  Proof.
    intros R S. destruct (st_isreg st) eqn:RG.
    - destruct (load_spec st kernel RG) as [(m&Q&M)|(K&r'&M&Q&V)].
      + exfalso. pose proof (got_mixture kernel f m R (length (f O))) as _.
        assert (X : exists x, nth_error (got kernel m) (pred (length (got kernel m))) = Some x).
        { pose proof (S O). destruct (nth_error (got kernel m) (pred (length (got kernel m)))) eqn:E; [eauto|]. apply nth_error_None in E. lia. }
        destruct X as (x&X). destruct (got_mixture kernel f m R _ _ X) as (k&N). specialize (S k).
        assert (pred (length (got kernel m)) < length (f k))%nat by (apply nth_error_Some; congruence). lia.
      + exists r', [Fopen; Malloc; Free; Fclose]. split; [exact Q|]. destruct V as [[_ ->]|[[_ [e E]] ->]].
        * split; [discriminate|auto].
        * split; [exact fe|]. intros NE. destruct (NE K e E).
    - exists (- c_EINVAL), [Fopen; Fclose]. unfold file_load, file_open. rewrite RG. split; [reflexivity|]. split; [discriminate|auto].
  Qed.
End Load.

Section Hash.
  Variable sha256 : list Z -> list Z.
  Variable ferror : Z.
  Hypothesis fe : ferror <> 0.
  Notation hash := (hash_local_file sha256 ferror).

  (** The function returns [r] and, if so, the digest. *)
  Definition hashes (e : evp) (p : path_state) (r : Z) (o : option (list Z)) : Prop := exists fuel ev, hash e fuel p = Some (r, o, ev).

  Lemma hash_opened e fuel st kernel r o ev : hash e fuel (Opened (inr st) kernel) = Some (r, o, ev) ->
    (o = None /\ r = - c_EINVAL) \/ (o = None /\ r = ferror /\ exists K, fails kernel K) \/
    (r = 0 /\ st_isreg st = true /\ all_work {| known := known e; init_works := init_works e; update_works := fun _ => true; final_works := final_works e |} /\
     exists K, ends kernel K /\ o = Some (sha256 (got kernel K))).
  Proof.
    unfold hash_local_file, file_open. intros H. destruct (known e) eqn:KN; cbn [negb] in H; [|injection H as <- <- <-; auto].
    destruct (st_isreg st) eqn:RG; cbn [negb] in H; [|injection H as <- <- <-; auto].
    destruct (init_works e) eqn:IW; cbn [negb] in H; [|injection H as <- <- <-; auto].
    destruct (hash_loop ferror e (st_blksize st) kernel fuel 0 [] fresh) as [[r' ctx]|] eqn:HL; [|discriminate H].
    destruct (hash_sound ferror e (st_blksize st) kernel fe fuel 0 [] fresh _ eq_refl eq_refl eq_refl ltac:(intros k K; inversion K) HL)
      as [(K&EN&Q)|[(K&c&FA&Q)|(t&c&U&Q)]]; injection Q as -> ->.
    - destruct (final_works e) eqn:FW; injection H as <- <- <-; [|auto]. right; right. split; [reflexivity|]. split; [reflexivity|].
      split; [repeat split; auto|]. eauto.
    - right; left. destruct ferror; [congruence| |]; injection H as <- <- <-; eauto.
    - left. injection H as <- <- <-. auto.
  Qed.

  (** A digest is of everything that the read()s gave, from the first to the one that found the end,
      whatever the size of the blocks; each of those bytes was in the file, there. *)
  Theorem C100_hash_sound f e st kernel r o : reads_from f kernel -> hashes e (Opened (inr st) kernel) r o -> (r = 0 <-> o <> None) /\
    forall h, o = Some h -> exists c K, h = sha256 c /\ mixture f c /\ kernel K = inr [] /\ length c = position kernel K /\
      (length (f K) <= length c)%nat.
  Proof.
    intros R (fuel&ev&H). destruct (hash_opened _ _ _ _ _ _ _ H) as [(->&->)|[(->&->&_)|(->&_&_&K&[A EN]&->)]].
    - split; [split; [discriminate|congruence]|discriminate].
    - split; [split; congruence|discriminate].
    - split; [split; [discriminate|auto]|]. intros h Q. injection Q as <-. exists (got kernel K), K.
      split; [reflexivity|]. split; [apply got_mixture; exact R|]. split; [exact EN|]. split; [apply got_length|].
      pose proof (R K) as RK. rewrite EN in RK. destruct RK as [_ RK]. rewrite got_length. auto.
  Qed.

  Lemma hash_complete e st kernel K : all_work e -> st_isreg st = true -> (0 < st_blksize st)%nat -> ends kernel K ->
    hashes e (Opened (inr st) kernel) 0 (Some (sha256 (got kernel K))).
  Proof.
    intros (KN&IW&U&FW) RG B EN.
    destruct (hash_returns ferror e (st_blksize st) kernel fe K B U (or_introl EN) (S (length (got kernel K))) 0 [] fresh
      ltac:(cbn [length]; lia) ltac:(cbn [length]; lia) eq_refl eq_refl eq_refl ltac:(intros k Q; inversion Q)) as [r H].
    exists (S (length (got kernel K))). unfold hash_local_file, file_open. rewrite KN, RG, IW. cbn [negb]. rewrite H.
    destruct (hash_sound ferror e (st_blksize st) kernel fe _ _ [] fresh _ eq_refl eq_refl eq_refl ltac:(intros k Q; inversion Q) H)
      as [(K'&EN'&->)|[(K'&c&FA&->)|(t&c&UF&->)]].
    - rewrite FW. assert (K' = K) as ->; [|eexists; reflexivity].
      assert (K' <= K)%nat by (eapply not_both; [left; exact EN|apply EN']). assert (K <= K')%nat by (eapply not_both; [left; exact EN'|apply EN]). lia.
    - exfalso. assert (K' <= K)%nat by (eapply not_both; [left; exact EN|apply FA]). assert (K <= K')%nat by (eapply not_both; [right; exact FA|apply EN]).
      assert (K' = K) by lia. subst K'. destruct EN as [_ EN]. destruct FA as [_ [x FA]]. congruence.
    - rewrite U in UF. discriminate UF.
  Qed.

  (** A file that nobody changes has the digest of its content, whatever the size of the blocks and however
      the kernel splits it; and no other. *)
  Theorem C100_hash_still e st kernel c : reads_from (fun _ => c) kernel ->
    (forall r h, hashes e (Opened (inr st) kernel) r (Some h) -> r = 0 /\ h = sha256 c) /\
    (no_errors kernel -> all_work e -> st_isreg st = true -> (0 < st_blksize st)%nat ->
     hashes e (Opened (inr st) kernel) 0 (Some (sha256 c))).
  Proof.
    intros R.
    assert (X : forall K, ends kernel K -> got kernel K = c).
    { intros K [A EN]. pose proof (R K) as RK. rewrite EN in RK. destruct RK as [_ RK]. specialize (RK eq_refl). rewrite <- got_length in RK.
      pose proof (got_prefix kernel (fun _ => c) c (length c) K R (fun _ => firstn_all c) eq_refl) as P.
      assert (LG : (length (got kernel K) <= length c)%nat).
      { destruct (got kernel K) as [|x l] eqn:G; [cbn; lia|]. rewrite <- G in *.
        assert (Y : exists y, nth_error (got kernel K) (pred (length (got kernel K))) = Some y).
        { destruct (nth_error (got kernel K) (pred (length (got kernel K)))) eqn:E; [eauto|]. apply nth_error_None in E. rewrite G in E. cbn [length pred] in E. lia. }
        destruct Y as (y&Y). destruct (got_mixture kernel (fun _ => c) K R _ _ Y) as (k&N).
        assert (pred (length (got kernel K)) < length c)%nat by (apply nth_error_Some; congruence). lia. }
      rewrite firstn_all2 in P by exact LG. rewrite P. apply firstn_all2. exact RK. }
    split.
    - intros r h (fuel&ev&H). destruct (hash_opened _ _ _ _ _ _ _ H) as [(Q&_)|[(Q&_)|(->&_&_&K&EN&Q)]]; try discriminate Q.
      injection Q as ->. rewrite (X K EN). auto.
    - intros NE W RG B.
      assert (EX : exists K, ends kernel K).
      { assert (G : forall n, (exists K, ends kernel K) \/ (forall k, (k < n)%nat -> gets kernel k)).
        { induction n as [|n [E|IH]]; [right; intros k Q; inversion Q|auto|]. destruct (kernel n) as [x|[|x b]] eqn:KN.
          - destruct (NE n x KN).
          - left. exists n. split; assumption.
          - right. intros k Q. destruct (Nat.eq_dec k n) as [->|]; [exists x, b; exact KN|apply IH; lia]. }
        destruct (G (S (length c))) as [E|A]; [exact E|]. exfalso.
        assert (L : forall n, (n <= S (length c))%nat -> (n <= length (got kernel n))%nat).
        { induction n; intros LE; [lia|]. cbn [got]. destruct (A n ltac:(lia)) as (x&b&Q). rewrite Q, app_length. cbn [length]. specialize (IHn ltac:(lia)). lia. }
        specialize (L (S (length c)) (le_n _)).
        assert (Y : exists y, nth_error (got kernel (S (length c))) (length c) = Some y).
        { destruct (nth_error (got kernel (S (length c))) (length c)) eqn:E; [eauto|]. apply nth_error_None in E. lia. }
        destruct Y as (y&Y). destruct (got_mixture kernel (fun _ => c) _ R _ _ Y) as (k&N).
        assert (length c < length c)%nat by (apply nth_error_Some; congruence). lia. }
      destruct EX as (K&EN). rewrite <- (X K EN). apply hash_complete; assumption.
  Qed.

  (** The size of the blocks doesn't matter, whatever happens to the file. *)
  Theorem C100_hash_blocks e size b b' kernel h : all_work e -> (0 < b)%nat -> (0 < b')%nat ->
    hashes e (Opened (inr {| st_isreg := true; st_size := size; st_blksize := b |}) kernel) 0 (Some h) ->
    hashes e (Opened (inr {| st_isreg := true; st_size := size; st_blksize := b' |}) kernel) 0 (Some h).
  Proof.
    intros W B B' (fuel&ev&H). destruct (hash_opened _ _ _ _ _ _ _ H) as [(Q&_)|[(Q&_)|(_&_&_&K&EN&Q)]]; try discriminate Q.
    injection Q as ->. apply hash_complete; auto.
  Qed.

  (** If a file grows as fast as it's read, the function doesn't return. *)
  Theorem C100_hash_endless e st kernel : all_work e -> st_isreg st = true -> (forall k, exists x b, kernel k = inr (x :: b)) ->
    forall r o, ~ hashes e (Opened (inr st) kernel) r o.
  Proof.
    intros (KN&IW&U&FW) RG G r o (fuel&ev&H). unfold hash_local_file, file_open in H. rewrite KN, RG, IW in H. cbn [negb] in H.
    rewrite (hash_endless ferror e (st_blksize st) kernel G U fuel 0%nat [] fresh eq_refl eq_refl eq_refl) in H. discriminate H.
  Qed.

  (** *** The files of a manifest *)
  Definition answer (e : evp) (nf nm : action) (p : path_state) (expected : list Z) (unused r : Z) : Prop :=
    exists fuel, hash_validate_mft_file sha256 ferror e nf nm fuel p expected unused = Some r.

  (** 0: the file has a digest, which is the manifest's unless the user wants those errors tolerated.
      More than 0: there's no file, or no permission, and the user wants those errors tolerated. *)
  Theorem C100_mft_sound e nf nm p expected unused r : sane p -> ferror <> c_ENOENT -> ferror <> c_EACCES ->
    answer e nf nm p expected unused r ->
    (r = 0 -> unused = 0 /\ exists h, hashes e p 0 (Some h) /\ (h = expected \/ nm <> INAC_ERROR)) /\
    (0 < r -> unused = 0 /\ (r = c_ENOENT \/ r = c_EACCES) /\ hashes e p r None /\ nf <> INAC_ERROR).
  Proof.
    intros S F1 F2 (fuel&H). unfold hash_validate_mft_file in H. destruct (unused =? 0) eqn:U; cbn [negb] in H; [|injection H as <-; unfold c_EINVAL; split; lia].
    apply Z.eqb_eq in U. destruct (hash_local_file sha256 ferror e fuel p) as [[[er o] ev]|] eqn:HL; [|discriminate H].
    assert (IV : forall a, incidence a = 0 \/ incidence a = -22) by (intros []; cbn; auto).
    assert (IE : forall a, incidence a = 0 -> a <> INAC_ERROR) by (intros []; cbn; congruence).
    assert (Z0 : er = 0 -> exists h, o = Some h).
    { intros ->. destruct p as [x|[x|st] kernel]; [| |destruct (hash_opened _ _ _ _ _ _ _ HL) as [(?&Q)|[(?&Q&_)|(_&_&_&K&_&->)]]; [discriminate Q|congruence|eauto]].
      - unfold hash_local_file, file_open in HL. destruct (known e); cbn [negb] in HL; [|discriminate HL]. cbn [sane] in S. destruct x; try lia; discriminate HL.
      - unfold hash_local_file, file_open in HL. destruct (known e); cbn [negb] in HL; [|discriminate HL]. cbn [sane] in S. destruct x; try lia; discriminate HL. }
    destruct (Z.eq_dec er 0) as [->|NZ].
    - destruct (Z0 eq_refl) as (h&->). destruct (hash_matches expected h) eqn:M; cbn [negb] in H; injection H as <-.
      + split; [|lia]. intros _. split; [exact U|]. exists h. split; [exists fuel, ev; exact HL|]. left. symmetry. apply matches_iff, M.
      + split; [|destruct (IV nm); lia]. intros I0. split; [exact U|]. exists h. split; [exists fuel, ev; exact HL|]. right. auto.
    - assert (H' : (if (er =? c_EACCES) || (er =? c_ENOENT) then (if negb (incidence nf =? 0) then Some (- c_EINVAL) else Some er) else Some (ensure_negative er)) = Some r)
        by (destruct er; [congruence| |]; exact H). clear H.
      destruct ((er =? c_EACCES) || (er =? c_ENOENT)) eqn:EE.
      + destruct (incidence nf =? 0) eqn:I0; cbn [negb] in H'; injection H' as <-; [|unfold c_EINVAL; split; lia].
        apply Z.eqb_eq in I0. apply orb_true_iff in EE. rewrite !Z.eqb_eq in EE. split; [unfold c_EACCES, c_ENOENT in *; lia|].
        intros _. split; [exact U|]. split; [tauto|]. split; [|auto]. exists fuel, ev. rewrite HL. f_equal. f_equal. f_equal.
        destruct o as [h|]; [|reflexivity]. exfalso.
        destruct p as [x|[x|st] kernel].
        * unfold hash_local_file, file_open in HL. destruct (known e); cbn [negb] in HL; [|discriminate HL]. cbn [sane] in S. destruct x; try lia; discriminate HL.
        * unfold hash_local_file, file_open in HL. destruct (known e); cbn [negb] in HL; [|discriminate HL]. cbn [sane] in S. destruct x; try lia; discriminate HL.
        * destruct (hash_opened _ _ _ _ _ _ _ HL) as [(Q&_)|[(Q&_)|(Q&_)]]; try discriminate Q. congruence.
      + injection H' as <-. unfold ensure_negative. destruct (er <? 0) eqn:LT; [apply Z.ltb_lt in LT|apply Z.ltb_ge in LT]; split; lia.
  Qed.

  (** A file that is there, which nobody changes. *)
  Theorem C100_mft_complete e nf nm st kernel c expected : reads_from (fun _ => c) kernel -> no_errors kernel -> all_work e ->
    st_isreg st = true -> (0 < st_blksize st)%nat ->
    answer e nf nm (Opened (inr st) kernel) expected 0 (if list_eqb Z.eqb (sha256 c) expected then 0 else match nm with INAC_ERROR => -22 | _ => 0 end).
  Proof.
    intros R NE W RG B. destruct (proj2 (C100_hash_still e st kernel c R) NE W RG B) as (fuel&ev&H). exists fuel.
    unfold hash_validate_mft_file. cbn [Z.eqb negb]. rewrite H.
    assert (Q : hash_matches expected (sha256 c) = list_eqb Z.eqb (sha256 c) expected).
    { apply eq_true_iff_eq. rewrite matches_iff, (list_eqb_spec Z.eqb Z.eqb_eq). split; congruence. }
    rewrite Q. destruct (list_eqb Z.eqb (sha256 c) expected); cbn [negb]; [reflexivity|]. destruct nm; reflexivity.
  Qed.
  (** A file that isn't there, or that can't be read. *)
  Theorem C100_mft_missing e nf nm errno expected : known e = true -> errno = c_ENOENT \/ errno = c_EACCES ->
    answer e nf nm (NotOpened errno) expected 0 (match nf with INAC_ERROR => -22 | _ => errno end).
  Proof.
    intros KN [-> | ->]; exists O; unfold hash_validate_mft_file, hash_local_file; rewrite KN; destruct nf; reflexivity.
  Qed.

  (** What's checked is what's loaded, if nobody changes the file and the user wants it checked. *)
  Theorem C100_checked_loaded e nf st kernel st' kernel' c expected unused r b ev : sane (Opened (inr st) kernel) ->
    ferror <> c_ENOENT -> ferror <> c_EACCES ->
    reads_from (fun _ => c) kernel -> reads_from (fun _ => c) kernel' -> st_size st' = length c ->
    answer e nf INAC_ERROR (Opened (inr st) kernel) expected unused 0 ->
    file_load ferror (Opened (inr st') kernel') = (r, Some b, ev) -> sha256 b = expected.
  Proof.
    intros S F1 F2 R R' SZ A L.
    destruct (C100_mft_sound _ _ _ _ _ _ _ S F1 F2 A) as [H _]. destruct (H eq_refl) as (_&h&HH&[->|N]); [|congruence].
    destruct (proj1 (C100_hash_still e st kernel c R) _ _ HH) as [_ ->]. f_equal.
    destruct (C100_load_sound ferror fe _ _ _ _ _ _ R' L) as (_&RG&LB&_).
    apply (proj1 (C100_load_still ferror fe (fun _ => c) st' kernel' c R' RG (eq_sym SZ) (fun _ => eq_trans (f_equal (fun n => firstn n c) SZ) (firstn_all c))) _ _ _ L).
  Qed.

  (** *** The files of RRDP: 0 exactly if the digest is the expected one. *)
  Theorem C100_file e st kernel expected : (exists fuel, hash_validate_file sha256 ferror e fuel (Opened (inr st) kernel) expected = Some 0) <->
    hashes e (Opened (inr st) kernel) 0 (Some expected).
  Proof.
    split.
    - intros (fuel&H). unfold hash_validate_file in H. destruct (hash_local_file sha256 ferror e fuel (Opened (inr st) kernel)) as [[[er o] ev]|] eqn:HL; [|discriminate H].
      exists fuel, ev. rewrite HL. destruct (hash_opened _ _ _ _ _ _ _ HL) as [(->&->)|[(->&->&_)|(->&_&_&K&_&->)]].
      + discriminate H.
      + destruct ferror; [congruence|discriminate H|discriminate H].
      + destruct (hash_matches expected (sha256 (got kernel K))) eqn:M; [|discriminate H]. apply matches_iff in M. rewrite M. reflexivity.
    - intros (fuel&ev&H). exists fuel. unfold hash_validate_file. rewrite H. rewrite (proj2 (matches_iff expected expected) eq_refl). reflexivity.
  Qed.

  (** *** What's opened is closed and what's allocated is freed, whatever happens; except for the buffer that's
      given to the caller. *)
  Definition count (x : event) (l : list event) : nat := length (filter (fun y => match x, y with Fopen, Fopen | Fclose, Fclose | Malloc, Malloc | Free, Free => true | _, _ => false end) l).
  Theorem C100_release e fuel p r o ev :
    (hash e fuel p = Some (r, o, ev) -> count Fopen ev = count Fclose ev /\ count Malloc ev = count Free ev) /\
    (file_load ferror p = (r, o, ev) -> count Fopen ev = count Fclose ev /\ count Malloc ev = (count Free ev + match o with Some _ => 1 | None => 0 end)%nat).
  Proof.
    split.
    - intros H. unfold hash_local_file in H. destruct (known e); cbn [negb] in H; [|injection H as <- <- <-; auto].
      unfold file_open in H. destruct p as [x|[x|st] kernel].
      + destruct x; injection H as <- <- <-; auto.
      + destruct x; injection H as <- <- <-; auto.
      + destruct (st_isreg st); cbn [negb] in H; [|injection H as <- <- <-; auto].
        destruct (init_works e); cbn [negb] in H; [|injection H as <- <- <-; auto].
        destruct (hash_loop ferror e (st_blksize st) kernel fuel 0 [] fresh) as [[[|?|?] ctx]|]; [destruct (final_works e)| | |discriminate H]; injection H as <- <- <-; auto.
    - intros H. unfold file_load, file_open in H. destruct p as [x|[x|st] kernel].
      + destruct x; injection H as <- <- <-; auto.
      + destruct x; injection H as <- <- <-; auto.
      + destruct (st_isreg st); cbn [negb] in H; [|injection H as <- <- <-; auto].
        destruct (fread kernel (st_size st) fresh) as [b f]. destruct (length b <? st_size st)%nat; [|injection H as <- <- <-; auto].
        destruct (negb ((if in_error f then ferror else 0) =? 0)); injection H as <- <- <-; auto.
  Qed.
End Hash.

(** *** Buffers (the message digest of signed objects, the key identifiers). *)
Theorem C100_buffer digest e expected data : hash_validate digest e expected data = 0 <->
  known e = true /\ init_works e = true /\ update_works e 0 = true /\ final_works e = true /\ expected = digest data.
Proof.
  unfold hash_validate, hash_buffer. destruct (known e); cbn [negb]; [|split; [discriminate|intros (?&_); discriminate]].
  destruct (init_works e); cbn [andb]; [|split; [discriminate|intros (_&?&_); discriminate]].
  destruct (update_works e 0); cbn [andb]; [|split; [discriminate|intros (_&_&?&_); discriminate]].
  destruct (final_works e); [|split; [discriminate|intros (_&_&_&?&_); discriminate]].
  destruct (hash_matches expected (digest data)) eqn:M.
  - apply matches_iff in M. tauto.
  - split; [discriminate|]. intros (_&_&_&_&Q). apply matches_iff in Q. congruence.
Qed.

(** *** C41's assumptions: with files that nobody changes, the model of manifests is given these. *)
Theorem C100_manifest sha256 ferror e nf nm fuel u f p : sane p -> ferror <> 0 -> forall r o ev,
  hash_local_file sha256 ferror e fuel p = Some (r, o, ev) ->
  let hash_file := fun _ : list Z => match r, o with 0, Some h => inr h | _, _ => inl r end in
  (forall q, hash_file q <> inl 0) /\
  hash_validate_mft_file sha256 ferror e nf nm fuel p (f_hash f) (f_unused f) = Some (Manifest.hash_validate_mft_file hash_file nf nm u f).
Proof.
  intros S fe r o ev H hash_file.
  assert (X : r = 0 -> exists h, o = Some h).
  { intros ->. destruct p as [x|[x|st] kernel].
    - unfold hash_local_file, file_open in H. destruct (known e); cbn [negb] in H; [|discriminate H]. cbn [sane] in S. destruct x; try lia; discriminate H.
    - unfold hash_local_file, file_open in H. destruct (known e); cbn [negb] in H; [|discriminate H]. cbn [sane] in S. destruct x; try lia; discriminate H.
    - destruct (hash_opened sha256 ferror fe _ _ _ _ _ _ _ H) as [(?&Q)|[(?&Q&_)|(_&_&_&K&_&->)]]; [discriminate Q|congruence|eauto]. }
  split.
  - intros q Q. unfold hash_file in Q. destruct r; [|injection Q as Q; discriminate Q|injection Q as Q; discriminate Q].
    destruct (X eq_refl) as (h&E). rewrite E in Q. discriminate Q.
  - unfold hash_validate_mft_file, Manifest.hash_validate_mft_file. rewrite H. destruct (f_unused f =? 0); cbn [negb]; [|reflexivity].
    unfold hash_file. destruct r as [|q|q].
    + destruct (X eq_refl) as (h&->).
      assert (Q : hash_matches (f_hash f) h = list_eqb Z.eqb (f_hash f) h).
      { apply eq_true_iff_eq. rewrite matches_iff, (list_eqb_spec Z.eqb Z.eqb_eq). tauto. }
      rewrite Q. destruct (list_eqb Z.eqb (f_hash f) h); reflexivity.
    + unfold ensure_negative. destruct ((Z.pos q =? c_EACCES) || (Z.pos q =? c_ENOENT)); [|reflexivity]. destruct (negb (incidence nf =? 0)); reflexivity.
    + unfold ensure_negative. destruct ((Z.neg q =? c_EACCES) || (Z.neg q =? c_ENOENT)); [|reflexivity]. destruct (negb (incidence nf =? 0)); reflexivity.
Qed.

(** *** Examples and limits *)

(** Five bytes, which the kernel gives in pieces of two. *)
Definition ex_content : list Z := [10; 20; 30; 40; 50].
Definition ex_kernel : answers := fun k => inr (firstn 2 (skipn (2 * k) ex_content)).
Definition ex_stat : stat := {| st_isreg := true; st_size := 5; st_blksize := 3 |}.
Definition ex_evp : evp := {| known := true; init_works := true; update_works := fun _ => true; final_works := true |}.
Definition ex_sum (c : list Z) : list Z := [fold_left Z.add c 0].
Lemma ex_position k : position ex_kernel k = Nat.min (2 * k) 5.
Proof.
  induction k; [reflexivity|]. cbn [position]. rewrite IHk. unfold ex_kernel. rewrite firstn_length, skipn_length.
  change (length ex_content) with 5%nat. lia.
Qed.
Example ex_reads : reads_from (fun _ => ex_content) ex_kernel /\ no_errors ex_kernel /\ all_work ex_evp.
Proof.
  split; [|split; [intros k e; discriminate|repeat split]]. intros k. unfold ex_kernel at 1. rewrite ex_position.
  destruct k as [|[|[|k]]]; [split; [reflexivity|discriminate]|split; [reflexivity|discriminate]|split; [reflexivity|discriminate]|].
  replace (skipn (2 * S (S (S k))) ex_content) with (@nil Z) by (symmetry; apply skipn_all2; change (length ex_content) with 5%nat; lia).
  rewrite firstn_nil. split; [reflexivity|]. intros _. change (length ex_content) with 5%nat. lia.
Qed.
Example ex_load : file_load 1 (Opened (inr ex_stat) ex_kernel) = (0, Some ex_content, [Fopen; Malloc; Fclose]).
Proof. reflexivity. Qed.
Example ex_hash : hash_local_file ex_sum 1 ex_evp 10 (Opened (inr ex_stat) ex_kernel) = Some (0, Some [150], [Fopen; Malloc; Malloc; Free; Free; Fclose]).
Proof. reflexivity. Qed.
Example ex_mft : answer ex_sum 1 ex_evp INAC_ERROR INAC_ERROR (Opened (inr ex_stat) ex_kernel) [150] 0 0 /\
  answer ex_sum 1 ex_evp INAC_ERROR INAC_ERROR (Opened (inr ex_stat) ex_kernel) [151] 0 (-22) /\
  answer ex_sum 1 ex_evp INAC_WARN INAC_ERROR (NotOpened 2) [150] 0 2.
Proof. split; [exists 10%nat; reflexivity|]. split; [exists 10%nat; reflexivity|]. exists O. reflexivity. Qed.

(** A file that's overwritten in place while it's loaded: what's loaded is no version of it. *)
Theorem C100_torn_refuted : exists f kernel st b, reads_from f kernel /\ (forall k, f k = [1; 1] \/ f k = [2; 2]) /\
  file_load 1 (Opened (inr st) kernel) = (0, Some b, [Fopen; Malloc; Fclose]) /\ (forall k, b <> f k).
Proof.
  exists (fun k => match k with O => [1; 1] | _ => [2; 2] end), (fun k => match k with O => inr [1] | 1%nat => inr [2] | _ => inr [] end),
    {| st_isreg := true; st_size := 2; st_blksize := 4096 |}, [1; 2].
  split; [|split; [intros [|k]; auto|split; [reflexivity|intros [|k]; discriminate]]].
  assert (P : forall k, position (fun k => match k with O => inr [1] | 1%nat => inr [2] | _ => inr [] end) (S (S k)) = 2%nat).
  { induction k; [reflexivity|]. cbn [position] in *. rewrite IHk. reflexivity. }
  intros [|[|k]]; [split; [reflexivity|discriminate]|split; [reflexivity|discriminate]|]. rewrite P. split; [reflexivity|]. intros _. cbn. lia.
Qed.

(** A file that's replaced after its hash was checked: what's loaded hasn't the manifest's hash. *)
Theorem C100_checked_refuted : exists old new kernel kernel' st, reads_from (fun _ => old) kernel /\ reads_from (fun _ => new) kernel' /\
  answer ex_sum 1 ex_evp INAC_ERROR INAC_ERROR (Opened (inr st) kernel) (ex_sum old) 0 0 /\
  file_load 1 (Opened (inr st) kernel') = (0, Some new, [Fopen; Malloc; Fclose]) /\ ex_sum new <> ex_sum old.
Proof.
  exists [7], [8], (fun k => match k with O => inr [7] | _ => inr [] end), (fun k => match k with O => inr [8] | _ => inr [] end),
    {| st_isreg := true; st_size := 1; st_blksize := 4096 |}.
  assert (P : forall v k, position (fun k => match k with O => inr [v] | _ => inr [] end) (S k) = 1%nat).
  { intros v. induction k; [reflexivity|]. cbn [position] in *. rewrite IHk. reflexivity. }
  split; [intros [|k]; [split; [reflexivity|discriminate]|rewrite P; split; [reflexivity|intros _; cbn; lia]]|].
  split; [intros [|k]; [split; [reflexivity|discriminate]|rewrite P; split; [reflexivity|intros _; cbn; lia]]|].
  split; [exists 5%nat; reflexivity|]. split; [reflexivity|discriminate].
Qed.

(** read()'s errno doesn't reach the callers: they get ferror()'s number, whatever it was. *)
Theorem C100_errno_refuted : forall errno ferror, ferror <> 0 ->
  file_load ferror (Opened (inr ex_stat) (fun _ => inl errno)) = (ferror, None, [Fopen; Malloc; Free; Fclose]) /\
  hashes ex_sum ferror ex_evp (Opened (inr ex_stat) (fun _ => inl errno)) ferror None.
Proof.
  intros errno ferror N. apply Z.eqb_neq in N. split; [cbn; rewrite N; reflexivity|]. exists 1%nat. exists [Fopen; Malloc; Malloc; Free; Free; Fclose].
  cbn. rewrite N. cbn [negb]. destruct ferror; [discriminate N|reflexivity|reflexivity].
Qed.

Print Assumptions C100_load_sound.
Print Assumptions C100_load_code.
Print Assumptions C100_load_still.
Print Assumptions C100_load_short.
Print Assumptions C100_hash_sound.
Print Assumptions C100_hash_still.
Print Assumptions C100_hash_blocks.
Print Assumptions C100_hash_endless.
Print Assumptions C100_mft_sound.
Print Assumptions C100_mft_complete.
Print Assumptions C100_mft_missing.
Print Assumptions C100_checked_loaded.
Print Assumptions C100_file.
Print Assumptions C100_release.
Print Assumptions C100_buffer.
Print Assumptions C100_manifest.
Print Assumptions C100_torn_refuted.
Print Assumptions C100_checked_refuted.
Print Assumptions C100_errno_refuted.
