From Coq Require Import ZArith List Bool Lia.
From Verif Require Import Base BaseLemmas CLib NtopSpec Publish PublishSpec.
From Verif Require TextSpec.
Import ListNotations.
Open Scope Z_scope.

(** *** Blanks *)
Lemma blank_isspace c : isspace c = blank c.
Proof.
  unfold isspace, blank. cbn [existsb].
  destruct (Z.eqb_spec c 32); [reflexivity|]. cbn [orb].
  destruct (Z.leb_spec 9 c), (Z.leb_spec c 13), (Z.eqb_spec c 9), (Z.eqb_spec c 10), (Z.eqb_spec c 11), (Z.eqb_spec c 12), (Z.eqb_spec c 13); cbn; try reflexivity; lia.
Qed.
Lemma blank_ascii c : blank c = true -> 0 < c < 128.
Proof. rewrite <- blank_isspace. unfold isspace. lia. Qed.
Lemma printed_app a b : printed (a ++ b) = printed a ++ printed b.
Proof. apply filter_app. Qed.

Lemma printed_cons c s : printed (c :: s) = if blank c then printed s else c :: printed s.
Proof. unfold printed. cbn [filter]. destruct (blank c); reflexivity. Qed.
Opaque printed.

Lemma starts_fun s t : starts_at s t -> forall u, starts_at s u -> u = t.
Proof. induction 1 as [c t B|c t s B H IH]; intros u K; inversion K; subst; try congruence; auto. Qed.
Lemma starts_tail s t : starts_at s t -> exists a, s = a ++ t /\ Forall (fun c => blank c = true) a.
Proof.
  induction 1 as [c t B|c t s B H (a & -> & F)]; [exists []; auto|]. exists (c :: a). split; [reflexivity|constructor; auto].
Qed.
Lemma starts_head s t : starts_at s t -> exists c r, t = c :: r /\ blank c = false.
Proof. induction 1; eauto. Qed.
Lemma printed_blank a : Forall (fun c => blank c = true) a -> printed a = [].
Proof. induction 1 as [|c a B F IH]; [reflexivity|]. rewrite printed_cons, B. exact IH. Qed.
Lemma starts_printed s t : starts_at s t -> printed t = printed s.
Proof. intros H. destruct (starts_tail s t H) as (a & -> & F). rewrite printed_app, (printed_blank a F). reflexivity. Qed.
Lemma starts_dec s : (exists t, starts_at s t) \/ printed s = [].
Proof.
  induction s as [|c s IH]; [right; reflexivity|]. destruct (blank c) eqn:B.
  - destruct IH as [(t & H)|H]; [left; exists t; apply st_skip; auto|right]. rewrite printed_cons, B. exact H.
  - left. exists (c :: s). apply st_here. exact B.
Qed.
Lemma starts_nonempty s t : starts_at s t -> printed s <> [].
Proof. intros H. rewrite <- (starts_printed s t H). destruct (starts_head s t H) as (c & r & -> & B). rewrite printed_cons, B. discriminate. Qed.

Lemma ltrim_spec s : 
  (printed s = [] -> ltrim s = Err EINVAL) /\
  (forall t, starts_at s t -> 0 <= hd 0 t <= 127 -> ltrim s = Ok t) /\
  (forall t, starts_at s t -> ~ 0 <= hd 0 t <= 127 -> ltrim s = UB).
Proof.
  induction s as [|c s (I1 & I2 & I3)]; cbn [ltrim].
  - split; [reflexivity|split; intros t H; inversion H].
  - destruct (blank c) eqn:B.
    + assert (A := blank_ascii c B). unfold is_space. replace ((0 <=? c) && (c <=? 127)) with true by lia. cbn [bind].
      rewrite blank_isspace, B. repeat split.
      * intros P. apply I1. rewrite printed_cons, B in P. exact P.
      * intros t H R. inversion H; subst; [congruence|]. eapply I2; eauto.
      * intros t H R. inversion H; subst; [congruence|]. eapply I3; eauto.
    + repeat split.
      * rewrite printed_cons, B. discriminate.
      * intros t H R. inversion H; subst; [|congruence]. cbn [hd] in R. unfold is_space. replace ((0 <=? c) && (c <=? 127)) with true by lia.
        cbn [bind]. rewrite blank_isspace, B. reflexivity.
      * intros t H R. inversion H; subst; [|congruence]. cbn [hd] in R. unfold is_space.
        replace ((0 <=? c) && (c <=? 127)) with false by lia. reflexivity.
Qed.

(** *** Blocks *)
Lemma put_at done (rest : block) src : (length src <= length rest)%nat ->
  put (map Some done ++ rest) (length done) src = Ok (map Some (done ++ src) ++ skipn (length src) rest).
Proof.
  intros L. unfold put. rewrite app_length, map_length.
  replace (Nat.leb (length done + length src) (length done + length rest)) with true by (symmetry; apply Nat.leb_le; lia).
  rewrite firstn_app, map_length, Nat.sub_diag. cbn [firstn]. rewrite app_nil_r, (firstn_all2 (map Some done)) by (rewrite map_length; lia).
  rewrite skipn_app, (skipn_all2 (map Some done)), map_length by (rewrite map_length; lia).
  replace (length done + length src - length done)%nat with (length src) by lia. rewrite map_app, <- app_assoc. reflexivity.
Qed.
Lemma get_ok tmp n : (n <= length tmp)%nat -> get tmp n = Ok (firstn n tmp).
Proof.
  intros L. unfold get. rewrite app_length. replace (Nat.leb n (length tmp + length [0])) with true by (symmetry; apply Nat.leb_le; lia).
  rewrite firstn_app. replace (n - length tmp)%nat with O by lia. cbn [firstn]. rewrite app_nil_r. reflexivity.
Qed.
Lemma c_string_ok s (rest : block) : Forall (fun c => c <> 0) s -> c_string (map Some (s ++ [0]) ++ rest) = Ok s.
Proof.
  induction 1 as [|c s N F IH]; [reflexivity|]. cbn [app map c_string].
  destruct (Z.eqb_spec c 0); [contradiction|]. rewrite IH. reflexivity.
Qed.
Lemma bytes_ok s (rest : block) : bytes (map Some s ++ rest) (length s) = Ok s.
Proof. induction s as [|c s IH]; [reflexivity|]. cbn [map app length bytes]. rewrite IH. reflexivity. Qed.

(** *** Lines *)
Lemma split_nonempty c s : split c s <> [].
Proof. destruct s as [|x s]; cbn; [discriminate|]. destruct (x =? c); [discriminate|]. destruct (split c s); discriminate. Qed.
Lemma split_app_sep c a b : split c (a ++ c :: b) = split c a ++ split c b.
Proof.
  induction a as [|x a IH]; cbn [app split].
  - rewrite Z.eqb_refl. reflexivity.
  - destruct (x =? c); [rewrite IH; reflexivity|]. rewrite IH. destruct (split c a) eqn:E; [destruct (split_nonempty c a E)|]. reflexivity.
Qed.
Lemma split_within c a : Forall (fun l => (length l <= length a)%nat) (split c a).
Proof.
  induction a as [|x a IH]; cbn [split].
  - constructor; auto.
  - destruct (x =? c).
    + constructor; [cbn; lia|]. eapply Forall_impl; [|exact IH]. cbn; intros; lia.
    + destruct (split c a) as [|p t]; [constructor; auto; cbn; lia|]. inversion IH; subst. constructor; [cbn; lia|].
      eapply Forall_impl; [|eassumption]. cbn; intros; lia.
Qed.

(** *** The loop *)
Inductive wrapped : list Z -> list Z -> Prop :=
| wr_last t : (length t <= 65)%nat -> wrapped t t
| wr_more p t w : length p = 65%nat -> t <> [] -> wrapped t w -> wrapped (p ++ t) (p ++ 10 :: w).

Lemma wrapped_printed t w : wrapped t w -> printed w = printed t.
Proof.
  induction 1 as [t L|p t w L N H IH]; [reflexivity|]. rewrite !printed_app, printed_cons. cbn. f_equal. exact IH.
Qed.
Lemma wrapped_lines t w : wrapped t w -> lines_within 65 w.
Proof.
  unfold lines_within. induction 1 as [t L|p t w L N H IH].
  - eapply Forall_impl; [|apply split_within]. cbn; intros; lia.
  - rewrite split_app_sep. apply Forall_app. split; [|exact IH]. eapply Forall_impl; [|apply split_within]. cbn; intros; lia.
Qed.
Lemma wrapped_ascii t w : wrapped t w -> ascii t -> ascii w.
Proof.
  unfold ascii. induction 1 as [t L|p t w L N H IH]; intros A; [exact A|]. apply Forall_app in A. destruct A as [A1 A2].
  apply Forall_app. split; [exact A1|]. constructor; [lia|auto].
Qed.

Lemma loop_spec : forall fuel tmp done rest, tmp <> [] -> (length tmp <= fuel)%nat ->
  (length tmp + (length tmp - 1) / 65 <= length rest)%nat ->
  exists w rest', wrapped tmp w /\ length w = (length tmp + (length tmp - 1) / 65)%nat /\ (length w + length rest' = length rest)%nat /\
    sanitize_loop fuel (map Some done ++ rest) (length done) tmp (length tmp) =
    Ok (map Some (done ++ w) ++ rest', (length done + length w)%nat).
Proof.
  induction fuel as [|fuel IH]; intros tmp done rest NE L R.
  { destruct tmp; [congruence|cbn in L; lia]. }
  assert (P : (0 < length tmp)%nat) by (destruct tmp; [congruence|cbn; lia]).
  cbn [sanitize_loop]. replace (Nat.ltb 0 (length tmp)) with true by (symmetry; apply Nat.ltb_lt; exact P). cbv zeta.
  unfold BUF_SIZE. destruct (Nat.ltb_spec 65 (length tmp)) as [BIG|SMALL].
  - assert (Q : ((length tmp - 1) / 65 = S ((length (skipn 65 tmp) - 1) / 65))%nat).
    { rewrite skipn_length. replace (length tmp - 1)%nat with ((length tmp - 65 - 1) + 1 * 65)%nat by lia.
      rewrite Nat.div_add by lia. lia. }
    assert (L1 : length (firstn 65 tmp) = 65%nat) by (rewrite firstn_length; lia).
    assert (L2 : length (skipn 65 tmp) = (length tmp - 65)%nat) by apply skipn_length.
    rewrite get_ok by lia. cbn [bind].
    rewrite put_at by lia. cbn [bind]. rewrite L1.
    destruct (Nat.leb_spec (length tmp - 65) 0); [lia|].
    replace (length done + 65)%nat with (length (done ++ firstn 65 tmp)) by (rewrite app_length; lia).
    rewrite put_at by (rewrite skipn_length; cbn; lia). cbn [bind].
    replace (length (done ++ firstn 65 tmp) + 1)%nat with (length ((done ++ firstn 65 tmp) ++ [10])) by (rewrite app_length; cbn; lia).
    rewrite <- L2. cbn [length].
    destruct (IH (skipn 65 tmp) ((done ++ firstn 65 tmp) ++ [10]) (skipn 1 (skipn 65 rest))) as (w & rest' & W & LW & LR & E).
    { intros K. rewrite K in L2. cbn in L2. lia. }
    { lia. } { rewrite !skipn_length in *. lia. }
    rewrite E. exists (firstn 65 tmp ++ 10 :: w), rest'. split; [|split; [|split]].
    + rewrite <- (firstn_skipn 65 tmp) at 1. constructor; auto. intros K. rewrite K in L2. cbn in L2. lia.
    + rewrite app_length. cbn [length]. lia.
    + rewrite app_length. cbn [length]. rewrite !skipn_length in LR. lia.
    + f_equal. f_equal.
      * rewrite <- !app_assoc. reflexivity.
      * rewrite !app_length. cbn [length]. lia.
  - assert (Q : ((length tmp - 1) / 65 = 0)%nat) by (apply Nat.div_small; lia).
    rewrite get_ok by lia. cbn [bind]. rewrite firstn_all. rewrite put_at by lia. cbn [bind].
    replace (Nat.leb (length tmp - length tmp) 0) with true by (symmetry; apply Nat.leb_le; lia).
    exists tmp, (skipn (length tmp) rest). split; [constructor; lia|]. split; [lia|]. split; [rewrite skipn_length; lia|reflexivity].
Qed.

Lemma wrapped_nz t w : wrapped t w -> Forall (fun c => c <> 0) t -> Forall (fun c => c <> 0) w.
Proof.
  induction 1 as [t L|p t w L N H IH]; intros A; [exact A|]. apply Forall_app in A. destruct A as [A1 A2].
  apply Forall_app. split; [exact A1|]. constructor; [lia|auto].
Qed.

Lemma sanitize_spec s : Forall (fun c => c <> 0) s ->
  (printed s = [] -> base64_sanitize s = Err EINVAL) /\
  (forall t, starts_at s t -> ~ 0 <= hd 0 t <= 127 -> base64_sanitize s = UB) /\
  (forall t, starts_at s t -> 0 <= hd 0 t <= 127 ->
     ((length t <= 65)%nat -> base64_sanitize s = Ok s) /\
     ((65 < length t)%nat -> exists w, wrapped t w /\ base64_sanitize s = Ok w)).
Proof.
  intros NZ. destruct (ltrim_spec s) as (H1 & H2 & H3). unfold base64_sanitize. repeat split.
  - intros P. rewrite (H1 P). reflexivity.
  - intros t S R. rewrite (H3 t S R). reflexivity.
  - intros L. rewrite (H2 t H H0). cbn [bind]. unfold BUF_SIZE. cbv zeta.
    replace (Nat.leb (length t) 65) with true by (symmetry; apply Nat.leb_le; lia). reflexivity.
  - intros L. rewrite (H2 t H H0). cbn [bind]. unfold BUF_SIZE. cbv zeta.
    replace (Nat.leb (length t) 65) with false by (symmetry; apply Nat.leb_gt; lia).
    set (N := (length t + length t / 65)%nat).
    destruct (loop_spec (length t) t [] (pmalloc (N + 1))) as (w & rest' & W & LW & LR & E).
    { intros K. subst t. cbn in L. lia. } { lia. }
    { unfold pmalloc. rewrite repeat_length. subst N.
      assert ((length t - 1) / 65 <= length t / 65)%nat by (apply Nat.div_le_mono; lia). lia. }
    cbn [map app length] in E. rewrite E. cbn [bind].
    assert (LE : (length w <= N)%nat).
    { subst N. rewrite LW. assert ((length t - 1) / 65 <= length t / 65)%nat by (apply Nat.div_le_mono; lia). lia. }
    rewrite Nat.add_0_l. destruct (Nat.eqb_spec (length w) (N + 1)) as [K|_]; [lia|].
    unfold pmalloc in LR. rewrite repeat_length in LR.
    assert (PR : exists r1, prealloc (map Some w ++ rest') (length w + 1) = map Some w ++ r1 /\ (1 <= length r1)%nat).
    { unfold prealloc. rewrite app_length, map_length. rewrite firstn_app, map_length, firstn_all2 by (rewrite map_length; lia).
      replace (length w + 1 - length w)%nat with 1%nat by lia. rewrite <- app_assoc. eexists. split; [reflexivity|].
      rewrite app_length, firstn_length, repeat_length. lia. }
    destruct PR as (r1 & -> & LR1). rewrite put_at by (cbn; lia). cbn [bind]. rewrite c_string_ok.
    + eauto.
    + eapply wrapped_nz; [exact W|]. destruct (starts_tail s t H) as (a & -> & _). apply Forall_app in NZ. apply NZ.
Qed.

(** *** The decoder *)
Lemma decode_spec : forall fuel k b left done rest out_len,
  (length left < fuel)%nat -> out_len = (length done + length rest)%nat -> (length left <= length rest)%nat ->
  exists rest', decode_loop fuel k b left (map Some done ++ rest) (length done) out_len =
    Ok (map Some (done ++ left) ++ rest', (length done + length left)%nat).
Proof.
  induction fuel as [|fuel IH]; intros k b left done rest out_len L -> R; [lia|]. cbn [decode_loop].
  replace (length done + length rest - length done)%nat with (length rest) by lia.
  set (n := Nat.min (Nat.min (length rest) (length left)) (Nat.max 1 (bio_chunk b k))).
  destruct (Nat.eqb_spec n 0) as [Z|NZ].
  - assert (length left = 0%nat) by lia. destruct left; [|cbn in *; lia]. rewrite app_nil_r. cbn [length]. rewrite Nat.add_0_r. eauto.
  - assert (LF : length (firstn n left) = n) by (rewrite firstn_length; lia).
    rewrite put_at by lia. cbn [bind]. rewrite LF.
    replace (length done + n)%nat with (length (done ++ firstn n left)) by (rewrite app_length; lia).
    destruct (IH (S k) b (skipn n left) (done ++ firstn n left) (skipn n rest) (length done + length rest)%nat) as (r' & E).
    { rewrite skipn_length. lia. } { rewrite app_length, LF, skipn_length. lia. } { rewrite !skipn_length. lia. }
    rewrite E. exists r'. rewrite <- app_assoc, firstn_skipn. f_equal. f_equal. rewrite app_length, LF, skipn_length. lia.
Qed.
(** Whatever there is to read, the block is never overrun. *)
Lemma decode_any : forall fuel k b left done rest out_len,
  (length left < fuel)%nat -> out_len = (length done + length rest)%nat ->
  exists rest', decode_loop fuel k b left (map Some done ++ rest) (length done) out_len =
    Ok (map Some (done ++ firstn (length rest) left) ++ rest', (length done + length (firstn (length rest) left))%nat).
Proof.
  induction fuel as [|fuel IH]; intros k b left done rest out_len L ->; [lia|]. cbn [decode_loop].
  replace (length done + length rest - length done)%nat with (length rest) by lia.
  set (n := Nat.min (Nat.min (length rest) (length left)) (Nat.max 1 (bio_chunk b k))).
  destruct (Nat.eqb_spec n 0) as [Z|NZ].
  - assert (E : firstn (length rest) left = []).
    { assert (length left = 0 \/ length rest = 0)%nat as [K|K] by lia; [destruct left; [|cbn in K; lia]; apply firstn_nil|rewrite K; reflexivity]. }
    rewrite E, app_nil_r. cbn [length]. rewrite Nat.add_0_r. eauto.
  - assert (LF : length (firstn n left) = n) by (rewrite firstn_length; lia).
    rewrite put_at by lia. cbn [bind]. rewrite LF.
    replace (length done + n)%nat with (length (done ++ firstn n left)) by (rewrite app_length; lia).
    destruct (IH (S k) b (skipn n left) (done ++ firstn n left) (skipn n rest) (length done + length rest)%nat) as (r' & E).
    { rewrite skipn_length. lia. } { rewrite app_length, LF, skipn_length. lia. }
    rewrite E. exists r'. rewrite skipn_length.
    assert (F : firstn n left ++ firstn (length rest - n) (skipn n left) = firstn (length rest) left).
    { rewrite <- (firstn_skipn n left) at 3. rewrite firstn_app, LF. rewrite (firstn_all2 (firstn n left)) by lia. reflexivity. }
    rewrite <- app_assoc, F. f_equal. f_equal. rewrite app_length, LF, <- F, app_length, LF. lia.
Qed.

Lemma read_any L s w : base64_sanitize s = Ok w ->
  base64_read L s =
    if (cr_mem L && cr_push L && negb (bio_error (cr_decode L w)))%bool
    then Ok (firstn (EVP_DECODE_LENGTH (length s)) (bio_data (cr_decode L w))) else Err EINVAL.
Proof.
  intros E. unfold base64_read. rewrite E. cbn [bind]. destruct (cr_mem L); [|reflexivity]. cbn [negb andb].
  unfold base64_decode. destruct (cr_push L); [|reflexivity]. cbn [negb andb].
  destruct (decode_any (S (length (bio_data (cr_decode L w)))) 0 (cr_decode L w) (bio_data (cr_decode L w)) []
              (pmalloc (EVP_DECODE_LENGTH (length s))) (EVP_DECODE_LENGTH (length s))) as (r & D).
  { lia. } { unfold pmalloc. rewrite repeat_length. reflexivity. }
  cbn [map app length] in D. rewrite D. cbn [bind].
  unfold pmalloc. rewrite repeat_length. destruct (bio_error (cr_decode L w)); cbn [bind negb]; [reflexivity|].
  apply bytes_ok.
Qed.

Lemma encoding_length c : length (encoding c) = ((length c + 2) / 3 * 4)%nat.
Proof.
  enough (H : forall n c, (length c <= n)%nat -> length (encoding c) = ((length c + 2) / 3 * 4)%nat) by (apply (H (length c)); lia).
  unfold encoding, TextSpec.base64. intros n. induction n as [|n IH]; intros [|a [|b [|d r]]] L; try reflexivity; try (cbn in L; lia).
  cbn [TextSpec.rfc4648 app length]. rewrite IH by (cbn in L; lia).
  replace (S (S (S (length r))) + 2)%nat with (length r + 2 + 1 * 3)%nat by lia. rewrite Nat.div_add by lia. lia.
Qed.
Lemma printed_length s : (length (printed s) <= length s)%nat.
Proof. induction s as [|c s IH]; [reflexivity|]. rewrite printed_cons. destruct (blank c); cbn [length]; lia. Qed.
Lemma room c s : printed s = encoding c -> (length c <= EVP_DECODE_LENGTH (length s))%nat.
Proof.
  intros E. assert (P := printed_length s). rewrite E, encoding_length in P. unfold EVP_DECODE_LENGTH.
  pose proof (Nat.div_mod (length c + 2) 3 ltac:(lia)). pose proof (Nat.mod_upper_bound (length c + 2) 3 ltac:(lia)).
  pose proof (Nat.div_mod (length s + 3) 4 ltac:(lia)). pose proof (Nat.mod_upper_bound (length s + 3) 4 ltac:(lia)). lia.
Qed.
