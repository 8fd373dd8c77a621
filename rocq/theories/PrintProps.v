(** C97: printing an object. *)
From Coq Require Import ZArith List Bool Lia.
From Verif Require Import Base BaseLemmas Ber BerSpec BerProofs BerProps Print PrintSpec.
Import ListNotations.
Open Scope Z_scope.

(** ** The header *)
Lemma skipn_skipn {A} n : forall m (l : list A), skipn n (skipn m l) = skipn (n + m) l.
Proof.
  intros m. induction m as [|m IH]; intros l; [rewrite Nat.add_0_r; reflexivity|]. rewrite Nat.add_succ_r.
  destruct l; [rewrite skipn_nil; reflexivity|]. cbn [skipn]. apply IH.
Qed.
Lemma skip_seq_ok buf cur L r : length buf = 32%nat -> bytes buf -> skipn cur buf = L ++ r -> len_octets L -> (cur <= 32)%nat ->
  skip_sequence buf cur = Ok (Some (cur + length L)%nat) /\ (cur + length L <= 32)%nat /\ skipn (cur + length L) buf = r.
Proof.
  intros LB B E (v & A & F) C. assert (LS : length (L ++ r) = (32 - cur)%nat) by (rewrite <- E, skipn_length; lia).
  assert (LE : (cur + length L <= 32)%nat) by (rewrite app_length in LS; lia).
  unfold skip_sequence, HDRSIZE. rewrite E.
  destruct (C59_length_complete true L v r (32 - cur) A) as (H & _).
  { apply bytes_skipn with (n := (cur + length L)%nat) in B. replace r with (skipn (cur + length L) buf); [exact B|].
    rewrite Nat.add_comm, <- skipn_skipn, E. apply skipn_app_exact. }
  { rewrite LS, app_length in *. lia. }
  rewrite (H F). cbn [bind]. replace (Nat.leb (cur + length L) 32) with true by (symmetry; apply Nat.leb_le; lia).
  split; [reflexivity|]. split; [lia|]. rewrite Nat.add_comm, <- skipn_skipn, E. apply skipn_app_exact.
Qed.
Lemma skip_seq_inv buf cur : length buf = 32%nat -> bytes buf -> (cur <= 32)%nat ->
  (skip_sequence buf cur = Ok None) \/
  (exists L r, skipn cur buf = L ++ r /\ len_octets L /\ skip_sequence buf cur = Ok (Some (cur + length L)%nat)).
Proof.
  intros LB B C. destruct (C59_length true (skipn cur buf) (32 - cur)) as [(n & v & H & N & A & F)|[(H & _)|(H & _)]].
  - apply bytes_skipn, B.
  - rewrite skipn_length. lia.
  - right. exists (firstn n (skipn cur buf)), (skipn n (skipn cur buf)). rewrite firstn_skipn. split; [reflexivity|].
    split; [exists v; auto|]. unfold skip_sequence, HDRSIZE. rewrite H. cbn [bind]. rewrite firstn_length, skipn_length.
    replace (Nat.min n (length buf - cur)) with n by lia. replace (Nat.leb (cur + n) 32) with true by (symmetry; apply Nat.leb_le; lia). reflexivity.
  - left. unfold skip_sequence, HDRSIZE. rewrite H. reflexivity.
  - left. unfold skip_sequence, HDRSIZE. rewrite H. reflexivity.
Qed.
Lemma skip_int_ok buf cur X r : length buf = 32%nat -> bytes buf -> skipn cur buf = X ++ r -> len_and_contents X -> (cur <= 32)%nat ->
  skip_integer buf cur = Ok (Some (cur + length X)%nat) /\ skipn (cur + length X) buf = r.
Proof.
  intros LB B E (L & n & V & -> & A & F & LV) C. rewrite <- app_assoc in E.
  assert (LS : length (L ++ V ++ r) = (32 - cur)%nat) by (rewrite <- E, skipn_length; lia).
  assert (LE : (cur + length (L ++ V) <= 32)%nat) by (rewrite !app_length in *; lia).
  unfold skip_integer, HDRSIZE. rewrite E.
  assert (BB : bytes (L ++ V ++ r)) by (rewrite <- E; apply bytes_skipn, B).
  destruct (C59_length_complete false L (Some n) (V ++ r) (32 - cur) A) as (H & _).
  { apply bytes_skipn with (n := length L) in BB. rewrite skipn_app_exact in BB. exact BB. }
  { rewrite LS, app_length in *. lia. }
  rewrite (H F). cbn [bind stored]. rewrite app_length in LE |- *.
  replace (Z.of_nat cur + Z.of_nat (length L) + n <=? Z.of_nat 32) with true by (symmetry; apply Z.leb_le; lia).
  split; [f_equal; f_equal; lia|]. rewrite Nat.add_comm, <- skipn_skipn, E, app_assoc, <- app_length. apply skipn_app_exact.
Qed.
Lemma stored_false L v : accepted_length false L v -> exists n, v = Some n /\ 0 <= n.
Proof.
  intros [H|(_ & _ & ->)]; [|exists 0; split; [reflexivity|lia]]. inversion H; subst; [eexists; split; [reflexivity|lia]| |discriminate].
  eexists. split; [reflexivity|]. unfold be256. apply fold256_mono; [assumption|lia].
Qed.
Lemma skip_int_inv buf cur : length buf = 32%nat -> bytes buf -> (cur <= 32)%nat ->
  (skip_integer buf cur = Ok None) \/
  (exists X r, skipn cur buf = X ++ r /\ len_and_contents X /\ skip_integer buf cur = Ok (Some (cur + length X)%nat)).
Proof.
  intros LB B C. destruct (C59_length false (skipn cur buf) (32 - cur)) as [(n & v & H & N & A & F)|[(H & _)|(H & _)]].
  - apply bytes_skipn, B.
  - rewrite skipn_length. lia.
  - destruct (stored_false _ _ A) as (m & -> & M). cbn [stored] in H. unfold skip_integer, HDRSIZE. rewrite H. cbn [bind].
    destruct (Z.leb_spec (Z.of_nat cur + Z.of_nat n + m) (Z.of_nat 32)) as [LE|]; [right|left; reflexivity].
    set (k := (n + Z.to_nat m)%nat). exists (firstn k (skipn cur buf)), (skipn k (skipn cur buf)). rewrite firstn_skipn. split; [reflexivity|].
    assert (LK : length (firstn k (skipn cur buf)) = k) by (rewrite firstn_length, skipn_length; lia). rewrite LK. split; [|f_equal; f_equal; lia].
    exists (firstn n (skipn cur buf)), m, (firstn (Z.to_nat m) (skipn n (skipn cur buf))). split; [|split; [exact A|split; [exact F|]]].
    + rewrite <- (firstn_skipn n (firstn k (skipn cur buf))). rewrite firstn_firstn. replace (Nat.min n k) with n by lia. f_equal.
      rewrite skipn_firstn_comm. f_equal. lia.
    + rewrite firstn_length, !skipn_length. lia.
  - left. unfold skip_integer, HDRSIZE. rewrite H. reflexivity.
  - left. unfold skip_integer, HDRSIZE. rewrite H. reflexivity.
Qed.
Lemma byte_here buf p b r : skipn p buf = b :: r -> byte_at buf p = Ok b.
Proof.
  intros E. unfold byte_at. replace (nth_error buf p) with (nth_error (skipn p buf) 0); [rewrite E; reflexivity|].
  rewrite <- (firstn_skipn p buf) at 2. rewrite nth_error_app2; rewrite firstn_length.
  - assert ((p <= length buf)%nat) by (destruct (Nat.le_gt_cases p (length buf)); [assumption|rewrite skipn_all2 in E by lia; discriminate]).
    f_equal. lia.
  - lia.
Qed.
Lemma next_skip {A} p (b : A) buf r : skipn p buf = b :: r -> skipn (p + 1) buf = r.
Proof. intros E. rewrite Nat.add_comm, <- skipn_skipn, E. reflexivity. Qed.

(** ** What the header is taken for.  [buf] is the 32 octets: those of the file, and if it has less,
    whatever there was in memory. *)
Theorem C97_guess_complete : forall buf t, length buf = 32%nat -> bytes buf -> begins buf t -> guess_header buf = Ok t.
Proof.
  intros buf t LB B H. unfold guess_header. destruct H as [L r HL|L1 L2 tg X r H1 H2 H3|L1 L2 tg X r H1 H2 H3].
  - cbn [byte_at nth_error bind Z.eqb Pos.eqb negb].
    destruct (skip_seq_ok (48 :: L ++ 6 :: r) 1 L (6 :: r) LB B eq_refl HL ltac:(lia)) as (-> & _ & E). cbn [bind].
    rewrite (byte_here _ _ _ _ E). reflexivity.
  - set (buf := 48 :: L1 ++ 48 :: L2 ++ tg :: X ++ 2 :: r) in *.
    change (byte_at buf 0) with (@Ok Z 48). cbn [bind Z.eqb Pos.eqb negb].
    destruct (skip_seq_ok buf 1 L1 (48 :: L2 ++ tg :: X ++ 2 :: r) LB B eq_refl H1 ltac:(lia)) as (-> & C1 & E1). cbn [bind].
    rewrite (byte_here _ _ _ _ E1). cbn [bind Z.eqb Pos.eqb negb]. apply next_skip in E1.
    assert (D : forall p (y : list Z) x, skipn p buf = y ++ x -> (1 <= length y)%nat -> (p + length y <= 32)%nat).
    { intros p y x E N. apply (f_equal (@length Z)) in E. rewrite skipn_length, app_length, LB in E. lia. }
    assert (C2 : (1 + length L1 + 1 <= 32)%nat). { pose proof (D _ (L2 ++ [tg]) (X ++ 2 :: r) ltac:(rewrite <- app_assoc; exact E1)) as K. rewrite app_length in K. cbn [length] in K. lia. }
    destruct (skip_seq_ok buf _ L2 (tg :: X ++ 2 :: r) LB B E1 H2 C2) as (-> & C3 & E2). cbn [bind]. apply next_skip in E2.
    assert (C4 : (1 + length L1 + 1 + length L2 + 1 <= 32)%nat). { pose proof (D _ (X ++ [2]) r ltac:(rewrite <- app_assoc; exact E2)) as K. rewrite app_length in K. cbn [length] in K. lia. }
    destruct (skip_int_ok buf _ X (2 :: r) LB B E2 H3 C4) as (-> & E3). cbn [bind]. rewrite (byte_here _ _ _ _ E3). reflexivity.
  - set (buf := 48 :: L1 ++ 48 :: L2 ++ tg :: X ++ 48 :: r) in *.
    change (byte_at buf 0) with (@Ok Z 48). cbn [bind Z.eqb Pos.eqb negb].
    destruct (skip_seq_ok buf 1 L1 (48 :: L2 ++ tg :: X ++ 48 :: r) LB B eq_refl H1 ltac:(lia)) as (-> & C1 & E1). cbn [bind].
    rewrite (byte_here _ _ _ _ E1). cbn [bind Z.eqb Pos.eqb negb]. apply next_skip in E1.
    assert (D : forall p (y : list Z) x, skipn p buf = y ++ x -> (1 <= length y)%nat -> (p + length y <= 32)%nat).
    { intros p y x E N. apply (f_equal (@length Z)) in E. rewrite skipn_length, app_length, LB in E. lia. }
    assert (C2 : (1 + length L1 + 1 <= 32)%nat). { pose proof (D _ (L2 ++ [tg]) (X ++ 48 :: r) ltac:(rewrite <- app_assoc; exact E1)) as K. rewrite app_length in K. cbn [length] in K. lia. }
    destruct (skip_seq_ok buf _ L2 (tg :: X ++ 48 :: r) LB B E1 H2 C2) as (-> & C3 & E2). cbn [bind]. apply next_skip in E2.
    assert (C4 : (1 + length L1 + 1 + length L2 + 1 <= 32)%nat). { pose proof (D _ (X ++ [48]) r ltac:(rewrite <- app_assoc; exact E2)) as K. rewrite app_length in K. cbn [length] in K. lia. }
    destruct (skip_int_ok buf _ X (48 :: r) LB B E2 H3 C4) as (-> & E3). cbn [bind]. rewrite (byte_here _ _ _ _ E3). reflexivity.
Qed.
Print Assumptions C97_guess_complete.

Lemma byte_cases buf p : length buf = 32%nat -> (p <= 32)%nat ->
  (exists b r, skipn p buf = b :: r /\ byte_at buf p = Ok b) \/ (p = 32%nat /\ skipn p buf = [] /\ byte_at buf p = UB).
Proof.
  intros LB P. destruct (skipn p buf) as [|b r] eqn:E.
  - right. assert (p = 32)%nat by (apply (f_equal (@length Z)) in E; rewrite skipn_length, LB in E; cbn [length] in E; lia). split; [assumption|]. split; [reflexivity|].
    unfold byte_at. replace (nth_error buf p) with (@None Z); [reflexivity|]. symmetry. apply nth_error_None. lia.
  - left. exists b, r. split; [reflexivity|]. eapply byte_here; eauto.
Qed.
(** Whatever they are, the answer is what they look like; or that they look like nothing known; or an
    octet that's beyond is read, if that's the one that would tell. *)
Theorem C97_guess_sound_partial : forall buf, length buf = 32%nat -> bytes buf ->
  (exists t, t <> FT_UNK /\ guess_header buf = Ok t /\ begins buf t) \/
  (guess_header buf = Ok FT_UNK /\ forall t, ~ begins buf t) \/
  (guess_header buf = UB /\ just_short buf).
Proof.
  intros buf LB B.
  assert (M : (exists t, t <> FT_UNK /\ guess_header buf = Ok t /\ begins buf t) \/ guess_header buf = Ok FT_UNK \/ (guess_header buf = UB /\ just_short buf)).
  { unfold guess_header. destruct buf as [|b0 buf0]; [discriminate|]. set (buf := b0 :: buf0) in *. change (byte_at buf 0) with (@Ok Z b0). cbn [bind].
    destruct (Z.eqb_spec b0 48) as [E0|]; [|right; left; reflexivity]. subst b0. cbn [negb].
    destruct (skip_seq_inv buf 1 LB B ltac:(lia)) as [->|(L1 & r1 & E1 & H1 & ->)]; [right; left; reflexivity|]. cbn [bind].
    assert (EB : buf = 48 :: L1 ++ r1) by (unfold buf; f_equal; exact E1).
    assert (S1 : skipn (1 + length L1) buf = r1) by (rewrite Nat.add_comm, <- skipn_skipn, E1; apply skipn_app_exact).
    assert (C1 : (1 + length L1 <= 32)%nat) by (rewrite <- LB, EB; cbn [length]; rewrite app_length; lia).
    destruct (byte_cases buf (1 + length L1) LB C1) as [(b & r & Er & ->)|(_ & Er & ->)]; cbn [bind]; rewrite S1 in Er; rewrite Er in EB, S1; clear E1 Er r1.
    2: { right; right. split; [reflexivity|]. rewrite EB, app_nil_r. constructor. exact H1. }
    destruct (Z.eqb_spec b 6) as [->|_]; [left; exists FT_ROA; split; [discriminate|split; [reflexivity|rewrite EB; constructor; exact H1]]|].
    destruct (Z.eqb_spec b 48) as [->|_]; [|right; left; reflexivity]. cbn [negb].
    apply next_skip in S1. assert (C2 : (1 + length L1 + 1 <= 32)%nat) by (rewrite <- LB, EB; cbn [length]; rewrite app_length; cbn [length]; lia).
    destruct (skip_seq_inv buf _ LB B C2) as [->|(L2 & r2 & E2 & H2 & ->)]; [right; left; reflexivity|]. cbn [bind].
    rewrite S1 in E2. rewrite E2 in EB, S1. clear E2 r.
    assert (S2 : skipn (1 + length L1 + 1 + length L2) buf = r2) by (rewrite (Nat.add_comm _ (length L2)), <- skipn_skipn, S1; apply skipn_app_exact).
    destruct r2 as [|tg r2].
    { assert (C3 : (1 + length L1 + 1 + length L2 = 32)%nat).
      { rewrite <- LB, EB. cbn [length]. rewrite !app_length. cbn [length]. rewrite app_length. cbn [length]. lia. }
      rewrite C3. unfold skip_integer, HDRSIZE. cbn [Nat.add Nat.sub]. unfold ber_fetch_length. cbn [Nat.eqb bind]. right; left; reflexivity. }
    apply next_skip in S2.
    assert (C3 : (1 + length L1 + 1 + length L2 + 1 <= 32)%nat).
    { rewrite <- LB, EB. cbn [length]. rewrite !app_length. cbn [length]. rewrite app_length. cbn [length]. lia. }
    destruct (skip_int_inv buf _ LB B C3) as [->|(X & r3 & E3 & H3 & ->)]; [right; left; reflexivity|]. cbn [bind].
    rewrite S2 in E3. rewrite E3 in EB, S1, S2. clear E3 r2.
    assert (S3 : skipn (1 + length L1 + 1 + length L2 + 1 + length X) buf = r3) by (rewrite (Nat.add_comm _ (length X)), <- skipn_skipn, S2; apply skipn_app_exact).
    assert (C4 : (1 + length L1 + 1 + length L2 + 1 + length X <= 32)%nat).
    { rewrite <- LB, EB. cbn [length]. rewrite !app_length. cbn [length]. rewrite !app_length. cbn [length]. rewrite app_length. lia. }
    destruct (byte_cases buf _ LB C4) as [(b & r & Er & ->)|(_ & Er & ->)]; cbn [bind]; rewrite S3 in Er; rewrite Er in EB; clear S1 S2 S3 Er r3.
    2: { right; right. split; [reflexivity|]. rewrite EB. rewrite app_nil_r. constructor; assumption. }
    destruct (Z.eqb_spec b 2) as [->|_]; [left; exists FT_CER; split; [discriminate|split; [reflexivity|rewrite EB; constructor; assumption]]|].
    destruct (Z.eqb_spec b 48) as [->|_]; [left; exists FT_CRL; split; [discriminate|split; [reflexivity|rewrite EB; constructor; assumption]]|].
    right; left; reflexivity. }
  destruct M as [M|[M|M]]; auto. right; left. split; [exact M|]. intros t H. pose proof (C97_guess_complete buf t LB B H) as K. rewrite K in M. injection M as ->. inversion H.
Qed.
Print Assumptions C97_guess_sound_partial.

(** ** Certificates, CRLs and signed objects as they are encoded are recognised, whatever their
    lengths and whatever follows. *)
Lemma len_int (V : list Z) : (length V < 128)%nat -> len_and_contents (Z.of_nat (length V) :: V).
Proof.
  intros H. exists [Z.of_nat (length V)], (Z.of_nat (length V)), V. split; [reflexivity|]. split; [left; constructor; lia|]. split; [cbn; lia|reflexivity].
Qed.
(** A certificate: its version is [[0] EXPLICIT INTEGER 2], and an INTEGER (the serial number) follows.
    A CRL: its version is [INTEGER 1], and a SEQUENCE (the algorithm) follows.  A ContentInfo: an OBJECT
    IDENTIFIER. *)
Theorem C97_objects : forall L1 L2 more buf, len_octets L1 -> len_octets L2 -> length buf = 32%nat -> bytes buf ->
  (buf = 48 :: L1 ++ 48 :: L2 ++ [160; 3; 2; 1; 2] ++ 2 :: more -> guess_header buf = Ok FT_CER) /\
  (buf = 48 :: L1 ++ 48 :: L2 ++ [2; 1; 1] ++ 48 :: more -> guess_header buf = Ok FT_CRL) /\
  (buf = 48 :: L1 ++ 6 :: more -> guess_header buf = Ok FT_ROA).
Proof.
  intros L1 L2 more buf H1 H2 LB B. split; [|split]; intros E; apply C97_guess_complete; auto; rewrite E.
  - apply (begins_certificate L1 L2 160 [3; 2; 1; 2] more H1 H2). exact (len_int [2; 1; 2] ltac:(cbn; lia)).
  - apply (begins_crl L1 L2 2 [1; 1] more H1 H2). exact (len_int [1] ltac:(cbn; lia)).
  - constructor. exact H1.
Qed.
Print Assumptions C97_objects.

(** ** The file's octets are read again, all of them and in order, by whatever parses it *)
Section Runs.
  Context {A : Type}.
  Lemma run_ext (r : reader A) : forall c1 f1 c2 f2 rest k, (forall i, (k <= i)%nat -> c1 i = c2 i /\ f1 i = f2 i) ->
    run c1 f1 r (Plain rest k) = run c2 f2 r (Plain rest k).
  Proof.
    induction r as [a|n next IH]; intros c1 f1 c2 f2 rest k H; [reflexivity|]. cbn [run bio_read]. unfold plain_read.
    destruct (H k (le_n k)) as (-> & ->). destruct (f2 k); apply IH; intros i L; apply H; lia.
  Qed.
  (** Once what was read before is used up, the rest. *)
  Lemma run_suffix c f (r : reader A) : forall rest calls k,
    run c f r (Seq None rest calls) = run (fun i => c (calls + (i - k))%nat) (fun i => f (calls + (i - k))%nat) r (Plain rest k).
  Proof.
    induction r as [a|n next IH]; intros rest calls k; [reflexivity|]. cbn [run bio_read]. unfold plain_read.
    replace (calls + (k - k))%nat with calls by lia. destruct (f calls).
    - rewrite (IH _ _ _ (S k)). apply run_ext. intros i L. split; f_equal; lia.
    - rewrite (IH _ _ _ (S k)). apply run_ext. intros i L. split; f_equal; lia.
  Qed.
  Lemma run_seq c f (r : reader A) : forall p rest calls k, p <> [] ->
    exists c' f', (forall i, f' i = true -> exists j, f j = true) /\
      run c f r (Seq (Some p) rest calls) = run c' f' r (Plain (p ++ rest) k).
  Proof.
    induction r as [a|n next IH]; intros p rest calls k NE; [exists c, (fun _ => false); split; [discriminate|reflexivity]|].
    cbn [run bio_read].
    assert (LD : (1 <= length (firstn (S n) p))%nat) by (destruct p; [congruence|cbn; lia]).
    set (d := firstn (S n) p) in *.
    assert (LD2 : length d = Nat.min (S n) (length p)) by apply firstn_length.
    assert (G : exists c' f', (forall i, f' i = true -> exists j, f j = true) /\
      run c f (next (Some d)) (if (Nat.eqb (length (skipn (S n) p)) 0 || Nat.eqb (length d) 0)%bool then Seq None rest calls else Seq (Some (skipn (S n) p)) rest calls) =
      run c' f' (next (Some d)) (Plain (skipn (S n) p ++ rest) (S k))).
    { destruct (Nat.eqb_spec (length (skipn (S n) p)) 0) as [E|E]; cbn [orb].
      - destruct (skipn (S n) p) eqn:ES; [|discriminate]. cbn [app].
        exists (fun i => c (calls + (i - S k))%nat), (fun i => f (calls + (i - S k))%nat). split; [eauto|]. apply run_suffix.
      - replace (Nat.eqb (length d) 0) with false by (symmetry; apply Nat.eqb_neq; lia).
        apply IH. intros K. rewrite K in E. cbn in E. lia. }
    destruct G as (c' & f' & G1 & G2).
    exists (fun i => if Nat.eqb i k then length d else c' i), (fun i => if Nat.eqb i k then false else f' i). split.
    - intros i. cbv beta. destruct (Nat.eqb i k); [discriminate|apply G1].
    - assert (EQ : run c f (Read n next) (Seq (Some p) rest calls) = run c' f' (next (Some d)) (Plain (skipn (S n) p ++ rest) (S k))).
      { rewrite <- G2. cbn [run bio_read]. fold d. destruct (Nat.eqb (length (skipn (S n) p)) 0 || Nat.eqb (length d) 0)%bool; reflexivity. }
      cbn [run bio_read] in EQ. fold d in EQ. rewrite EQ. unfold plain_read. rewrite Nat.eqb_refl.
      replace (Nat.min (Nat.min (S n) (length (p ++ rest))) (Nat.max 1 (length d))) with (length d) by (rewrite app_length; lia).
      assert (F1 : firstn (length d) (p ++ rest) = d).
      { rewrite firstn_app, LD2. replace (Nat.min (S n) (length p) - length p)%nat with O by lia. cbn [firstn]. rewrite app_nil_r.
        unfold d. destruct (Nat.le_gt_cases (S n) (length p)); [rewrite Nat.min_l by lia; reflexivity|]. rewrite Nat.min_r by lia. transitivity p; [apply firstn_all2; lia|symmetry; apply firstn_all2; lia]. }
      assert (F2 : skipn (length d) (p ++ rest) = skipn (S n) p ++ rest).
      { rewrite skipn_app, LD2. replace (Nat.min (S n) (length p) - length p)%nat with O by lia. change (skipn 0 rest) with rest. f_equal.
        destruct (Nat.le_gt_cases (S n) (length p)); [rewrite Nat.min_l by lia; reflexivity|]. rewrite Nat.min_r by lia. transitivity (@nil Z); [apply skipn_all2; lia|symmetry; apply skipn_all2; lia]. }
      rewrite F1, F2. apply run_ext. intros i L. replace (Nat.eqb i k) with false by (symmetry; apply Nat.eqb_neq; lia). auto.
  Qed.
End Runs.

(** A parser, whatever and however it reads, can't tell the BIO it's given from one that starts at the
    beginning of the file (with some schedule of partial reads, and no more failures). *)
Theorem C97_transparent : forall {A} chunk fails (r : reader A) header rest calls, header <> [] ->
  exists chunk' fails', ((forall i, fails i = false) -> forall i, fails' i = false) /\
    run chunk fails r (Seq (Some header) rest calls) = run chunk' fails' r (Plain (header ++ rest) 0).
Proof.
  intros A c f r p rest calls NE. destruct (run_seq c f r p rest calls 0%nat NE) as (c' & f' & H & E). exists c', f'. split; [|exact E].
  intros N i. destruct (f' i) eqn:K; [|reflexivity]. destruct (H i K) as (j & J). rewrite N in J. discriminate.
Qed.
Print Assumptions C97_transparent.

(** ** So what is printed is what the right parser makes of the file: the one that was asked for, or
    the one of what the file looks like; and nothing that looks like nothing is printed. *)
Lemma guess_whole chunk fails stack file : (forall i, fails i = false) -> length stack = 32%nat -> (32 <= length file)%nat -> (32 <= chunk 0%nat)%nat ->
  guess_file_type chunk fails FT_UNK stack true (Plain file 0) =
  bind (guess_header (firstn 32 file)) (fun t => Ok (Some t, Some (Seq (Some (firstn 32 file)) (skipn 32 file) 1))).
Proof.
  intros NF LS L C. unfold guess_file_type. cbn [bio_read]. unfold plain_read, HDRSIZE. rewrite NF.
  replace (Nat.min (Nat.min 32 (length file)) (Nat.max 1 (chunk 0%nat))) with 32%nat by lia.
  assert (L32 : length (firstn 32 file) = 32%nat) by (rewrite firstn_length; lia). cbv zeta.
  assert (E : firstn 32 file ++ skipn (length (firstn 32 file)) stack = firstn 32 file) by (rewrite L32, skipn_all2 by lia; apply app_nil_r).
  revert E L32. generalize (skipn 32 file) as tl. generalize (firstn 32 file) as h. intros [|h0 h] tl E L32; [discriminate|].
  rewrite E. reflexivity.
Qed.
Theorem C97_print : forall {J} chunk fails stack file created (parse : file_type -> reader (option J)),
  (forall i, fails i = false) -> created = true -> length stack = 32%nat -> bytes file -> (32 <= length file)%nat -> (32 <= chunk 0%nat)%nat ->
  (forall t, t <> FT_UNK -> print_file chunk fails t stack (Some file) created parse = Ok (run chunk fails (parse t) (Plain file 0))) /\
  (forall t, begins (firstn 32 file) t -> exists chunk',
     print_file chunk fails FT_UNK stack (Some file) created parse = Ok (run chunk' (fun _ => false) (parse t) (Plain file 0))) /\
  ((forall t, ~ begins (firstn 32 file) t) -> ~ just_short (firstn 32 file) ->
     print_file chunk fails FT_UNK stack (Some file) created parse = Ok None).
Proof.
  intros J c f stack file created parse NF -> LS B L C.
  assert (L32 : length (firstn 32 file) = 32%nat) by (rewrite firstn_length; lia).
  assert (B32 : bytes (firstn 32 file)) by (apply bytes_firstn, B).
  split; [|split].
  - intros t NE. unfold print_file, guess_file_type. destruct t; try reflexivity. congruence.
  - intros t H. unfold print_file. rewrite guess_whole by assumption. rewrite (C97_guess_complete _ t L32 B32 H). cbn [bind].
    destruct (C97_transparent c f (parse t) (firstn 32 file) (skipn 32 file) 1) as (c' & f' & N & E).
    { intros K. rewrite K in L32. discriminate. }
    assert (E2 : run c f (parse t) (Seq (Some (firstn 32 file)) (skipn 32 file) 1) = run c' (fun _ => false) (parse t) (Plain file 0)).
    { rewrite E, firstn_skipn. apply run_ext. intros i _. split; [reflexivity|apply N, NF]. }
    exists c'. rewrite <- E2. destruct t; try reflexivity. inversion H.
  - intros NB NS. unfold print_file. rewrite guess_whole by assumption.
    destruct (C97_guess_sound_partial _ L32 B32) as [(t & _ & _ & K)|[(-> & _)|(_ & K)]]; [destruct (NB _ K)|reflexivity|contradiction].
Qed.
Print Assumptions C97_print.

(** ** Signed objects: if the decoder takes all that it's given, it's as if it had been given the file.
    What is missing: decoders that leave something to be given again, as asn1c's. *)
Theorem C97_object_partial : forall {X} (decode : X -> list Z -> rval X) chunk fails, takes_all decode -> (forall i, fails i = false) ->
  forall file fuel x calls, (length file < fuel)%nat ->
  run chunk fails (bio2ci decode fuel x) (Plain file calls) =
  match file with [] => None | _ => match decode x file with RC_OK y => Some y | _ => None end end.
Proof.
  intros X decode c f T NF file fuel. revert file. induction fuel as [|fuel IH]; intros file x calls L; [lia|].
  cbn [bio2ci run bio_read]. unfold plain_read. rewrite NF.
  set (n := Nat.min (Nat.min (S 4095) (length file)) (Nat.max 1 (c calls))). cbv zeta.
  destruct file as [|b0 file0]; [rewrite firstn_nil; reflexivity|]. set (file := b0 :: file0) in *.
  assert (N : (1 <= n <= length file)%nat) by (unfold n, file; cbn [length]; lia).
  assert (LF : length (firstn n file) = n) by (rewrite firstn_length; lia).
  clearbody n. assert (NE : firstn n file <> []) by (intros K; rewrite K in LF; cbn [length] in LF; lia).
  destruct (firstn n file) as [|d0 d] eqn:EF; [congruence|].
  assert (SP : file = (d0 :: d) ++ skipn n file) by (rewrite <- EF; symmetry; apply firstn_skipn).
  pose proof (T x (d0 :: d) (skipn n file) NE) as K.
  destruct (decode x (d0 :: d)) as [y|y m|] eqn:D.
  - rewrite SP, K. reflexivity.
  - destruct K as [-> K]. rewrite IH by (rewrite skipn_length; lia).
    destruct (skipn n file) as [|r0 r] eqn:ER.
    + rewrite app_nil_r in SP. rewrite SP, D. reflexivity.
    + rewrite SP. specialize (K ltac:(discriminate)).
      destruct (decode x ((d0 :: d) ++ r0 :: r)), (decode y (r0 :: r)); cbn [outcome] in K; try discriminate; try reflexivity. congruence.
  - rewrite SP, K. reflexivity.
Qed.
Print Assumptions C97_object_partial.

(** ** False: that the objects are recognised without looking at octets that aren't theirs. *)
(** A file of 32 octets, all of them read; the one after them is looked at. *)
Theorem C97_overread_refuted : exists file, bytes file /\ length file = 32%nat /\
  forall chunk fails stack (parse : file_type -> reader (option unit)), (forall i, fails i = false) -> length stack = 32%nat -> (32 <= chunk 0%nat)%nat ->
    print_file chunk fails FT_UNK stack (Some file) true parse = UB.
Proof.
  exists (48 :: [30] ++ 48 :: [28] ++ 2 :: 26 :: repeat 7 26). split; [repeat constructor; unfold is_byte; lia|]. split; [reflexivity|].
  intros c f stack parse NF LS C. unfold print_file. rewrite guess_whole by (auto; cbn; lia). reflexivity.
Qed.
Print Assumptions C97_overread_refuted.
(** A shorter file: what it's taken for depends on what there was in memory. *)
Theorem C97_uninitialised_refuted : exists file stack1 stack2, bytes file /\ length stack1 = 32%nat /\ length stack2 = 32%nat /\
  bytes stack1 /\ bytes stack2 /\
  forall (parse : file_type -> reader (option file_type)), (forall t, parse t = Stop (Some t)) ->
    print_file (fun _ => 4096%nat) (fun _ => false) FT_UNK stack1 (Some file) true parse = Ok (Some FT_ROA) /\
    print_file (fun _ => 4096%nat) (fun _ => false) FT_UNK stack2 (Some file) true parse = Ok None.
Proof.
  exists [48; 0], (repeat 6 32), (repeat 0 32). repeat (split; [first [reflexivity | repeat constructor; unfold is_byte; lia]|]).
  intros parse P. split; unfold print_file; cbn; [rewrite P|]; reflexivity.
Qed.
Print Assumptions C97_uninitialised_refuted.
(** ** False: that what the decoder didn't take is given to it again.  This one is of a header of one
    octet and then pairs (as those of tags and lengths) up to a null one; the 32 octets that were read
    first end in the middle of a pair.  The state: whether it's got the header. *)
Fixpoint pairs (s : list Z) (n : nat) : rval bool :=
  match s with
  | a :: b :: s => if (a =? 0) && (b =? 0) then RC_OK true else pairs s (n + 2)
  | _ => RC_WMORE true n
  end.
Definition pair_decoder (got_header : bool) (s : list Z) : rval bool :=
  if got_header then pairs s 0 else match s with a :: s => if a =? 1 then pairs s 1 else RC_FAIL | [] => RC_WMORE false 0 end.
Lemma pairs_outcome s : forall n m, outcome (pairs s n) = outcome (pairs s m).
Proof.
  enough (H : forall k s, (length s <= k)%nat -> forall n m, outcome (pairs s n) = outcome (pairs s m)) by (apply (H (length s)); lia).
  intros k. induction k as [|k IH]; intros [|a [|b l]] L n m; try reflexivity; [cbn in L; lia|]. cbn [pairs].
  destruct ((a =? 0) && (b =? 0)); [reflexivity|]. apply IH. cbn in L. lia.
Qed.
Lemma pairs_restart : forall k s, (length s <= k)%nat -> forall n b,
  match pairs s n with
  | RC_OK y => pairs (s ++ b) n = RC_OK y
  | RC_WMORE y m => y = true /\ (n <= m <= n + length s)%nat /\ outcome (pairs (s ++ b) n) = outcome (pairs (skipn (m - n) s ++ b) 0)
  | RC_FAIL => False
  end.
Proof.
  induction k as [|k IH]; intros [|a [|c l]] L n b; try (cbn in L; lia).
  - split; [reflexivity|]. split; [cbn [length]; lia|]. rewrite Nat.sub_diag. apply pairs_outcome.
  - split; [reflexivity|]. split; [cbn [length]; lia|]. rewrite Nat.sub_diag. apply pairs_outcome.
  - split; [reflexivity|]. split; [cbn [length]; lia|]. rewrite Nat.sub_diag. apply pairs_outcome.
  - cbn [pairs app]. destruct ((a =? 0) && (c =? 0)) eqn:Z; [reflexivity|].
    specialize (IH l ltac:(cbn in L; lia) (n + 2)%nat b). destruct (pairs l (n + 2)) as [y|y m|]; [exact IH| |exact IH].
    destruct IH as (-> & B & E). split; [reflexivity|]. split; [cbn [length]; lia|]. rewrite E.
    replace (m - n)%nat with (S (S (m - (n + 2))))%nat by lia. reflexivity.
Qed.
Lemma pair_restartable : restartable pair_decoder.
Proof.
  intros x a b NE. unfold pair_decoder. destruct x.
  - pose proof (pairs_restart (length a) a (le_n _) 0 b) as H. destruct (pairs a 0) as [y|y m|]; [exact H| |destruct H].
    destruct H as (-> & B & E). rewrite Nat.sub_0_r in E. split; [lia|]. intros _. exact E.
  - destruct a as [|a0 a]; [congruence|]. cbn [app]. destruct (a0 =? 1); [|reflexivity].
    pose proof (pairs_restart (length a) a (le_n _) 1 b) as H. destruct (pairs a 1) as [y|y m|]; [exact H| |destruct H].
    destruct H as (-> & B & E). split; [cbn [length]; lia|]. intros _. rewrite E. replace m with (S (m - 1)) at 2 by lia. reflexivity.
Qed.
Theorem C97_object_refuted : exists (decode : bool -> list Z -> rval bool) file, restartable decode /\ bytes file /\
  decode false file = RC_OK true /\
  forall fuel, run (fun _ => 4096%nat) (fun _ => false) (bio2ci decode fuel false) (Seq (Some (firstn 32 file)) (skipn 32 file) 1) = None.
Proof.
  exists pair_decoder, (1 :: repeat 5 31 ++ [7; 0; 0]). split; [exact pair_restartable|]. split; [repeat constructor; unfold is_byte; lia|]. split; [reflexivity|].
  intros [|[|[|fuel]]]; reflexivity.
Qed.
Print Assumptions C97_object_refuted.

(** A decoder of the first kind: as many octets as the first says. *)
Definition counter (x : option Z) (s : list Z) : rval (option Z) :=
  match x, s with
  | Some n, _ => if n <=? Z.of_nat (length s) then RC_OK (Some 0) else RC_WMORE (Some (n - Z.of_nat (length s))) (length s)
  | None, n :: s => if n <=? Z.of_nat (length s) then RC_OK (Some 0) else RC_WMORE (Some (n - Z.of_nat (length s))) (S (length s))
  | None, [] => RC_WMORE None 0
  end.
Lemma counter_takes_all : takes_all counter.
Proof.
  assert (G : forall n (s b : list Z) m, (n <=? Z.of_nat (length s)) = false ->
    outcome (if n <=? Z.of_nat (length (s ++ b)) then RC_OK (Some 0) else RC_WMORE (Some (n - Z.of_nat (length (s ++ b)))) m) =
    outcome (counter (Some (n - Z.of_nat (length s))) b)).
  { intros n s b m H. unfold counter. rewrite app_length.
    destruct (Z.leb_spec n (Z.of_nat (length s + length b))), (Z.leb_spec (n - Z.of_nat (length s)) (Z.of_nat (length b))); try lia; [reflexivity|].
    cbn [outcome]. f_equal. f_equal. lia. }
  intros x a b NE. destruct x as [n|].
  - cbn [counter]. destruct (n <=? Z.of_nat (length a)) eqn:E.
    + rewrite app_length. replace (n <=? Z.of_nat (length a + length b)) with true by lia. reflexivity.
    + split; [reflexivity|]. intros _. apply G. exact E.
  - destruct a as [|n a]; [congruence|]. cbn [counter app]. destruct (n <=? Z.of_nat (length a)) eqn:E.
    + rewrite app_length. replace (n <=? Z.of_nat (length a + length b)) with true by lia. reflexivity.
    + split; [reflexivity|]. intros _. apply G. exact E.
Qed.

(** A router's certificate would begin so; a CRL; a ROA. *)
Definition C97_cer : list Z := [48; 130; 4; 200; 48; 130; 3; 176; 160; 3; 2; 1; 2; 2; 2; 17; 34] ++ repeat 48 40.
Definition C97_crl : list Z := [48; 129; 240; 48; 129; 200; 2; 1; 1; 48; 13; 6; 9] ++ repeat 42 40.
Definition C97_roa : list Z := [48; 128; 6; 9; 42; 134; 72; 134; 247; 13; 1; 7; 2] ++ repeat 160 40.
Example C97_example :
  takes_all counter /\ guess_header (firstn 32 C97_cer) = Ok FT_CER /\ guess_header (firstn 32 C97_crl) = Ok FT_CRL /\
  guess_header (firstn 32 C97_roa) = Ok FT_ROA /\ begins (firstn 32 C97_cer) FT_CER /\
  run (fun _ => 3%nat) (fun _ => false) (bio2ci counter 100 None) (Seq (Some (firstn 32 C97_crl)) (skipn 32 C97_crl) 1) = Some (Some 0) /\
  guess_header (firstn 32 (repeat 48 40)) = Ok FT_UNK.
Proof.
  split; [exact counter_takes_all|]. split; [reflexivity|]. split; [reflexivity|]. split; [reflexivity|]. split; [|split; reflexivity].
  apply (begins_certificate [130; 4; 200] [130; 3; 176] 160 [3; 2; 1; 2] _).
  - exists (Some 1224). split; [left; apply (long_form true [4; 200]); [repeat constructor; unfold is_byte; lia|cbn; lia]|cbn; lia].
  - exists (Some 944). split; [left; apply (long_form true [3; 176]); [repeat constructor; unfold is_byte; lia|cbn; lia]|cbn; lia].
  - exact (len_int [2; 1; 2] ltac:(cbn; lia)).
Qed.
