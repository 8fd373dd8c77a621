(** Proofs about hash attributes and delta lists (C31, C32). *)
From Coq Require Import String Permutation.
From Verif Require Import Base BaseLemmas CString CLib PathBuilder Rrdp RrdpSpec.
Notation length := List.length.

Lemma hexchar_ok c : hexchar2uint c <= 15 -> hexval c (hexchar2uint c) /\ 0 <= hexchar2uint c.
Proof.
  unfold hexchar2uint, hexval. intros H.
  destruct ((48 <=? c) && (c <=? 57)) eqn:E1; [lia|].
  destruct ((97 <=? c) && (c <=? 102)) eqn:E2; [lia|].
  destruct ((65 <=? c) && (c <=? 70)) eqn:E3; lia.
Qed.
Lemma hexval_char c v : hexval c v -> hexchar2uint c = v /\ 0 <= v <= 15.
Proof.
  unfold hexchar2uint, hexval. intros H.
  destruct ((48 <=? c) && (c <=? 57)) eqn:E1; [lia|].
  destruct ((97 <=? c) && (c <=? 102)) eqn:E2; [lia|].
  destruct ((65 <=? c) && (c <=? 70)) eqn:E3; lia.
Qed.
Lemma nibbles a b : 0 <= a <= 15 -> 0 <= b <= 15 -> Z.lor (Z.shiftl a 4) b = 16 * a + b.
Proof.
  intros A B. rewrite Z.shiftl_mul_pow2 by lia. change (2 ^ 4) with 16.
  assert (a = 0 \/ a = 1 \/ a = 2 \/ a = 3 \/ a = 4 \/ a = 5 \/ a = 6 \/ a = 7 \/ a = 8 \/ a = 9 \/ a = 10 \/ a = 11 \/ a = 12
    \/ a = 13 \/ a = 14 \/ a = 15) as CA by lia.
  assert (b = 0 \/ b = 1 \/ b = 2 \/ b = 3 \/ b = 4 \/ b = 5 \/ b = 6 \/ b = 7 \/ b = 8 \/ b = 9 \/ b = 10 \/ b = 11 \/ b = 12
    \/ b = 13 \/ b = 14 \/ b = 15) as CB by lia.
  clear A B. repeat (destruct CA as [->|CA]; [repeat (destruct CB as [->|CB]; [reflexivity|]); subst; reflexivity|]).
  subst. repeat (destruct CB as [->|CB]; [reflexivity|]); subst; reflexivity.
Qed.

Lemma skipn_cons {A} (l : list A) n x : nth_error l n = Some x -> skipn n l = x :: skipn (S n) l.
Proof. revert l. induction n as [|n IH]; intros [|y l] H; cbn in H; try discriminate; [inversion H; reflexivity|]. cbn [skipn]. rewrite (IH _ H). reflexivity. Qed.

Lemma hex_loop_spec s n i : (length s = 2 * (i + n))%nat ->
  match hex_loop s n i with
  | Ok h => hex_bytes (skipn (2 * i) s) h /\ length h = n
  | Err _ => forall h, ~ hex_bytes (skipn (2 * i) s) h
  | UB => False
  end.
Proof.
  revert i. induction n as [|n IH]; intros i L.
  - cbn [hex_loop]. rewrite skipn_all2 by lia. split; constructor.
  - cbn [hex_loop].
    assert (exists c1, nth_error s (2 * i) = Some c1) as [c1 E1].
    { destruct (nth_error s (2 * i)) eqn:E; eauto. apply nth_error_None in E. lia. }
    assert (exists c2, nth_error s (2 * i + 1) = Some c2) as [c2 E2].
    { destruct (nth_error s (2 * i + 1)) eqn:E; eauto. apply nth_error_None in E. lia. }
    rewrite E1, E2. cbv zeta.
    assert (SK : skipn (2 * i) s = c1 :: c2 :: skipn (2 * S i) s).
    { rewrite (skipn_cons _ _ _ E1). replace (S (2 * i)) with (2 * i + 1)%nat by lia. rewrite (skipn_cons _ _ _ E2).
      replace (S (2 * i + 1)) with (2 * S i)%nat by lia. reflexivity. }
    rewrite SK.
    destruct (15 <? hexchar2uint c1) eqn:T1.
    { intros h H. inversion H; subst. match goal with X : hexval c1 _ |- _ => apply hexval_char in X end. lia. }
    destruct (15 <? hexchar2uint c2) eqn:T2.
    { intros h H. inversion H; subst. match goal with X : hexval c2 _ |- _ => apply hexval_char in X end. lia. }
    specialize (IH (S i)). specialize (IH ltac:(lia)).
    destruct (hex_loop s n (S i)) as [h|e|]; cbn [bind].
    + destruct IH as [IH1 IH2]. destruct (hexchar_ok c1 ltac:(lia)), (hexchar_ok c2 ltac:(lia)). rewrite nibbles by lia.
      split; [constructor; auto|cbn; lia].
    + intros h H. inversion H; subst. eapply IH; eauto.
    + auto.
Qed.

Lemma hex_bytes_length s h : hex_bytes s h -> length s = (2 * length h)%nat.
Proof. induction 1; cbn; lia. Qed.
Lemma hex_bytes_fun s h : hex_bytes s h -> forall h', hex_bytes s h' -> h = h'.
Proof.
  induction 1; intros h' H'; inversion H'; subst; auto.
  repeat match goal with X : hexval _ _ |- _ => apply hexval_char in X end. f_equal; [lia|]. auto.
Qed.
Lemma hexstr_spec s :
  match hexstr2sha256 s with
  | Ok h => hex_bytes s h /\ length h = 32%nat
  | Err e => e = EINVAL /\ forall h, hex_bytes s h -> length h <> 32%nat
  | UB => False
  end.
Proof.
  unfold hexstr2sha256. destruct (Nat.eqb (length s) (2 * 32)) eqn:L; cbn [negb].
  - apply Nat.eqb_eq in L. pose proof (hex_loop_spec s 32 0 ltac:(lia)) as H.
    assert (X : forall n i e, hex_loop s n i = Err e -> e = EINVAL).
    { clear. induction n; cbn [hex_loop]; intros i e; [discriminate|].
      destruct (nth_error s (2 * i)); [|discriminate]. destruct (nth_error s (2 * i + 1)); [|discriminate]. cbv zeta.
      destruct (15 <? _); [congruence|]. destruct (15 <? _); [congruence|].
      destruct (hex_loop s n (S i)) eqn:E; cbn [bind]; try discriminate. intros H; inversion H; subst. eauto. }
    destruct (hex_loop s 32 0) as [h|e|] eqn:E; auto.
    split; [eauto|]. intros h Hh. exfalso. eapply H; eauto.
  - split; auto. intros h Hh LH. apply hex_bytes_length in Hh. apply Nat.eqb_neq in L. lia.
Qed.

(** ** Sorting *)
Lemma upd_nth_eq {A} (l : list A) n a : (n < length l)%nat -> nth_error (upd l n a) n = Some a.
Proof. revert n. induction l as [|x l IH]; intros [|n] H; cbn in *; try lia; auto. apply IH. lia. Qed.
Lemma upd_nth_ne {A} (l : list A) n m a : n <> m -> nth_error (upd l n a) m = nth_error l m.
Proof. revert n m. induction l as [|x l IH]; intros [|n] [|m] H; cbn in *; try congruence; auto. Qed.
Lemma upd_len {A} (l : list A) n a : length (upd l n a) = length l.
Proof. revert n. induction l as [|x l IH]; intros [|n]; cbn; auto. Qed.
Lemma upd_perm {A} (l : list A) n x y : nth_error l n = Some x -> Permutation (y :: l) (x :: upd l n y).
Proof.
  revert n. induction l as [|z l IH]; intros [|n] H; cbn in *; try discriminate.
  - inversion H; subst. apply perm_swap.
  - apply IH in H. rewrite perm_swap. rewrite H. apply perm_swap.
Qed.
Lemma swap_perm {A} (l : list A) i t di dt : i <> t -> nth_error l i = Some di -> nth_error l t = Some dt ->
  Permutation l (upd (upd l t di) i dt).
Proof.
  intros N Hi Ht. pose proof (upd_perm l t dt di Ht) as P1.
  assert (H2 : nth_error (upd l t di) i = Some di) by (rewrite upd_nth_ne; auto).
  pose proof (upd_perm _ _ _ dt H2) as P2. eapply Permutation_cons_inv. etransitivity; eauto.
Qed.

(** Slot [j] holds the serial that belongs there. *)
Definition right (min : Z) (a : list ndelta) (j : nat) : Prop :=
  exists d, nth_error a j = Some d /\ nd_serial d = min + Z.of_nat j.
Fixpoint wrong (k : Z) (a : list ndelta) : nat :=
  match a with [] => O | d :: t => ((if (nd_serial d =? k)%Z then 0 else 1) + wrong (k + 1)%Z t)%nat end.
Lemma wrong_le k a : (wrong k a <= length a)%nat.
Proof. revert k. induction a as [|d a IH]; intros k; cbn; auto. specialize (IH (k + 1)). destruct (_ =? _); lia. Qed.
Lemma wrong_upd k a n x y : nth_error a n = Some x ->
  (wrong k (upd a n y) + (if (nd_serial x =? k + Z.of_nat n)%Z then 0 else 1)
   = wrong k a + (if (nd_serial y =? k + Z.of_nat n)%Z then 0 else 1))%nat.
Proof.
  revert k n. induction a as [|d a IH]; intros k [|n] H; cbn [nth_error upd wrong] in *; try discriminate.
  - inversion H; subst. replace (k + Z.of_nat 0) with k by lia. lia.
  - specialize (IH (k + 1) n H). replace (k + 1 + Z.of_nat n) with (k + Z.of_nat (S n)) in IH by lia. lia.
Qed.

Section Sort.
  Variables min max : Z.
  Definition bounded (a : list ndelta) := max = min + Z.of_nat (length a) - 1 /\ Z.of_nat (length a) <= ULONG_MAX.

  Lemma swap_spec i : forall fuel a, bounded a -> (i < length a)%nat -> (wrong min a < fuel)%nat ->
    match swap_until_sorted fuel a i min max with
    | Ok a' => Permutation a a' /\ right min a' i /\ (forall j, right min a j -> right min a' j)
    | Err e => e = EINVAL /\ (~ NoDup (map nd_serial a) \/ exists d, In d a /\ ~ min <= nd_serial d <= max)
    | UB => False
    end.
  Proof.
    induction fuel as [|f IH]; intros a B L W; [lia|]. cbn [swap_until_sorted].
    destruct (nth_error a i) as [di|] eqn:Ei; [|apply nth_error_None in Ei; lia].
    pose proof (nth_error_In _ _ Ei) as Ii.
    destruct (nd_serial di <? min) eqn:C1. { split; auto. right. exists di. split; auto. lia. }
    destruct (max <? nd_serial di) eqn:C2. { split; auto. right. exists di. split; auto. lia. }
    destruct B as [BM BU]. cbv zeta.
    destruct (ULONG_MAX <? nd_serial di - min) eqn:C3; [lia|].
    destruct (Z.of_nat i =? nd_serial di - min) eqn:C4.
    { repeat split; auto. exists di. split; auto. lia. }
    destruct (nd_serial di - min <? Z.of_nat (length a)) eqn:C5; [|lia].
    set (t := Z.to_nat (nd_serial di - min)). assert (Tv : Z.of_nat t = nd_serial di - min) by (unfold t; lia). clearbody t.
    destruct (nth_error a t) as [dt|] eqn:Et; [|apply nth_error_None in Et; lia].
    assert (N : i <> t) by lia.
    destruct (nd_serial dt =? nd_serial di) eqn:C6.
    { split; auto. left. intros ND. rewrite NoDup_nth_error in ND. apply N. apply ND; [rewrite map_length; auto|].
      rewrite !nth_error_map, Ei, Et. cbn. f_equal. lia. }
    pose proof (swap_perm a i t di dt N Ei Et) as P.
    assert (LEN : length (upd (upd a t di) i dt) = length a) by (rewrite !upd_len; auto).
    assert (Hi2 : nth_error (upd a t di) i = Some di) by (rewrite upd_nth_ne; auto).
    assert (Wr : (S (wrong min (upd (upd a t di) i dt)) <= wrong min a)%nat).
    { pose proof (wrong_upd min a t dt di Et) as W1. pose proof (wrong_upd min _ i di dt Hi2) as W2.
      destruct (nd_serial dt =? min + Z.of_nat t) eqn:X1; [lia|].
      destruct (nd_serial di =? min + Z.of_nat t) eqn:X2; [|lia].
      destruct (nd_serial di =? min + Z.of_nat i) eqn:X3; [lia|].
      destruct (nd_serial dt =? min + Z.of_nat i); lia. }
    assert (KEEP : forall j, right min a j -> right min (upd (upd a t di) i dt) j).
    { intros j (d & Ej & Sj). destruct (Nat.eq_dec j i) as [->|Nji]. { rewrite Ei in Ej. inversion Ej; subst. lia. }
      destruct (Nat.eq_dec j t) as [->|Njt].
      - exists di. rewrite upd_nth_ne by auto. rewrite upd_nth_eq by lia. split; auto. lia.
      - exists d. rewrite !upd_nth_ne by auto. auto. }
    assert (B' : bounded (upd (upd a t di) i dt)) by (split; rewrite LEN; auto).
    specialize (IH (upd (upd a t di) i dt) B' ltac:(rewrite LEN; auto) ltac:(lia)).
    destruct (swap_until_sorted f (upd (upd a t di) i dt) i min max) as [a'|e|]; auto.
    - destruct IH as (IP & IR & IK). split; [etransitivity; eauto|]. split; auto.
    - destruct IH as [-> [ND|(d & Id & Rd)]]; split; auto.
      + left. intros N'. apply ND. eapply Permutation_NoDup; [apply Permutation_map, P|exact N'].
      + right. exists d. split; auto. eapply Permutation_in; [symmetry; exact P|auto].
  Qed.

  Lemma sort_loop_spec : forall n i a, bounded a -> (i + n = length a)%nat -> (forall j, (j < i)%nat -> right min a j) ->
    match sort_loop n i a min max with
    | Ok a' => Permutation a a' /\ (forall j, (j < length a)%nat -> right min a' j)
    | Err e => e = EINVAL /\ (~ NoDup (map nd_serial a) \/ exists d, In d a /\ ~ min <= nd_serial d <= max)
    | UB => False
    end.
  Proof.
    induction n as [|n IH]; intros i a B L R; cbn [sort_loop].
    - split; auto. intros j Hj. apply R. lia.
    - pose proof (swap_spec i (S (length a)) a B ltac:(lia) ltac:(pose proof (wrong_le min a); lia)) as SW.
      destruct (swap_until_sorted (S (length a)) a i min max) as [a1|e|]; cbn [bind]; auto.
      destruct SW as (P & Ri & K).
      assert (LEN : length a1 = length a) by (symmetry; apply Permutation_length; auto).
      assert (B1 : bounded a1) by (unfold bounded; rewrite LEN; exact B).
      specialize (IH (S i) a1 B1 ltac:(lia)).
      assert (R1 : forall j, (j < S i)%nat -> right min a1 j).
      { intros j Hj. destruct (Nat.eq_dec j i) as [->|]; auto. apply K, R. lia. }
      specialize (IH R1). destruct (sort_loop n (S i) a1 min max) as [a2|e|]; auto.
      + destruct IH as [P2 R2]. split; [etransitivity; eauto|]. intros j Hj. apply R2. lia.
      + destruct IH as [-> [ND|(d & Id & Rd)]]; split; auto.
        * left. intros N'. apply ND. eapply Permutation_NoDup; [apply Permutation_map, P|exact N'].
        * right. exists d. split; auto. eapply Permutation_in; [symmetry; exact P|auto].
  Qed.
End Sort.

Lemma right_all min a : (forall j, (j < length a)%nat -> right min a j) -> map nd_serial a = zseq min (length a).
Proof.
  revert min. induction a as [|d a IH]; intros min R; cbn; auto. f_equal.
  - destruct (R O ltac:(cbn; lia)) as (x & E & S). cbn in E. inversion E; subst. lia.
  - apply IH. intros j Hj. destruct (R (S j) ltac:(cbn; lia)) as (x & E & S). exists x. cbn in E. split; auto. lia.
Qed.
Lemma zseq_length k n : length (zseq k n) = n.
Proof. revert k. induction n; intros; cbn; auto. Qed.
Lemma zseq_in k n x : In x (zseq k n) <-> k <= x < k + Z.of_nat n.
Proof. revert k. induction n; intros k; cbn; [lia|]. rewrite IHn. lia. Qed.
Lemma zseq_nodup k n : NoDup (zseq k n).
Proof. revert k. induction n; intros k; cbn; constructor; auto. rewrite zseq_in. lia. Qed.
Lemma zseq_app k n m : zseq k (n + m) = zseq k n ++ zseq (k + Z.of_nat n) m.
Proof.
  revert k. induction n as [|n IH]; intros k; cbn [zseq Nat.add app].
  - f_equal. lia.
  - f_equal. rewrite IH. f_equal. f_equal. lia.
Qed.
Lemma sorted_unique (a b : list ndelta) k n : Permutation a b -> map nd_serial a = zseq k n -> map nd_serial b = zseq k n -> a = b.
Proof.
  revert a b k. induction n as [|n IH]; intros a b k P Ea Eb.
  - destruct a, b; try discriminate; auto.
  - destruct a as [|x a], b as [|y b]; try discriminate. cbn [map zseq] in Ea, Eb. injection Ea as E1 E2. injection Eb as E3 E4.
    assert (XY : x = y).
    { assert (I : In x (y :: b)) by (eapply Permutation_in; [exact P|left; auto]). destruct I as [->|I]; auto. exfalso.
      assert (In (nd_serial x) (map nd_serial b)) as H by (apply in_map; auto).
      rewrite E4, zseq_in in H. lia. }
    subst y. f_equal. apply (IH a b (k + 1)); [eapply Permutation_cons_inv; exact P|exact E2|exact E4].
Qed.

Lemma sort_spec max a : Z.of_nat (length a) <= ULONG_MAX ->
  match sort_deltas max a with
  | Ok b => Permutation a b /\ ends_at max b /\ (a = [] \/ 0 <= max - Z.of_nat (length a) + 1)
  | Err e => e = EINVAL /\ forall b, Permutation a b -> ends_at max b -> max - Z.of_nat (length a) + 1 < 0
  | UB => False
  end.
Proof.
  intros U. unfold sort_deltas. destruct a as [|d0 a0] eqn:EA.
  { split; auto. split; auto. reflexivity. }
  rewrite <- EA in *. cbv zeta. clear EA d0 a0.
  replace (max - (Z.of_nat (length a) - 1)) with (max - Z.of_nat (length a) + 1) by lia.
  destruct (max - Z.of_nat (length a) + 1 <? 0) eqn:C.
  { split; auto. intros. lia. }
  pose proof (sort_loop_spec (max - Z.of_nat (length a) + 1) max (length a) 0 a ltac:(split; lia) ltac:(lia) ltac:(intros; lia)) as S.
  destruct (sort_loop _ _ _ _ _) as [b|e|]; auto.
  - destruct S as [P R]. assert (LEN : length b = length a) by (symmetry; apply Permutation_length; auto).
    split; auto. split; [|right; lia]. unfold ends_at. rewrite LEN in *. rewrite <- LEN. apply right_all. intros j Hj. rewrite LEN. apply R. lia.
  - destruct S as [-> S]. split; auto. intros b P EB. exfalso.
    unfold ends_at in EB. rewrite <- (Permutation_length P) in EB.
    destruct S as [ND|(d & I & R)].
    + apply ND. eapply Permutation_NoDup; [symmetry; apply Permutation_map; exact P|]. rewrite EB. apply zseq_nodup.
    + apply R. assert (H : In (nd_serial d) (map nd_serial b)) by (apply in_map; eapply Permutation_in; eauto).
      rewrite EB, zseq_in in H. lia.
Qed.
