(** Lemmas about the BER model: the DER serialisers. *)
From Verif Require Import Base BaseLemmas PduWireProofs Ber BerSpec BerProofs BerProofs2 BerProofs3 BerProofs4.

Notation length := List.length.

Lemma emit_length n f step i : length (emit n f step i) = n.
Proof. revert i. induction n; intros i; cbn [emit length]; [reflexivity|]. rewrite IHn. reflexivity. Qed.

Lemma emit_map n f g h step i : (forall i, f i = h (g i)) -> emit n f step i = map h (emit n g step i).
Proof. intros H. revert i. induction n; intros i; cbn [emit map]; [reflexivity|]. rewrite H, IHn. reflexivity. Qed.

Lemma emit_forall (P : Z -> Prop) n f step i : (forall i, P (f i)) -> Forall P (emit n f step i).
Proof. intros H. revert i. induction n; intros i; cbn [emit]; constructor; auto. Qed.

Lemma fold_emit v step acc n : 0 <= v -> 0 < step ->
  fold_left (fun a b => a * 2 ^ step + b) (emit n (fun i => Z.shiftr v i mod 2 ^ step) step (step * (Z.of_nat n - 1))) acc
  = acc * 2 ^ (step * Z.of_nat n) + v mod 2 ^ (step * Z.of_nat n).
Proof.
  intros Hv Hs. revert acc. induction n as [|n IH]; intros acc.
  - cbn [emit fold_left]. rewrite Nat2Z.inj_0, Z.mul_0_r. rewrite Z.pow_0_r, Z.mod_1_r. lia.
  - cbn [emit fold_left].
    replace (step * (Z.of_nat (S n) - 1)) with (step * Z.of_nat n) by lia.
    replace (step * Z.of_nat n - step) with (step * (Z.of_nat n - 1)) by lia.
    rewrite IH. rewrite Z.shiftr_div_pow2 by lia.
    replace (step * Z.of_nat (S n)) with (step * Z.of_nat n + step) by lia.
    rewrite Z.pow_add_r by lia.
    rewrite (Z.rem_mul_r v (2 ^ (step * Z.of_nat n)) (2 ^ step)).
    2:{ apply Z.pow_nonzero; lia. }
    2:{ apply Z.pow_pos_nonneg; lia. }
    set (P := 2 ^ (step * Z.of_nat n)). set (Q := 2 ^ step). ring.
Qed.

Lemma required_spec v step limit : 0 < step -> 0 <= v < 2 ^ limit -> forall fuel r i, 0 <= i -> limit <= i + step * Z.of_nat fuel ->
  let '(r', i') := required_loop fuel v step limit r i in
  i' - i = step * (r' - r) /\ r <= r' <= r + Z.of_nat fuel /\ v < 2 ^ i' /\ (r < r' -> 2 ^ (i' - step) <= v).
Proof.
  intros Hs Hv. induction fuel as [|fuel IH]; intros r i Hi Hl; cbn [required_loop].
  - split; [lia|]. split; [lia|]. split; [|lia]. apply Z.lt_le_trans with (2 ^ limit); [lia|]. apply Z.pow_le_mono_r; lia.
  - destruct (Z.ltb_spec i limit).
    + rewrite shiftr_zero by lia. destruct (Z.ltb_spec v (2 ^ i)); cbn [negb].
      * repeat split; lia.
      * specialize (IH (r + 1) (i + step) ltac:(lia) ltac:(lia)).
        destruct (required_loop fuel v step limit (r + 1) (i + step)) as [r' i'].
        destruct IH as (A & B & C & D). split; [lia|]. split; [lia|]. split; [exact C|]. intros _.
        destruct (Z.eq_dec r' (r + 1)) as [->|]; [|apply D; lia].
        replace (i' - step) with i by lia. exact H0.
    + split; [lia|]. split; [lia|]. split; [|lia]. apply Z.lt_le_trans with (2 ^ limit); [lia|]. apply Z.pow_le_mono_r; lia.
Qed.

Lemma be256_bound bs : forall acc, bytes bs -> 0 <= acc ->
  fold_left (fun v b => v * 256 + b) bs acc < (acc + 1) * 2 ^ (8 * Z.of_nat (length bs)).
Proof.
  induction bs as [|b bs IH]; intros acc Hb Ha; cbn [fold_left length].
  - rewrite Z.mul_0_r. rewrite Z.pow_0_r. lia.
  - inversion Hb as [|? ? Hb1 Hb2]; subst. unfold is_byte in Hb1.
    specialize (IH (acc * 256 + b) Hb2 ltac:(lia)).
    replace (8 * Z.of_nat (S (length bs))) with (8 + 8 * Z.of_nat (length bs)) by lia.
    rewrite Z.pow_add_r by lia. change (2 ^ 8) with 256.
    assert (0 < 2 ^ (8 * Z.of_nat (length bs))) by (apply Z.pow_pos_nonneg; lia). nia.
Qed.
Lemma be128_bound bs : forall acc, Forall (fun c => 0 <= c < 128) bs -> 0 <= acc ->
  fold_left (fun v b => v * 128 + b) bs acc < (acc + 1) * 2 ^ (7 * Z.of_nat (length bs)).
Proof.
  induction bs as [|b bs IH]; intros acc Hb Ha; cbn [fold_left length].
  - rewrite Z.mul_0_r. rewrite Z.pow_0_r. lia.
  - inversion Hb as [|? ? Hb1 Hb2]; subst.
    specialize (IH (acc * 128 + b) Hb2 ltac:(lia)).
    replace (7 * Z.of_nat (S (length bs))) with (7 + 7 * Z.of_nat (length bs)) by lia.
    rewrite Z.pow_add_r by lia. change (2 ^ 7) with 128.
    assert (0 < 2 ^ (7 * Z.of_nat (length bs))) by (apply Z.pow_pos_nonneg; lia). nia.
Qed.

Lemma der_length_ok c len size : 0 <= len < 4611686018427387904 ->
  let '(ret, bs) := der_tlv_length_serialize len size in
  (1 <= ret <= 9)%nat /\ (length bs <= size)%nat /\
  ((ret <= size)%nat -> length bs = ret /\ length_octets c bs (Some len)) /\
  (forall bs', length_octets c bs' (Some len) -> (ret <= length bs')%nat).
Proof.
  intros Hl. unfold der_tlv_length_serialize. destruct (Z.leb_spec len 127).
  - split; [lia|]. destruct (Nat.eqb_spec size 0).
    + split; [cbn; lia|]. split; [lia|]. intros bs' H'. inversion H'; subst; cbn [length]; lia.
    + cbn [length]. split; [lia|]. split; [|intros bs' H'; inversion H'; subst; cbn [length]; lia].
      intros _. split; [reflexivity|]. rewrite Z.mod_small by lia. constructor. lia.
  - pose proof (required_spec len 8 64 ltac:(lia) ltac:(change (2 ^ 64) with 18446744073709551616; lia) 7 1 8 ltac:(lia) ltac:(lia)) as R.
    destruct (required_loop 7 len 8 64 1 8) as [r i]. destruct R as (Ri & Rr & Rv & Rm).
    assert (Hmin : forall bs', length_octets c bs' (Some len) -> (S (Z.to_nat r) <= length bs')%nat).
    { intros bs' H'. inversion H' as [b Hb|bs Hbs Hnb|]; subst; [lia|]. cbn [length].
      destruct (Nat.le_gt_cases (S (Z.to_nat r)) (S (length bs))); [lia|exfalso].
      pose proof (be256_bound bs 0 Hbs ltac:(lia)) as B. fold (be256 bs) in B.
      assert (Hr1 : 1 < r) by lia. specialize (Rm Hr1).
      assert (2 ^ (8 * Z.of_nat (length bs)) <= 2 ^ (i - 8)) by (apply Z.pow_le_mono_r; lia). lia. }
    destruct (Nat.leb_spec size (Z.to_nat r)).
    { split; [lia|]. split; [cbn; lia|]. split; [lia|exact Hmin]. }
    split; [lia|]. cbn [length]. rewrite emit_length. split; [lia|]. split; [|exact Hmin]. intros _.
    split; [reflexivity|].
    replace (i - 8) with (8 * (Z.of_nat (Z.to_nat r) - 1)) by lia.
    set (bs := emit (Z.to_nat r) (fun i0 => Z.shiftr len i0 mod 256) 8 (8 * (Z.of_nat (Z.to_nat r) - 1))).
    assert (Lb : length bs = Z.to_nat r) by apply emit_length.
    assert (Hv : be256 bs = len).
    { pose proof (fold_emit len 8 0 (Z.to_nat r) ltac:(lia) ltac:(lia)) as F. change (2 ^ 8) with 256 in F.
      unfold be256, bs. rewrite F. rewrite Z.mul_0_l, Z.add_0_l. apply Z.mod_small.
      replace (8 * Z.of_nat (Z.to_nat r)) with i by lia. lia. }
    assert (Hlor : Z.lor 128 r = 128 + Z.of_nat (length bs)).
    { rewrite Lb, Z2Nat.id by lia. assert (Hc : r = 1 \/ r = 2 \/ r = 3 \/ r = 4 \/ r = 5 \/ r = 6 \/ r = 7 \/ r = 8) by lia.
      repeat destruct Hc as [->|Hc]; try reflexivity. rewrite Hc; reflexivity. }
    rewrite Hlor. replace (Some len) with (Some (be256 bs)) by (rewrite Hv; reflexivity). apply long_form; [|rewrite Lb; lia].
    apply emit_forall. intros i0. apply Z.mod_pos_bound. lia.
Qed.

Lemma lor_cl cl k : 0 <= cl < 4 -> 0 <= k < 32 -> Z.lor (Z.shiftl cl 6) k = cl * 64 + 0 + k.
Proof. intros H1 H2. rewrite lor_shift_add by lia. change (2 ^ 6) with 64. lia. Qed.

Lemma lor128 k : 0 <= k < 128 -> Z.lor 128 k = 128 + k.
Proof. intros H. change 128 with (Z.shiftl 1 7) at 1. rewrite lor_shift_add by (change (2 ^ 7) with 128; lia). reflexivity. Qed.

Lemma land127_mod v : Z.land v 127 = v mod 128.
Proof. change 127 with (Z.ones 7). rewrite Z.land_ones by lia. reflexivity. Qed.

Lemma tag_serialize_ok cl num size : 0 <= cl < 4 -> 0 <= num < 1073741824 ->
  let '(ret, bs) := ber_tlv_tag_serialize (num * 4 + cl) size in
  (1 <= ret <= 6)%nat /\ (length bs <= size)%nat /\
  ((ret <= size)%nat -> length bs = ret /\ tag_octets bs cl false num) /\
  (forall bs' pc, tag_octets bs' cl pc num -> (ret <= length bs')%nat).
Proof.
  intros Hcl Hn. unfold ber_tlv_tag_serialize.
  assert (E1 : Z.land (num * 4 + cl) 3 = cl).
  { change 3 with (Z.ones 2). rewrite Z.land_ones by lia. change (2 ^ 2) with 4.
    symmetry. apply Z.mod_unique with (q := num); lia. }
  assert (E2 : Z.shiftr (num * 4 + cl) 2 = num).
  { rewrite Z.shiftr_div_pow2 by lia. change (2 ^ 2) with 4. symmetry. apply Z.div_unique with (r := cl); lia. }
  rewrite E1, E2. cbn zeta.
  assert (Htwo : forall bs' pc, tag_octets bs' cl pc num -> 31 <= num -> (2 <= length bs')%nat).
  { intros bs' pc H' Hge. inversion H'; subst; [lia|]. cbn [length]. rewrite app_length. cbn [length]. lia. }
  destruct (Z.leb_spec num 30).
  - assert (Hmin : forall bs' pc, tag_octets bs' cl pc num -> (1 <= length bs')%nat)
      by (intros bs' pc H'; inversion H'; cbn [length]; lia).
    split; [lia|]. destruct (Nat.eqb_spec size 0).
    + split; [cbn; lia|]. split; [lia|exact Hmin].
    + cbn [length]. split; [lia|]. split; [|exact Hmin]. intros _. split; [reflexivity|].
      rewrite lor_cl by lia. apply (low_tag cl false num); lia.
  - pose proof (required_spec num 7 32 ltac:(lia) ltac:(change (2 ^ 32) with 4294967296; lia) 4 1 7 ltac:(lia) ltac:(lia)) as R.
    destruct (required_loop 4 num 7 32 1 7) as [r i]. destruct R as (Ri & Rr & Rv & Rm).
    assert (Hmin : forall bs' pc, tag_octets bs' cl pc num -> (S (Z.to_nat r) <= length bs')%nat).
    { intros bs' pc H'. inversion H' as [cl0 pc0 n0 A B|cl0 pc0 cont last A B C]; subst; [lia|].
      cbn [length]. rewrite app_length, map_length. cbn [length].
      destruct (Nat.le_gt_cases (S (Z.to_nat r)) (S (length cont + 1))); [lia|exfalso].
      assert (Hall : Forall (fun c => 0 <= c < 128) (cont ++ [last])) by (apply Forall_app; auto).
      pose proof (be128_bound (cont ++ [last]) 0 Hall ltac:(lia)) as B'. fold (be128 (cont ++ [last])) in B'.
      rewrite app_length in B'. cbn [length] in B'.
      assert (Hr1 : 1 < r) by lia. specialize (Rm Hr1).
      assert (2 ^ (7 * Z.of_nat (length cont + 1)) <= 2 ^ (i - 7)) by (apply Z.pow_le_mono_r; lia). lia. }
    destruct (Nat.ltb_spec (size - 1) (Z.to_nat r)).
    { split; [lia|]. split; [destruct (Nat.eqb_spec size 0); cbn; lia|]. split; [lia|exact Hmin]. }
    destruct (Nat.eqb_spec size 0) as [->|Hsz]; [lia|].
    split; [lia|]. cbn [length app]. rewrite app_length, emit_length. cbn [length].
    split; [lia|]. split; [|exact Hmin]. intros _. split; [lia|].
    set (n := (Z.to_nat r - 1)%nat). assert (En : Z.of_nat n = r - 1) by (unfold n; lia).
    rewrite (emit_map n _ (fun i0 => Z.shiftr num i0 mod 128) (fun c => 128 + c)).
    2:{ intros j. rewrite land127_mod. rewrite lor128; [reflexivity|]. apply Z.mod_pos_bound; lia. }
    rewrite land127_mod. rewrite lor_cl by lia.
    set (cont := emit n (fun i0 => Z.shiftr num i0 mod 128) 7 (i - 7)).
    assert (Hv : be128 (cont ++ [num mod 128]) = num).
    { pose proof (fold_emit num 7 0 (S n) ltac:(lia) ltac:(lia)) as F. change (2 ^ 7) with 128 in F.
      assert (Ec : cont ++ [num mod 128] = emit (S n) (fun i0 => Z.shiftr num i0 mod 128) 7 (7 * (Z.of_nat (S n) - 1))).
      { unfold cont. replace (i - 7) with (7 * Z.of_nat n) by lia.
        replace (7 * (Z.of_nat (S n) - 1)) with (7 * Z.of_nat n) by lia. clear.
        induction n as [|n IH]; [cbn [emit app]; change (7 * Z.of_nat 0) with 0; rewrite Z.shiftr_0_r; reflexivity|].
        rewrite (eq_refl : emit (S (S n)) (fun i0 => Z.shiftr num i0 mod 128) 7 (7 * Z.of_nat (S n)) =
          (Z.shiftr num (7 * Z.of_nat (S n)) mod 128) :: emit (S n) (fun i0 => Z.shiftr num i0 mod 128) 7 (7 * Z.of_nat (S n) - 7)).
        replace (7 * Z.of_nat (S n) - 7) with (7 * Z.of_nat n) by lia. rewrite <- IH. cbn [emit app].
        replace (7 * Z.of_nat (S n) - 7) with (7 * Z.of_nat n) by lia. reflexivity. }
      rewrite Ec. unfold be128. rewrite F, Z.mul_0_l, Z.add_0_l. apply Z.mod_small.
      replace (7 * Z.of_nat (S n)) with i by lia. lia. }
    assert (Hcont : Forall (fun c => 0 <= c < 128) cont) by (apply emit_forall; intros j; apply Z.mod_pos_bound; lia).
    pose proof (high_tag cl false cont (num mod 128) Hcl Hcont ltac:(apply Z.mod_pos_bound; lia)) as Q.
    rewrite Hv in Q. exact Q.
Qed.
