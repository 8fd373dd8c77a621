(** Integers, texts and dates of JsonEnc.v. *)
From Coq Require Import String Lia.
From Verif Require Import Base BaseLemmas CString Slurm PduWireSpec Oid Ntop NtopSpec NtopProofs Address AddressSpec AddressProofs ResourcesSpec Roa Manifest ManifestSpec ManifestProofs.
From Verif Require Import BerSpec BerProofs Asn1Dec JsonEnc JsonEncSpec.
Notation length := List.length.
Open Scope list_scope.
Open Scope Z_scope.

(** ** Integers *)
Lemma lor_low v x : 0 <= v -> is_byte x -> Z.lor (v * 256) x = v * 256 + x.
Proof.
  intros Hv Hx. symmetry.
  assert (L : Z.land (v * 256) x = 0).
  { apply Z.bits_inj'. intros n Hn. rewrite Z.land_spec, Z.bits_0. change 256 with (2 ^ 8). destruct (Z.ltb_spec n 8).
    - rewrite Z.mul_pow2_bits_low by lia. reflexivity.
    - rewrite (byte_high x n) by (assumption || lia). apply andb_false_r. }
  rewrite <- Z.lxor_lor by assumption. apply Z.add_nocarry_lxor. assumption.
Qed.

Lemma convert_step v x : 0 <= v < two64 -> is_byte x -> Z.lor (Z.shiftl v 8 mod two64) x = (v * 256 + x) mod two64.
Proof.
  intros Hv Hx. rewrite Z.shiftl_mul_pow2 by lia. change (2 ^ 8) with 256. unfold two64 in *.
  change 18446744073709551616 with (72057594037927936 * 256).
  rewrite Z.mul_mod_distr_r by lia. rewrite lor_low; [|apply Z.mod_pos_bound; lia|assumption].
  pose proof (Z.div_mod v 72057594037927936 ltac:(lia)). pose proof (Z.mod_pos_bound v 72057594037927936 ltac:(lia)). unfold is_byte in *.
  apply (Z.mod_unique_pos _ _ (v / 72057594037927936)); lia.
Qed.

Lemma convert_fold b : bytes b -> forall v, 0 <= v < two64 ->
  fold_left (fun value x => Z.lor (Z.shiftl value 8 mod two64) x) b v = (v * 256 ^ Z.of_nat (length b) + be b) mod two64.
Proof.
  intros Hb. induction Hb as [|x b Hx Hb IH]; intros v Hv; cbn [fold_left length].
  - change (256 ^ Z.of_nat 0) with 1. change (be []) with 0. rewrite Z.mod_small by lia. lia.
  - rewrite convert_step by assumption. rewrite IH by (apply Z.mod_pos_bound; reflexivity). rewrite be_cons.
    rewrite Nat2Z.inj_succ, Z.pow_succ_r by lia. unfold two64 in *.
    rewrite <- Z.add_mod_idemp_l by lia. rewrite Z.mul_mod_idemp_l by lia. rewrite Z.add_mod_idemp_l by lia. f_equal. lia.
Qed.

Lemma shiftr7 x : is_byte x -> (Z.shiftr x 7 =? 0) = (x <? 128).
Proof.
  intros H. rewrite Z.shiftr_div_pow2 by lia. change (2 ^ 7) with 128. unfold is_byte in H.
  destruct (Z.ltb_spec x 128); [rewrite Z.div_small by lia; reflexivity|].
  apply Z.eqb_neq. intros E. apply Z.div_small_iff in E; lia.
Qed.

Lemma convert_value b : bytes b -> (length b <= 8)%nat -> b <> [] -> integer_convert b = integer_value b /\ int64 (integer_value b).
Proof.
  intros Hb Hl Hne. destruct b as [|x b]; [contradiction|]. unfold integer_convert, integer_value, int64.
  pose proof (be_bound _ Hb) as B. inversion Hb as [|? ? Hx Hb']; subst. pose proof (be_bound _ Hb') as B'. rewrite shiftr7 by assumption.
  pose proof (be_cons x b) as Ec. cbn [length] in *. rewrite Nat2Z.inj_succ, Z.pow_succ_r in * by lia.
  set (P := 256 ^ Z.of_nat (length b)) in *.
  assert (HP : 1 <= P <= 72057594037927936).
  { split; [pose proof (Z.pow_pos_nonneg 256 (Z.of_nat (length b)) ltac:(lia) ltac:(lia)); unfold P; lia|].
    change 72057594037927936 with (256 ^ 7). apply Z.pow_le_mono_r; lia. }
  unfold is_byte in Hx.
  destruct (Z.ltb_spec x 128) as [Hlt|Hge]; rewrite convert_fold by (assumption || (unfold two64; lia)); cbn [length];
    rewrite Nat2Z.inj_succ, Z.pow_succ_r by lia; fold P; unfold two64.
  - rewrite Z.mul_0_l, Z.add_0_l, Z.mod_small by nia. destruct (Z.ltb_spec (be (x :: b)) 9223372036854775808); nia.
  - assert (E : ((18446744073709551616 - 1) * (256 * P) + be (x :: b)) mod 18446744073709551616 = 18446744073709551616 + (be (x :: b) - 256 * P)).
    { symmetry. apply (Z.mod_unique_pos _ _ (256 * P - 1)); nia. }
    rewrite E. destruct (Z.ltb_spec (18446744073709551616 + (be (x :: b) - 256 * P)) 9223372036854775808); nia.
Qed.

Lemma value_skip_zero y b : bytes (y :: b) -> y < 128 -> integer_value (0 :: y :: b) = integer_value (y :: b).
Proof.
  intros Hb Hy. unfold integer_value. rewrite (proj2 (Z.ltb_lt y 128)) by lia. change (0 <? 128) with true. cbv iota. rewrite (be_cons 0). lia.
Qed.
Lemma value_skip_ones y b : bytes (y :: b) -> 128 <= y -> integer_value (255 :: y :: b) = integer_value (y :: b).
Proof.
  intros Hb Hy. unfold integer_value. destruct (Z.ltb_spec y 128); [lia|]. change (255 <? 128) with false. cbv iota. rewrite (be_cons 255).
  cbn [length]. rewrite !Nat2Z.inj_succ, !Z.pow_succ_r by lia. lia.
Qed.

Lemma skip_spec b : bytes b -> bytes (skip_insignificant b) /\ integer_value (skip_insignificant b) = integer_value b
  /\ (8 < length (skip_insignificant b) -> ~ int64 (integer_value b))%nat.
Proof.
  intros Hb. induction Hb as [|x b Hx Hb IH]; [cbn; split; [constructor|split; [reflexivity|lia]]|].
  destruct b as [|y b]; [cbn; split; [constructor; [assumption|constructor]|split; [reflexivity|lia]]|].
  cbn [skip_insignificant]. inversion Hb as [|? ? Hy Hb']; subst. rewrite land128 by assumption.
  destruct ((x =? 0) && (y <? 128)) eqn:E1.
  { apply andb_prop in E1. destruct E1 as (E1 & E2). apply Z.eqb_eq in E1. apply Z.ltb_lt in E2. subst x.
    fold skip_insignificant. rewrite value_skip_zero by assumption. exact IH. }
  destruct ((x =? 255) && negb (y <? 128)) eqn:E2.
  { apply andb_prop in E2. destruct E2 as (E2 & E3). apply Z.eqb_eq in E2. apply negb_true_iff, Z.ltb_ge in E3. subst x.
    fold skip_insignificant. rewrite value_skip_ones by assumption. exact IH. }
  split; [constructor; assumption|]. split; [reflexivity|]. intros Hl (I1 & I2). clear IH.
  unfold integer_value in *. pose proof (be_bound _ Hb') as B. rewrite !be_cons in *. cbn [length] in *. rewrite !Nat2Z.inj_succ, !Z.pow_succ_r in * by lia.
  set (P := 256 ^ Z.of_nat (length b)) in *.
  assert (HP : 72057594037927936 <= P) by (change 72057594037927936 with (256 ^ 7); apply Z.pow_le_mono_r; lia).
  unfold is_byte in *. apply andb_false_iff in E1, E2. rewrite negb_false_iff in E2. destruct (Z.ltb_spec x 128).
  - assert (1 <= x \/ 128 <= y) by (destruct E1 as [E1|E1]; [apply Z.eqb_neq in E1|apply Z.ltb_ge in E1]; lia). nia.
  - assert (x <= 254 \/ y < 128) by (destruct E2 as [E2|E2]; [apply Z.eqb_neq in E2|apply Z.ltb_lt in E2]; lia). nia.
Qed.

Lemma imax_spec b : bytes b ->
  match asn_INTEGER2imax b with Some n => n = integer_value b /\ int64 n | None => ~ int64 (integer_value b) end.
Proof.
  intros Hb. unfold asn_INTEGER2imax.
  assert (S : let b' := if (8 <? length b)%nat then skip_insignificant b else b in
    bytes b' /\ integer_value b' = integer_value b /\ (8 < length b' -> ~ int64 (integer_value b))%nat).
  { cbn zeta. destruct (Nat.ltb_spec 8 (length b)); [apply skip_spec; assumption|]. split; [assumption|split; [reflexivity|lia]]. }
  cbn zeta in *. set (b' := if (8 <? length b)%nat then skip_insignificant b else b) in *. clearbody b'. destruct S as (S1 & S2 & S3).
  destruct (Nat.ltb_spec 8 (length b')); [auto|]. destruct b' as [|x b'].
  - rewrite <- S2. cbn. unfold int64. lia.
  - destruct (convert_value (x :: b') S1 ltac:(lia) ltac:(discriminate)) as (-> & C). rewrite <- S2. auto.
Qed.

Lemma integer_outcome b : bytes b -> outcome (INTEGER_encode_json (Some (VBytes b))) (shows_integer b).
Proof.
  intros Hb. pose proof (imax_spec b Hb) as H. cbn [INTEGER_encode_json]. destruct (asn_INTEGER2imax b) as [n|]; cbn [outcome json_int_new].
  - destruct H as (-> & H). constructor. assumption.
  - intros j J. destruct J. contradiction.
Qed.

(** ** Hexadecimal *)
Lemma hex_text_of b : bytes b -> hex_text (hex_of b) b.
Proof.
  intros H. induction H as [|x b Hx H IH]; [constructor|]. unfold hex_of. cbn [flat_map app]. fold (hex_of b).
  assert (E : forallb (fun x => hexdigit (H2C (Z.land (Z.shiftr x 4) 15)) && hexdigit (H2C (Z.land x 15))
              && (x =? 16 * hexval (H2C (Z.land (Z.shiftr x 4) 15)) + hexval (H2C (Z.land x 15)))) (map Z.of_nat (seq 0 256)) = true) by (vm_compute; reflexivity).
  rewrite forallb_forall in E. specialize (E x). cbv beta in E.
  assert (I : In x (map Z.of_nat (seq 0 256))).
  { unfold is_byte in Hx. apply in_map_iff. exists (Z.to_nat x). split; [lia|]. apply in_seq. lia. }
  apply E in I. apply andb_prop in I. destruct I as (I & I3). apply andb_prop in I. destruct I as (I1 & I2). apply Z.eqb_eq in I3.
  constructor; assumption.
Qed.
Lemma hex_text_bytes s b : hex_text s b -> Forall (fun c => 0 <= c < 128) s.
Proof.
  intros H. induction H as [|d e s b bs Hd He _ _ IH]; [constructor|]. unfold hexdigit in *.
  apply orb_prop in Hd, He. rewrite !andb_true_iff, !Z.leb_le in Hd, He. repeat constructor; try assumption; lia.
Qed.
Lemma hex_text_fun s b : hex_text s b -> forall b', hex_text s b' -> b' = b.
Proof.
  intros H. induction H as [|d e s b bs Hd He -> H IH]; intros b' H'; inversion H'; subst; [reflexivity|]. f_equal. apply IH. assumption.
Qed.
Lemma hexdigit_inj d e : hexdigit d = true -> hexdigit e = true -> hexval d = hexval e -> d = e.
Proof.
  unfold hexdigit, hexval. rewrite !orb_true_iff, !andb_true_iff, !Z.leb_le. intros Hd He.
  destruct (Z.ltb_spec d 58); destruct (Z.ltb_spec e 58); lia.
Qed.
Lemma hexdigit_small d : hexdigit d = true -> 0 <= hexval d < 16.
Proof.
  unfold hexdigit, hexval. rewrite !orb_true_iff, !andb_true_iff, !Z.leb_le. intros H. destruct (Z.ltb_spec d 58); lia.
Qed.
Lemma hex_text_inj s b : hex_text s b -> forall s', hex_text s' b -> s' = s.
Proof.
  intros H. induction H as [|d e s b bs Hd He E0 H IH]; intros s' H'.
  - remember [] as bs eqn:E in H'. destruct H'; [reflexivity|discriminate].
  - remember (b :: bs) as bs' eqn:E in H'. destruct H' as [|d' e' s'' b' bs' Hd' He' E1 Hs]; [discriminate|]. injection E as E2 E3.
    pose proof (hexdigit_small _ Hd). pose proof (hexdigit_small _ He). pose proof (hexdigit_small _ Hd'). pose proof (hexdigit_small _ He').
    assert (d' = d) by (apply hexdigit_inj; [assumption..|lia]). assert (e' = e) by (apply hexdigit_inj; [assumption..|lia]).
    subst. do 2 f_equal. apply IH. assumption.
Qed.

(** ** UTF-8 *)
Lemma utf8_check_ascii s : Forall (fun c => 0 <= c < 128) s -> utf8_check_string s = true.
Proof.
  unfold utf8_check_string. intros H. induction H as [|c s Hc H IH]; [reflexivity|]. cbn [length utf8_check_loop]. unfold utf8_check_first.
  rewrite (proj2 (Z.ltb_lt c 128)) by lia. exact IH.
Qed.
Lemma strn_ascii s : Forall (fun c => 0 <= c < 128) s -> json_strn_new s = Ok (JStr s).
Proof. intros H. unfold json_strn_new. rewrite utf8_check_ascii by assumption. reflexivity. Qed.

Lemma hex_outcome b : bytes b -> exists s, json_strn_new (hex_of b) = Ok (JStr s) /\ hex_text s b.
Proof. intros H. exists (hex_of b). pose proof (hex_text_of b H) as T. split; [apply strn_ascii; eapply hex_text_bytes; eassumption|assumption]. Qed.
