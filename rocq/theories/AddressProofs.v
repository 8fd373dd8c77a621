From Verif Require Import Base BaseLemmas Types PduWireSpec PduWireProofs Address AddressSpec.

(** ** Byte lists as numbers *)
Lemma be_app l m : be (l ++ m) = be l * 256 ^ Z.of_nat (length m) + be m.
Proof. unfold be. rewrite fold_left_app. rewrite be_app_acc. reflexivity. Qed.
Lemma be_cons x l : be (x :: l) = x * 256 ^ Z.of_nat (length l) + be l.
Proof. change (x :: l) with ([x] ++ l). rewrite be_app. cbn [be fold_left]. unfold be. cbn. lia. Qed.
Lemma be_snoc l x : be (l ++ [x]) = 256 * be l + x.
Proof. rewrite be_app. cbn [length]. unfold be at 2. cbn [fold_left]. change (256 ^ Z.of_nat 1) with 256. lia. Qed.
Lemma be_bound l : Forall is_byte l -> 0 <= be l < 256 ^ Z.of_nat (length l).
Proof.
  induction l as [|x l IH] using rev_ind; intros F; [cbn; lia|].
  apply Forall_app in F. destruct F as [Fl Fx]. inversion Fx as [|? ? Hx _]; subst.
  rewrite be_snoc, app_length. cbn [length].
  replace (Z.of_nat (length l + 1)) with (Z.succ (Z.of_nat (length l))) by lia.
  rewrite Z.pow_succ_r by lia. specialize (IH Fl). unfold is_byte in Hx. lia.
Qed.
Lemma be_repeat0 n : be (repeat 0 n) = 0.
Proof. induction n; [reflexivity|]. cbn [repeat]. rewrite be_cons, IHn. lia. Qed.

Lemma pow256 n : 256 ^ Z.of_nat n = 2 ^ (8 * Z.of_nat n).
Proof. change 256 with (2 ^ 8). rewrite <- Z.pow_mul_r by lia. reflexivity. Qed.

(** Bitwise operators act byte by byte. *)
Lemma testbit_byte x a n : is_byte a -> 0 <= n ->
  Z.testbit (256 * x + a) n = if n <? 8 then Z.testbit a n else Z.testbit x (n - 8).
Proof.
  unfold is_byte. intros Ha Hn. replace (256 * x + a) with (Z.lor (Z.shiftl x 8) a).
  2:{ rewrite lor_shift_add by lia. change (2 ^ 8) with 256. lia. }
  rewrite Z.lor_spec, Z.shiftl_spec by lia. destruct (Z.ltb_spec n 8).
  - rewrite (Z.testbit_neg_r x) by lia. reflexivity.
  - replace (Z.testbit a n) with false; [apply orb_false_r|].
    symmetry. destruct (Z.eq_dec a 0) as [-> |]; [apply Z.bits_0|].
    apply Z.bits_above_log2; [lia|]. apply Z.lt_le_trans with 8; [|lia].
    apply Z.log2_lt_pow2; lia.
Qed.

Definition bitwise (op : Z -> Z -> Z) (f : bool -> bool -> bool) : Prop :=
  (forall x y n, 0 <= n -> Z.testbit (op x y) n = f (Z.testbit x n) (Z.testbit y n)) /\
  (forall x y, is_byte x -> is_byte y -> is_byte (op x y)) /\ op 0 0 = 0.

Lemma byte_range x : (forall n, 8 <= n -> Z.testbit x n = false) -> 0 <= x -> is_byte x.
Proof.
  intros H Hx. unfold is_byte. split; [auto|]. destruct (Z.eq_dec x 0) as [-> |N]; [lia|].
  assert (Z.log2 x < 8).
  { destruct (Z.lt_ge_cases (Z.log2 x) 8); auto. exfalso.
    specialize (H (Z.log2 x) H0). rewrite Z.bit_log2 in H by lia. discriminate. }
  change 256 with (2 ^ 8). apply Z.log2_lt_pow2; lia.
Qed.
Lemma byte_high x n : is_byte x -> 8 <= n -> Z.testbit x n = false.
Proof.
  unfold is_byte. intros Hx Hn. destruct (Z.eq_dec x 0) as [-> |]; [apply Z.bits_0|].
  apply Z.bits_above_log2; [lia|]. apply Z.lt_le_trans with 8; [|lia]. apply Z.log2_lt_pow2; lia.
Qed.

Lemma bitwise_land : bitwise Z.land andb.
Proof.
  split; [intros; apply Z.land_spec|]. split; [|reflexivity]. intros x y Hx Hy. apply byte_range.
  - intros n Hn. rewrite Z.land_spec, (byte_high x) by auto. reflexivity.
  - apply Z.land_nonneg. left. apply Hx.
Qed.
Lemma bitwise_lor : bitwise Z.lor orb.
Proof.
  split; [intros; apply Z.lor_spec|]. split; [|reflexivity]. intros x y Hx Hy. apply byte_range.
  - intros n Hn. rewrite Z.lor_spec, (byte_high x), (byte_high y) by auto. reflexivity.
  - apply Z.lor_nonneg. split; [apply Hx|apply Hy].
Qed.
Lemma bitwise_ldiff : bitwise Z.ldiff (fun a b => a && negb b).
Proof.
  split; [intros; apply Z.ldiff_spec|]. split; [|reflexivity]. intros x y Hx Hy. apply byte_range.
  - intros n Hn. rewrite Z.ldiff_spec, (byte_high x) by auto. reflexivity.
  - apply Z.ldiff_nonneg. left. apply Hx.
Qed.

Lemma bitwise_step op f x y a b : bitwise op f -> is_byte a -> is_byte b ->
  op (256 * x + a) (256 * y + b) = 256 * op x y + op a b.
Proof.
  intros (S & B & _) Ha Hb. apply Z.bits_inj'. intros n Hn.
  rewrite S by auto. rewrite !testbit_byte by auto. destruct (n <? 8) eqn:E; rewrite S by lia; reflexivity.
Qed.

Lemma zip_with_snoc f l m x y : length l = length m ->
  zip_with f (l ++ [x]) (m ++ [y]) = zip_with f l m ++ [f x y].
Proof.
  revert m. induction l as [|a l IH]; destruct m as [|b m]; cbn; intros H; try discriminate; auto.
  rewrite IH by lia. reflexivity.
Qed.

Lemma zip_with_length f l m : length (zip_with f l m) = length l.
Proof. revert m. induction l; destruct m; cbn; auto. Qed.

Lemma be_zip op f l : forall m, bitwise op f -> length l = length m -> Forall is_byte l -> Forall is_byte m ->
  be (zip_with op l m) = op (be l) (be m) /\ Forall is_byte (zip_with op l m).
Proof.
  induction l as [|x l IH] using rev_ind; intros m BW L Fl Fm.
  - destruct m; [|discriminate]. cbn. destruct BW as (_ & _ & Z0). auto.
  - destruct m as [|y m _] using rev_ind; [rewrite app_length in L; cbn in L; lia|].
    rewrite !app_length in L. cbn [length] in L.
    apply Forall_app in Fl. apply Forall_app in Fm. destruct Fl as [Fl Fx], Fm as [Fm Fy].
    inversion Fx as [|? ? Hx _]; inversion Fy as [|? ? Hy _]; subst.
    rewrite zip_with_snoc by lia. rewrite !be_snoc.
    destruct (IH m BW ltac:(lia) Fl Fm) as [IH1 IH2].
    split; [rewrite IH1; symmetry; eapply bitwise_step; eauto|].
    apply Forall_app. split; [exact IH2|]. constructor; [|constructor].
    destruct BW as (_ & B & _). auto.
Qed.

Lemma be_inj l : forall m, length l = length m -> Forall is_byte l -> Forall is_byte m ->
  be l = be m -> l = m.
Proof.
  induction l as [|x l IH] using rev_ind; intros m L Fl Fm E.
  - destruct m; [auto|discriminate].
  - destruct m as [|y m _] using rev_ind; [rewrite app_length in L; cbn in L; lia|].
    rewrite !app_length in L. cbn [length] in L.
    apply Forall_app in Fl. apply Forall_app in Fm. destruct Fl as [Fl Fx], Fm as [Fm Fy].
    inversion Fx as [|? ? Hx _]; inversion Fy as [|? ? Hy _]; subst.
    rewrite !be_snoc in E. unfold is_byte in Hx, Hy.
    assert (x = y) as -> by lia. f_equal. apply IH; auto; lia.
Qed.

Lemma be_zero_iff l : Forall is_byte l -> (be l = 0 <-> l = repeat 0 (length l)).
Proof.
  intros F. split.
  - intros E. apply be_inj; auto; [rewrite repeat_length; auto| |rewrite be_repeat0; auto].
    apply Forall_forall. intros x Hx. apply repeat_spec in Hx. subst. unfold is_byte; lia.
  - intros ->. apply be_repeat0.
Qed.

Lemma repeat_byte x n : is_byte x -> Forall is_byte (repeat x n).
Proof. intros. apply Forall_forall. intros y Hy. apply repeat_spec in Hy. subst. auto. Qed.

Lemma bitwise_and_spec a : forall b, length a = length b -> Forall is_byte a -> Forall is_byte b ->
  addr6_bitwise_and a b = negb (Z.land (be a) (be b) =? 0).
Proof.
  intros b L Fa Fb. destruct (be_zip Z.land andb a b bitwise_land L Fa Fb) as [<- Fz].
  assert (G : addr6_bitwise_and a b = true <-> be (zip_with Z.land a b) <> 0).
  { rewrite be_zero_iff by auto. clear Fz. revert b L Fa Fb.
    induction a as [|x a IH]; destruct b as [|y b]; intros L Fa Fb; try discriminate.
    - cbn. split; [discriminate|congruence].
    - inversion Fa; inversion Fb; subst. cbn [addr6_bitwise_and zip_with length repeat].
      destruct (Z.eqb_spec (Z.land x y) 0) as [E|N]; cbn [negb].
      + rewrite IH by (auto; cbn in L; lia). rewrite E. split; intros H K; apply H.
        * injection K. auto.
        * f_equal. auto.
      + split; [intros _ K; injection K; intros; contradiction|auto]. }
  destruct (Z.eqb_spec (be (zip_with Z.land a b)) 0) as [E|N]; cbn [negb].
  - destruct (addr6_bitwise_and a b); [|auto]. exfalso. apply G; auto.
  - apply G. exact N.
Qed.

Lemma covered_loop_spec son : forall m f, length son = length m -> length son = length f ->
  Forall is_byte son -> Forall is_byte m -> Forall is_byte f ->
  (covered_loop son m f = true <-> Z.ldiff (be son) (be m) = be f).
Proof.
  intros m f L1 L2 Fs Fm Ff.
  destruct (be_zip Z.ldiff _ son m bitwise_ldiff L1 Fs Fm) as [<- Fz].
  assert (G : covered_loop son m f = true <-> zip_with Z.ldiff son m = f).
  { clear Fz Fs Fm Ff. revert m f L1 L2. induction son as [|x son IH]; destruct m as [|y m]; intros f L1 L2;
      try discriminate; destruct f as [|z f]; try discriminate; cbn [covered_loop zip_with].
    - tauto.
    - destruct (Z.eqb_spec (Z.ldiff x y) z) as [E|N]; cbn [negb].
      + rewrite IH by (cbn in *; lia). rewrite E. split; [intros ->; auto|intros K; injection K; auto].
      + split; [discriminate|intros K; injection K; intros; contradiction]. }
  rewrite G. split; [intros ->; auto|]. intros E. apply be_inj; auto. rewrite zip_with_length. auto.
Qed.

(** ** Masks *)
Lemma ones_eq k : 0 <= k -> 2 ^ k - 1 = Z.ones k.
Proof. intros. rewrite Z.ones_equiv. lia. Qed.

Lemma u32_suffix_mask_spec len : 0 <= len <= 32 -> u32_suffix_mask len = 2 ^ (32 - len) - 1.
Proof.
  intros H. assert (A : forallb (fun n => u32_suffix_mask (Z.of_nat n) =? 2 ^ (32 - Z.of_nat n) - 1) (seq 0 33) = true)
    by (vm_compute; reflexivity).
  rewrite forallb_forall in A. specialize (A (Z.to_nat len)). rewrite Z2Nat.id in A by lia.
  apply Z.eqb_eq, A. apply in_seq. lia.
Qed.

Definition mask6 (len : Z) : list Z :=
  if len <? 32 then u32_bytes (u32_suffix_mask len) ++ repeat 255 12
  else if len <? 64 then repeat 0 4 ++ u32_bytes (u32_suffix_mask (len - 32)) ++ repeat 255 8
  else if len <? 96 then repeat 0 8 ++ u32_bytes (u32_suffix_mask (len - 64)) ++ repeat 255 4
  else repeat 0 12 ++ u32_bytes (u32_suffix_mask (len - 96)).

Lemma mask6_spec len : 0 <= len <= 128 ->
  be (mask6 len) = 2 ^ (128 - len) - 1 /\ Forall is_byte (mask6 len) /\ length (mask6 len) = 16%nat.
Proof.
  intros H.
  assert (A : forallb (fun n => (be (mask6 (Z.of_nat n)) =? 2 ^ (128 - Z.of_nat n) - 1) &&
       forallb (fun b => (0 <=? b) && (b <? 256)) (mask6 (Z.of_nat n)) &&
       (length (mask6 (Z.of_nat n)) =? 16)%nat) (seq 0 129) = true)
    by (vm_compute; reflexivity).
  rewrite forallb_forall in A. specialize (A (Z.to_nat len)). rewrite Z2Nat.id in A by lia.
  rewrite !andb_true_iff in A. destruct A as [[A1 A2] A3]; [apply in_seq; lia|].
  split; [lia|]. split; [|apply Nat.eqb_eq; exact A3].
  apply Forall_forall. intros x Hx. rewrite forallb_forall in A2. specialize (A2 x Hx). unfold is_byte. lia.
Qed.

Lemma list16 (a : list Z) : length a = 16%nat -> exists x0 x1 x2 x3 x4 x5 x6 x7 x8 x9 x10 x11 x12 x13 x14 x15,
  a = [x0; x1; x2; x3; x4; x5; x6; x7; x8; x9; x10; x11; x12; x13; x14; x15].
Proof.
  intros H. do 16 (destruct a as [|? a]; [discriminate|]). destruct a; [|discriminate].
  do 16 eexists. reflexivity.
Qed.

Lemma lor255 x : is_byte x -> Z.lor x 255 = 255.
Proof.
  intros H. apply Z.bits_inj'. intros n Hn. rewrite Z.lor_spec.
  change 255 with (Z.ones 8). rewrite Z.testbit_ones_nonneg by lia.
  destruct (Z.ltb_spec n 8); [apply orb_true_r|]. rewrite byte_high by auto. reflexivity.
Qed.

Lemma suffix_mask6_zip len a : 0 <= len <= 128 -> length a = 16%nat -> Forall is_byte a ->
  ipv6_suffix_mask len a = zip_with Z.lor a (mask6 len).
Proof.
  intros H L F. destruct (list16 a L) as (x0&x1&x2&x3&x4&x5&x6&x7&x8&x9&x10&x11&x12&x13&x14&x15&->).
  assert (FB : forall x, In x [x0;x1;x2;x3;x4;x5;x6;x7;x8;x9;x10;x11;x12;x13;x14;x15] -> Z.lor x 255 = 255).
  { intros x Hx. rewrite Forall_forall in F. apply lor255. auto. }
  unfold ipv6_suffix_mask, mask6, addr6_or_quadrant, addr6_set_quadrant, quadrant_edit. cbv zeta.
  change (u32_bytes 4294967295) with [255; 255; 255; 255].
  generalize (u32_suffix_mask len) (u32_suffix_mask (len - 32)) (u32_suffix_mask (len - 64)) (u32_suffix_mask (len - 96)).
  intros m0 m1 m2 m3. unfold u32_bytes.
  destruct (len <? 32); [|destruct (len <? 64); [|destruct (len <? 96)]];
    cbn [Nat.mul Nat.add firstn skipn app zip_with repeat]; rewrite ?Z.lor_0_r;
    rewrite ?FB by (cbn; tauto); reflexivity.
Qed.

Lemma suffix_mask6_zero len : 0 <= len <= 128 -> ipv6_suffix_mask len (repeat 0 16) = mask6 len.
Proof.
  intros H. rewrite suffix_mask6_zip by (auto; apply repeat_byte; unfold is_byte; lia).
  destruct (mask6_spec len H) as (_ & _ & L).
  destruct (list16 _ L) as (x0&x1&x2&x3&x4&x5&x6&x7&x8&x9&x10&x11&x12&x13&x14&x15&->). reflexivity.
Qed.

Lemma suffix_mask6_be len a : 0 <= len <= 128 -> length a = 16%nat -> Forall is_byte a ->
  be (ipv6_suffix_mask len a) = Z.lor (be a) (2 ^ (128 - len) - 1) /\
  Forall is_byte (ipv6_suffix_mask len a) /\ length (ipv6_suffix_mask len a) = 16%nat.
Proof.
  intros H L F. rewrite suffix_mask6_zip by auto.
  destruct (mask6_spec len H) as (E & Fm & Lm).
  destruct (be_zip Z.lor orb a (mask6 len) bitwise_lor ltac:(lia) F Fm) as [-> Fz].
  rewrite E, zip_with_length. auto.
Qed.

Lemma land_mask x k : 0 <= k -> Z.land x (2 ^ k - 1) = x mod 2 ^ k.
Proof. intros. rewrite ones_eq, Z.land_ones by auto. reflexivity. Qed.
Lemma ldiff_mask x k : 0 <= k -> Z.ldiff x (2 ^ k - 1) = x / 2 ^ k * 2 ^ k.
Proof.
  intros. rewrite ones_eq, Z.ldiff_ones_r by auto.
  rewrite Z.shiftr_div_pow2, Z.shiftl_mul_pow2 by auto. reflexivity.
Qed.
Lemma lor_mask x k : 0 <= k -> x mod 2 ^ k = 0 -> Z.lor x (2 ^ k - 1) = x + 2 ^ k - 1.
Proof.
  intros Hk H. pose proof (Z.pow_pos_nonneg 2 k ltac:(lia) Hk).
  assert (E : x = Z.shiftl (x / 2 ^ k) k).
  { rewrite Z.shiftl_mul_pow2 by auto. pose proof (Z.div_mod x (2 ^ k) ltac:(lia)). lia. }
  rewrite E at 1. rewrite lor_shift_add by lia. rewrite Z.shiftl_mul_pow2 in E by auto. lia.
Qed.

(** ** C17 *)
Lemma get_quadrant0 x0 x1 x2 x3 : Forall is_byte [x0; x1; x2; x3] ->
  ntohl [x0; x1; x2; x3] = be [x0; x1; x2; x3].
Proof.
  intros F. rewrite Forall_forall in F. unfold ntohl, addr6_get_quadrant. cbn [Nat.mul Nat.add nth].
  rewrite lor_be4 by (apply F; cbn; tauto). reflexivity.
Qed.

Lemma zero_padded_spec n buf : (length buf <= n)%nat -> Forall is_byte buf ->
  be (zero_padded n buf) = be buf * 2 ^ (8 * Z.of_nat n - 8 * Z.of_nat (length buf)) /\
  length (zero_padded n buf) = n /\ Forall is_byte (zero_padded n buf).
Proof.
  intros L F. unfold zero_padded. split; [|split].
  - rewrite be_app, be_repeat0, repeat_length, pow256, Z.add_0_r. f_equal. f_equal. lia.
  - rewrite app_length, repeat_length. lia.
  - apply Forall_app. split; [auto|]. apply repeat_byte. unfold is_byte; lia.
Qed.

Lemma list4 (a : list Z) : length a = 4%nat -> exists x0 x1 x2 x3, a = [x0; x1; x2; x3].
Proof. intros H. do 4 (destruct a as [|? a]; [discriminate|]). destruct a; [|discriminate]. eauto. Qed.

Lemma prefix4_decode_spec s : bit_string_ok s ->
  match prefix4_decode s with
  | Ok (addr, len) => denotes 32 s addr len
  | Err e => e = EINVAL /\ forall addr len, ~ denotes 32 s addr len
  | UB => False
  end.
Proof.
  intros F. unfold prefix4_decode, denotes, bs_size.
  destruct (Z.ltb_spec 4 (Z.of_nat (length (bs_buf s)))); [split; [auto|]; intros a l D; lia|].
  destruct (Z.ltb_spec (bs_unused s) 0); [split; [auto|]; intros a l D; lia|].
  destruct (Z.ltb_spec 7 (bs_unused s)); cbn [orb]; [split; [auto|]; intros a l D; lia|].
  cbv zeta. set (len := 8 * Z.of_nat (length (bs_buf s)) - bs_unused s).
  destruct (Z.ltb_spec len 0); cbn [orb]; [split; [auto|]; intros a l D; lia|].
  destruct (Z.ltb_spec 32 len); [lia|].
  destruct (zero_padded_spec 4 (bs_buf s) ltac:(lia) F) as (E & L & Fz).
  destruct (list4 _ L) as (x0&x1&x2&x3&Ex). rewrite Ex in *. rewrite get_quadrant0 by auto.
  rewrite u32_suffix_mask_spec, land_mask by lia. rewrite E.
  change (8 * Z.of_nat 4) with 32.
  destruct (Z.eqb_spec ((be (bs_buf s) * 2 ^ (32 - 8 * Z.of_nat (length (bs_buf s)))) mod 2 ^ (32 - len)) 0) as [M|M];
    cbn [negb].
  - repeat split; auto; lia.
  - split; [auto|]. intros a l (D1 & D2 & D3 & D4 & D5 & D6). apply M. fold len in D3. subst. exact D6.
Qed.

Lemma prefix6_decode_spec s : bit_string_ok s ->
  match prefix6_decode s with
  | Ok (addr, len) => denotes 128 s (be addr) len /\ length addr = 16%nat /\ Forall is_byte addr
  | Err e => e = EINVAL /\ forall addr len, ~ denotes 128 s addr len
  | UB => False
  end.
Proof.
  intros F. unfold prefix6_decode, denotes, bs_size.
  destruct (Z.ltb_spec 16 (Z.of_nat (length (bs_buf s)))); [split; [auto|]; intros a l D; lia|].
  destruct (Z.ltb_spec (bs_unused s) 0); [split; [auto|]; intros a l D; lia|].
  destruct (Z.ltb_spec 7 (bs_unused s)); cbn [orb]; [split; [auto|]; intros a l D; lia|].
  cbv zeta. set (len := 8 * Z.of_nat (length (bs_buf s)) - bs_unused s).
  destruct (Z.ltb_spec len 0); cbn [orb]; [split; [auto|]; intros a l D; lia|].
  destruct (Z.ltb_spec 128 len); [lia|].
  destruct (zero_padded_spec 16 (bs_buf s) ltac:(lia) F) as (E & L & Fz).
  rewrite suffix_mask6_zero by lia. destruct (mask6_spec len ltac:(lia)) as (Em & Fm & Lm).
  rewrite bitwise_and_spec by (auto; lia). rewrite Em, land_mask by lia. rewrite E.
  change (8 * Z.of_nat 16) with 128.
  destruct (Z.eqb_spec ((be (bs_buf s) * 2 ^ (128 - 8 * Z.of_nat (length (bs_buf s)))) mod 2 ^ (128 - len)) 0) as [M|M];
    cbn [negb].
  - rewrite E. repeat split; auto; lia.
  - split; [auto|]. intros a l (D1 & D2 & D3 & D4 & D5 & D6). apply M. fold len in D3. subst. exact D6.
Qed.

(** ** The encoding check, on lists of bit pairs (most significant first) *)
Fixpoint e2 (l : list (bool * bool)) : bool :=
  match l with [] => true | (x, y) :: t => if x || negb y then false else e2 t end.
Fixpoint e1 (l : list (bool * bool)) : bool :=
  match l with [] => true | (x, y) :: t => if negb (Bool.eqb x y) then e2 l else e1 t end.
Definition vb (l : list bool) : Z := fold_left (fun a b => 2 * a + Z.b2z b) l 0.
Fixpoint pairs (n : nat) (a b : Z) : list (bool * bool) :=
  match n with O => [] | S k => (Z.testbit a (Z.of_nat k), Z.testbit b (Z.of_nat k)) :: pairs k a b end.

Lemma vb_acc l : forall a, fold_left (fun a b => 2 * a + Z.b2z b) l a = a * 2 ^ Z.of_nat (length l) + vb l.
Proof.
  unfold vb. induction l as [|b l IH]; intros a; cbn [fold_left length].
  - rewrite Z.pow_0_r. lia.
  - rewrite (IH (2 * a + Z.b2z b)), (IH (2 * 0 + Z.b2z b)).
    rewrite Nat2Z.inj_succ, Z.pow_succ_r by lia. ring.
Qed.
Lemma vb_cons b l : vb (b :: l) = Z.b2z b * 2 ^ Z.of_nat (length l) + vb l.
Proof. unfold vb at 1. cbn [fold_left]. rewrite vb_acc. lia. Qed.
Lemma vb_app l m : vb (l ++ m) = vb l * 2 ^ Z.of_nat (length m) + vb m.
Proof. unfold vb at 1. rewrite fold_left_app. rewrite vb_acc. reflexivity. Qed.
Lemma vb_bound l : 0 <= vb l < 2 ^ Z.of_nat (length l).
Proof.
  induction l as [|b l IH]; [cbn; lia|]. rewrite vb_cons. cbn [length].
  rewrite Nat2Z.inj_succ, Z.pow_succ_r by lia. destruct b; cbn [Z.b2z]; lia.
Qed.

Lemma e2_spec l : e2 l = true <->
  vb (map fst l) = 0 /\ vb (map snd l) = 2 ^ Z.of_nat (length l) - 1.
Proof.
  induction l as [|[x y] t IH]; cbn [e2 map fst snd length].
  - cbn. split; auto.
  - rewrite !vb_cons, !map_length.
    pose proof (vb_bound (map fst t)) as B1. pose proof (vb_bound (map snd t)) as B2.
    rewrite map_length in B1, B2. rewrite Nat2Z.inj_succ, Z.pow_succ_r by lia.
    destruct x, y; cbn [orb negb Z.b2z]; try (split; [discriminate|lia]).
    rewrite IH. lia.
Qed.

Lemma pow_split a b : 0 <= a <= b -> 2 ^ b = 2 ^ (b - a) * 2 ^ a.
Proof. intros. rewrite <- Z.pow_add_r by lia. f_equal. lia. Qed.

Lemma e1_spec l : e1 l = true <->
  exists k, 0 <= k <= Z.of_nat (length l) /\ vb (map fst l) mod 2 ^ k = 0 /\
    vb (map snd l) = vb (map fst l) + 2 ^ k - 1.
Proof.
  induction l as [|[x y] t IH].
  - cbn. split; [|auto]. intros _. exists 0. cbn. lia.
  - pose proof (vb_bound (map fst t)) as B1. pose proof (vb_bound (map snd t)) as B2.
    rewrite map_length in B1, B2.
    set (A := vb (map fst t)) in *. set (B := vb (map snd t)) in *. set (m := Z.of_nat (length t)) in *.
    assert (Hm : 0 <= m) by (unfold m; lia).
    assert (P : 0 < 2 ^ m) by (apply Z.pow_pos_nonneg; lia).
    cbn [e1]. destruct (Bool.eqb x y) eqn:E; cbn [negb].
    + apply eqb_prop in E. subst y. rewrite IH. cbn [map fst snd length].
      rewrite !vb_cons, !map_length. fold m A B.
      assert (DIV : forall k, 0 <= k <= m -> (Z.b2z x * 2 ^ m + A) mod 2 ^ k = A mod 2 ^ k).
      { intros k Hk. rewrite (pow_split k m) by lia. rewrite Z.mul_assoc, Z.add_comm.
        apply Z_mod_plus_full. }
      split.
      * intros (k & Hk & M & Q). exists k. rewrite DIV by lia. split; [lia|]. split; [auto|]. lia.
      * intros (k & Hk & M & Q). destruct (Z.eq_dec k (Z.of_nat (S (length t)))) as [-> |N].
        -- exfalso. rewrite Nat2Z.inj_succ in *. fold m in Q, M. rewrite Z.pow_succ_r in Q, M by lia.
           destruct x; cbn [Z.b2z] in *.
           ++ rewrite Z.mod_small in M by lia. lia.
           ++ lia.
        -- assert (Hk' : 0 <= k <= m) by (unfold m in *; lia). exists k. rewrite DIV in M by lia.
           split; [lia|]. split; [auto|]. lia.
    + rewrite e2_spec. cbn [map fst snd length]. rewrite !vb_cons, !map_length. fold m A B.
      rewrite Nat2Z.inj_succ. fold m. rewrite Z.pow_succ_r by lia. split.
      * intros [E1 E2]. exists (Z.succ m). rewrite Z.pow_succ_r by lia. split; [lia|].
        rewrite E1, E2. split; [apply Z.mod_0_l; lia|lia].
      * intros (k & Hk & M & Q). destruct (Z.eq_dec k (Z.succ m)) as [-> |N].
        -- rewrite Z.pow_succ_r in Q, M by lia.
           destruct x, y; cbn [Z.b2z] in *; try discriminate; try lia.
        -- exfalso. assert (Hk' : 0 <= k <= m) by lia.
           assert (PK : 0 < 2 ^ k) by (apply Z.pow_pos_nonneg; lia).
           pose proof (Z.div_mod (Z.b2z x * 2 ^ m + A) (2 ^ k) ltac:(lia)) as DM. rewrite M in DM.
           set (q := (Z.b2z x * 2 ^ m + A) / 2 ^ k) in *.
           rewrite (pow_split k m) in * by lia.
           assert (PMK : 0 < 2 ^ (m - k)) by (apply Z.pow_pos_nonneg; lia).
           destruct x, y; cbn [Z.b2z] in *; try discriminate.
           ++ nia.
           ++ assert (HQ : q < 2 ^ (m - k)) by nia.
              assert ((q + 1) * 2 ^ k <= 2 ^ (m - k) * 2 ^ k) by (apply Z.mul_le_mono_nonneg_r; lia).
              lia.
Qed.

Lemma land_mask_of v k : Z.land v (mask_of (S k)) = if Z.testbit v (Z.of_nat k) then mask_of (S k) else 0.
Proof.
  cbn [mask_of]. apply Z.bits_inj'. intros n Hn. rewrite Z.land_spec, Z.pow2_bits_eqb by lia.
  destruct (Z.eqb_spec (Z.of_nat k) n) as [<- |N].
  - destruct (Z.testbit v (Z.of_nat k)); [rewrite Z.pow2_bits_true by lia|rewrite Z.bits_0]; reflexivity.
  - rewrite andb_false_r. destruct (Z.testbit v (Z.of_nat k));
      [rewrite Z.pow2_bits_false by lia|rewrite Z.bits_0]; reflexivity.
Qed.
Lemma mask_of_pos k : mask_of (S k) <> 0.
Proof. cbn [mask_of]. pose proof (Z.pow_pos_nonneg 2 (Z.of_nat k)). lia. Qed.
Lemma land_mask_zero v k : (Z.land v (mask_of (S k)) =? 0) = negb (Z.testbit v (Z.of_nat k)).
Proof.
  rewrite land_mask_of. pose proof (mask_of_pos k). destruct (Z.testbit v (Z.of_nat k)); cbn [negb].
  - apply Z.eqb_neq. auto.
  - reflexivity.
Qed.
Lemma land_mask_eq a b k : (Z.land a (mask_of (S k)) =? Z.land b (mask_of (S k)))
  = Bool.eqb (Z.testbit a (Z.of_nat k)) (Z.testbit b (Z.of_nat k)).
Proof.
  rewrite !land_mask_of. pose proof (mask_of_pos k).
  destruct (Z.testbit a (Z.of_nat k)), (Z.testbit b (Z.of_nat k)); cbn [Bool.eqb];
    try (apply Z.eqb_refl); apply Z.eqb_neq; auto.
Qed.

Lemma suffix_loop_e2 n a b : suffix_loop n a b = e2 (pairs n a b).
Proof.
  induction n as [|k IH]; [reflexivity|]. cbn [suffix_loop pairs e2].
  rewrite !land_mask_zero, negb_involutive. rewrite IH. reflexivity.
Qed.
Lemma encoding_loop4_e1 n a b : encoding_loop4 n a b = e1 (pairs n a b).
Proof.
  induction n as [|k IH]; [reflexivity|]. cbn [encoding_loop4]. rewrite land_mask_eq, IH.
  rewrite suffix_loop_e2. reflexivity.
Qed.

Lemma pairs_length n a b : length (pairs n a b) = n.
Proof. induction n; cbn; auto. Qed.
Lemma mod_pow_succ a k : a mod 2 ^ Z.of_nat (S k) =
  Z.b2z (Z.testbit a (Z.of_nat k)) * 2 ^ Z.of_nat k + a mod 2 ^ Z.of_nat k.
Proof.
  rewrite Nat2Z.inj_succ, Z.pow_succ_r by lia.
  rewrite (Z.mul_comm 2), Z.rem_mul_r by (pose proof (Z.pow_pos_nonneg 2 (Z.of_nat k)); lia).
  rewrite Z.testbit_spec' by lia. ring.
Qed.
Lemma pairs_vb n a b : vb (map fst (pairs n a b)) = a mod 2 ^ Z.of_nat n /\
  vb (map snd (pairs n a b)) = b mod 2 ^ Z.of_nat n.
Proof.
  induction n as [|k [IH1 IH2]].
  - cbn. rewrite !Z.mod_1_r. auto.
  - cbn [pairs map fst snd]. rewrite !vb_cons, !map_length, pairs_length, IH1, IH2, !mod_pow_succ. auto.
Qed.

(** ** One prefix *)
Lemma in_prefix_range W addr len x : 0 <= len <= W -> 0 <= addr < 2 ^ W ->
  (in_prefix W addr len x <->
   addr / 2 ^ (W - len) * 2 ^ (W - len) <= x <= addr / 2 ^ (W - len) * 2 ^ (W - len) + 2 ^ (W - len) - 1).
Proof.
  intros Hl Ha. unfold in_prefix. assert (P : 0 < 2 ^ (W - len)) by (apply Z.pow_pos_nonneg; lia).
  assert (P2 : 0 < 2 ^ len) by (apply Z.pow_pos_nonneg; lia).
  assert (EW : 2 ^ W = 2 ^ len * 2 ^ (W - len)) by (rewrite <- Z.pow_add_r by lia; f_equal; lia).
  set (K := 2 ^ (W - len)) in *. rewrite EW in *.
  assert (Q : 0 <= addr / K < 2 ^ len).
  { split; [apply Z.div_pos; lia|]. apply Z.div_lt_upper_bound; lia. }
  split.
  - intros [_ E]. pose proof (Z.div_mod x K ltac:(lia)). pose proof (Z.mod_pos_bound x K P). lia.
  - intros H. split; [nia|]. symmetry. apply (Z.div_unique x K (addr / K) (x - addr / K * K)); lia.
Qed.

Lemma one_prefix_iff W min max : 0 <= W -> 0 <= min <= max -> max < 2 ^ W ->
  (is_one_prefix W min max <-> exists k, 0 <= k <= W /\ min mod 2 ^ k = 0 /\ max = min + 2 ^ k - 1).
Proof.
  intros HW Hm HM. split.
  - intros (addr & len & Hl & H).
    assert (Hmin : in_prefix W addr len min) by (apply H; lia).
    set (a' := min / 2 ^ (W - len) * 2 ^ (W - len)).
    assert (P : 0 < 2 ^ (W - len)) by (apply Z.pow_pos_nonneg; lia).
    assert (IP : forall x, in_prefix W addr len x <-> in_prefix W min len x).
    { intros x. unfold in_prefix in *. destruct Hmin as [_ ->]. reflexivity. }
    assert (R : forall x, min <= x <= max <-> a' <= x <= a' + 2 ^ (W - len) - 1).
    { intros x. rewrite H, IP. apply in_prefix_range; lia. }
    exists (W - len). split; [lia|].
    assert (a' <= min) by (pose proof (Z.div_mod min (2 ^ (W - len)) ltac:(lia)); pose proof (Z.mod_pos_bound min (2 ^ (W - len)) P); unfold a'; lia).
    assert (min = a') by (pose proof (R a'); lia).
    assert (max = a' + 2 ^ (W - len) - 1) by (pose proof (R (a' + 2 ^ (W - len) - 1)); pose proof (R max); lia).
    split; [|lia]. rewrite H1. unfold a'. apply Z.mod_mul. lia.
  - intros (k & Hk & M & E). exists min, (W - k). split; [lia|]. intros x.
    rewrite in_prefix_range by lia. replace (W - (W - k)) with k by lia.
    assert (P : 0 < 2 ^ k) by (apply Z.pow_pos_nonneg; lia).
    pose proof (Z.div_mod min (2 ^ k) ltac:(lia)). lia.
Qed.

Lemma check_encoding4_spec min max : 0 <= min <= max -> max < 2 ^ 32 ->
  (check_encoding4 min max = Ok tt /\ ~ is_one_prefix 32 min max) \/
  (check_encoding4 min max = Err EINVAL /\ is_one_prefix 32 min max).
Proof.
  intros H1 H2. unfold check_encoding4. rewrite encoding_loop4_e1.
  pose proof (e1_spec (pairs 32 min max)) as S.
  destruct (pairs_vb 32 min max) as [E1 E2]. rewrite E1, E2, pairs_length in S.
  change (Z.of_nat 32) with 32 in S. rewrite !Z.mod_small in S by lia.
  rewrite one_prefix_iff by lia.
  destruct (e1 (pairs 32 min max)).
  - right. split; [reflexivity|]. apply S. reflexivity.
  - left. split; [reflexivity|]. intros K. apply S in K. discriminate.
Qed.

(** ** C18 *)
(** The last address of the prefix addr/len. *)
Lemma denotes_bounds W s addr len : bit_string_ok s -> denotes W s addr len ->
  0 <= len <= W /\ 0 <= addr < 2 ^ W /\ addr + 2 ^ (W - len) - 1 < 2 ^ W.
Proof.
  intros F (D1 & D2 & D3 & D4 & D5 & D6).
  assert (HL : 0 <= len <= W) by lia. split; [auto|].
  pose proof (be_bound _ F) as B. rewrite pow256 in B.
  assert (HA : 0 <= addr < 2 ^ W).
  { rewrite D5. rewrite (pow_split (W - 8 * Z.of_nat (length (bs_buf s))) W) by lia.
    replace (W - (W - 8 * Z.of_nat (length (bs_buf s)))) with (8 * Z.of_nat (length (bs_buf s))) by lia.
    assert (0 < 2 ^ (W - 8 * Z.of_nat (length (bs_buf s)))) by (apply Z.pow_pos_nonneg; lia). nia. }
  split; [auto|].
  assert (P : 0 < 2 ^ (W - len)) by (apply Z.pow_pos_nonneg; lia).
  assert (P2 : 0 < 2 ^ len) by (apply Z.pow_pos_nonneg; lia).
  rewrite (pow_split (W - len) W) in * by lia. replace (W - (W - len)) with len in * by lia.
  pose proof (Z.div_mod addr (2 ^ (W - len)) ltac:(lia)) as DM. rewrite D6 in DM.
  set (q := addr / 2 ^ (W - len)) in *.
  assert (HQ : q < 2 ^ len) by (apply (Z.mul_lt_mono_pos_r (2 ^ (W - len))); lia).
  assert ((q + 1) * 2 ^ (W - len) <= 2 ^ len * 2 ^ (W - len)) by (apply Z.mul_le_mono_nonneg_r; lia).
  lia.
Qed.

Lemma denotes_fun W s a l a' l' : denotes W s a l -> denotes W s a' l' -> a' = a /\ l' = l.
Proof. intros (_ & _ & E1 & _ & E2 & _) (_ & _ & E1' & _ & E2' & _). subst. auto. Qed.


Lemma range4_decode_spec lo hi : bit_string_ok lo -> bit_string_ok hi ->
  match range4_decode lo hi with
  | Ok (min, max) => range_denotes 32 lo hi min max /\ min <= max /\ ~ is_one_prefix 32 min max
  | Err e => e = EINVAL /\ forall min max, ~ (range_denotes 32 lo hi min max /\ min <= max /\
                                              ~ is_one_prefix 32 min max)
  | UB => False
  end.
Proof.
  intros Fl Fh. unfold range4_decode.
  pose proof (prefix4_decode_spec lo Fl) as SL. destruct (prefix4_decode lo) as [[a la]|e|]; cbn [bind].
  2:{ destruct SL as [-> N]. split; [auto|]. intros mn mx ((la & b & lb & D & _) & _). eapply N; eauto. }
  2:{ exact SL. }
  pose proof (prefix4_decode_spec hi Fh) as SH. destruct (prefix4_decode hi) as [[b lb]|e|]; cbn [bind].
  2:{ destruct SH as [-> N]. split; [auto|]. intros mn mx ((la' & b & lb & _ & D & _) & _). eapply N; eauto. }
  2:{ exact SH. }
  cbv zeta. destruct (denotes_bounds _ _ _ _ Fl SL) as (B1 & B2 & B3).
  destruct (denotes_bounds _ _ _ _ Fh SH) as (B4 & B5 & B6).
  assert (E : Z.lor b (u32_suffix_mask lb) = b + 2 ^ (32 - lb) - 1).
  { rewrite u32_suffix_mask_spec by lia. apply lor_mask; [lia|]. apply SH. }
  rewrite E. set (mx := b + 2 ^ (32 - lb) - 1) in *.
  assert (U : forall mn' mx', range_denotes 32 lo hi mn' mx' -> mn' = a /\ mx' = mx).
  { intros mn' mx' (la' & b' & lb' & D1 & D2 & ->).
    destruct (denotes_fun _ _ _ _ _ _ SL D1) as [-> ->].
    destruct (denotes_fun _ _ _ _ _ _ SH D2) as [-> ->]. auto. }
  assert (RD : range_denotes 32 lo hi a mx) by (exists la, b, lb; auto).
  unfold check_order4. destruct (Z.ltb_spec mx a); cbn [bind].
  { split; [auto|]. intros mn' mx' (D & L & _). destruct (U _ _ D) as [-> ->]. lia. }
  destruct (check_encoding4_spec a mx ltac:(lia) ltac:(lia)) as [(-> & N)|(-> & Y)]; cbn [bind].
  - auto.
  - split; [auto|]. intros mn' mx' (D & _ & N). destruct (U _ _ D) as [-> ->]. auto.
Qed.

(** IPv6 quadrants *)
Definition quads (a : list Z) (q0 q1 q2 q3 : Z) : Prop :=
  is_u32 q0 /\ is_u32 q1 /\ is_u32 q2 /\ is_u32 q3 /\
  addr6_get_quadrant a 0 = q0 /\ addr6_get_quadrant a 1 = q1 /\
  addr6_get_quadrant a 2 = q2 /\ addr6_get_quadrant a 3 = q3 /\
  be a = ((q0 * 4294967296 + q1) * 4294967296 + q2) * 4294967296 + q3.
Lemma quads_of a : length a = 16%nat -> Forall is_byte a -> exists q0 q1 q2 q3, quads a q0 q1 q2 q3.
Proof.
  intros L F. destruct (list16 a L) as (x0&x1&x2&x3&x4&x5&x6&x7&x8&x9&x10&x11&x12&x13&x14&x15&->).
  rewrite Forall_forall in F.
  assert (Q : forall a b c d, is_byte a -> is_byte b -> is_byte c -> is_byte d -> is_u32 (be [a; b; c; d])).
  { unfold is_byte, is_u32, UINT_MAX, be. cbn [fold_left]. intros. lia. }
  exists (be [x0;x1;x2;x3]), (be [x4;x5;x6;x7]), (be [x8;x9;x10;x11]), (be [x12;x13;x14;x15]).
  unfold quads, addr6_get_quadrant. cbn [Nat.mul Nat.add nth].
  rewrite !lor_be4 by (apply F; cbn; tauto).
  repeat (split; [try reflexivity; try (apply Q; apply F; cbn; tauto)|]).
  unfold be. cbn [fold_left]. ring.
Qed.

Lemma check_order6_spec a b : length a = 16%nat -> length b = 16%nat -> Forall is_byte a -> Forall is_byte b ->
  check_order6 a b = if be b <? be a then Err EINVAL else Ok tt.
Proof.
  intros La Lb Fa Fb. destruct (quads_of a La Fa) as (p0&p1&p2&p3&A0&A1&A2&A3&G0&G1&G2&G3&EA).
  destruct (quads_of b Lb Fb) as (q0&q1&q2&q3&B0&B1&B2&B3&H0&H1&H2&H3&EB).
  unfold check_order6. cbn [order_loop6]. rewrite G0, G1, G2, G3, H0, H1, H2, H3, EA, EB.
  unfold is_u32, UINT_MAX in *.
  repeat match goal with |- context[?x <? ?y] => destruct (Z.ltb_spec x y) end; try reflexivity; lia.
Qed.

Lemma first_diff_spec n a b : match first_diff n a b with
  | None => forall t, e1 (pairs n a b ++ t) = e1 t
  | Some m => forall t, e1 (pairs n a b ++ t) = e2 (pairs m a b ++ t)
  end.
Proof.
  induction n as [|k IH]; [intros t; reflexivity|]. cbn [first_diff]. rewrite land_mask_eq.
  destruct (Bool.eqb (Z.testbit a (Z.of_nat k)) (Z.testbit b (Z.of_nat k))) eqn:E; cbn [negb].
  - destruct (first_diff k a b); intros t; cbn [pairs app e1]; rewrite E; cbn [negb]; apply IH.
  - intros t. cbn [pairs app e1]. rewrite E. reflexivity.
Qed.
Lemma e2_app l m : e2 (l ++ m) = e2 l && e2 m.
Proof. induction l as [|[x y] l IH]; [reflexivity|]. cbn [app e2]. destruct (x || negb y); auto. Qed.

Fixpoint qpairs (n q : nat) (a b : list Z) : list (bool * bool) :=
  match n with O => [] | S k => pairs 32 (addr6_get_quadrant a q) (addr6_get_quadrant b q) ++ qpairs k (S q) a b end.
Lemma encoding_tail6_e2 n : forall q m a b, encoding_tail6 (S n) q m a b =
  e2 (pairs m (addr6_get_quadrant a q) (addr6_get_quadrant b q) ++ qpairs n (S q) a b).
Proof.
  induction n as [|n IH]; intros q m a b; cbn [encoding_tail6 qpairs];
    rewrite e2_app, suffix_loop_e2; destruct (e2 (pairs m _ _)); auto.
  rewrite <- IH. reflexivity.
Qed.
Lemma encoding_loop6_e1 n : forall q a b, encoding_loop6 n q a b = e1 (qpairs n q a b).
Proof.
  induction n as [|n IH]; intros q a b; [reflexivity|]. cbn [encoding_loop6 qpairs].
  pose proof (first_diff_spec 32 (addr6_get_quadrant a q) (addr6_get_quadrant b q)) as FD.
  destruct (first_diff 32 (addr6_get_quadrant a q) (addr6_get_quadrant b q)) as [m|].
  - rewrite (FD (qpairs n (S q) a b)). apply encoding_tail6_e2.
  - rewrite (FD (qpairs n (S q) a b)). apply IH.
Qed.

Lemma vb_pairs_app l n a b : vb (map fst (pairs n a b ++ l)) =
   a mod 2 ^ Z.of_nat n * 2 ^ Z.of_nat (length l) + vb (map fst l) /\
   vb (map snd (pairs n a b ++ l)) = b mod 2 ^ Z.of_nat n * 2 ^ Z.of_nat (length l) + vb (map snd l).
Proof.
  rewrite !map_app, !vb_app, !map_length. destruct (pairs_vb n a b) as [-> ->]. auto.
Qed.

Lemma qpairs_vb a b : length a = 16%nat -> length b = 16%nat -> Forall is_byte a -> Forall is_byte b ->
  vb (map fst (qpairs 4 0 a b)) = be a /\ vb (map snd (qpairs 4 0 a b)) = be b /\
  length (qpairs 4 0 a b) = 128%nat.
Proof.
  intros La Lb Fa Fb. destruct (quads_of a La Fa) as (p0&p1&p2&p3&A0&A1&A2&A3&G0&G1&G2&G3&EA).
  destruct (quads_of b Lb Fb) as (q0&q1&q2&q3&B0&B1&B2&B3&H0&H1&H2&H3&EB).
  unfold qpairs. rewrite G0, G1, G2, G3, H0, H1, H2, H3.
  assert (M : forall x, is_u32 x -> x mod 2 ^ Z.of_nat 32 = x).
  { intros x Hx. apply Z.mod_small. unfold is_u32, UINT_MAX in Hx. change (2 ^ Z.of_nat 32) with 4294967296. lia. }
  split; [|split].
  - rewrite !(proj1 (vb_pairs_app _ _ _ _)). rewrite !M by auto. rewrite !app_length, !pairs_length.
    cbn [map length vb fold_left]. rewrite EA.
    change (2 ^ Z.of_nat (32 + (32 + (32 + 0)))) with (2 ^ 96).
    change (2 ^ Z.of_nat (32 + (32 + 0))) with (2 ^ 64).
    change (2 ^ Z.of_nat (32 + 0)) with (2 ^ 32). change (2 ^ Z.of_nat 0) with 1. unfold vb. cbn [fold_left]. ring.
  - rewrite !(proj2 (vb_pairs_app _ _ _ _)). rewrite !M by auto. rewrite !app_length, !pairs_length.
    cbn [map length vb fold_left]. rewrite EB.
    change (2 ^ Z.of_nat (32 + (32 + (32 + 0)))) with (2 ^ 96).
    change (2 ^ Z.of_nat (32 + (32 + 0))) with (2 ^ 64).
    change (2 ^ Z.of_nat (32 + 0)) with (2 ^ 32). change (2 ^ Z.of_nat 0) with 1. unfold vb. cbn [fold_left]. ring.
  - rewrite !app_length, !pairs_length. reflexivity.
Qed.

Lemma check_encoding6_spec min max : length min = 16%nat -> length max = 16%nat ->
  Forall is_byte min -> Forall is_byte max -> be min <= be max ->
  (check_encoding6 min max = Ok tt /\ ~ is_one_prefix 128 (be min) (be max)) \/
  (check_encoding6 min max = Err EINVAL /\ is_one_prefix 128 (be min) (be max)).
Proof.
  intros L1 L2 F1 F2 H. unfold check_encoding6. rewrite encoding_loop6_e1.
  pose proof (e1_spec (qpairs 4 0 min max)) as S.
  destruct (qpairs_vb min max L1 L2 F1 F2) as (E1 & E2 & E3). rewrite E1, E2, E3 in S.
  change (Z.of_nat 128) with 128 in S.
  pose proof (be_bound _ F1) as B1. pose proof (be_bound _ F2) as B2. rewrite pow256, L1 in B1.
  rewrite pow256, L2 in B2. change (8 * Z.of_nat 16) with 128 in *.
  rewrite one_prefix_iff by lia.
  destruct (e1 (qpairs 4 0 min max)).
  - right. split; [reflexivity|]. apply S. reflexivity.
  - left. split; [reflexivity|]. intros K. apply S in K. discriminate.
Qed.

Lemma range6_decode_spec lo hi : bit_string_ok lo -> bit_string_ok hi ->
  match range6_decode lo hi with
  | Ok (mn, mx) => range_denotes 128 lo hi (be mn) (be mx) /\ be mn <= be mx /\
       ~ is_one_prefix 128 (be mn) (be mx) /\
       length mn = 16%nat /\ length mx = 16%nat /\ Forall is_byte mn /\ Forall is_byte mx
  | Err e => e = EINVAL /\ forall min max, ~ (range_denotes 128 lo hi min max /\ min <= max /\
                                              ~ is_one_prefix 128 min max)
  | UB => False
  end.
Proof.
  intros Fl Fh. unfold range6_decode.
  pose proof (prefix6_decode_spec lo Fl) as SL. destruct (prefix6_decode lo) as [[a la]|e|]; cbn [bind].
  2:{ destruct SL as [-> N]. split; [auto|]. intros mn mx ((la & b & lb & D & _) & _). eapply N; eauto. }
  2:{ exact SL. }
  pose proof (prefix6_decode_spec hi Fh) as SH. destruct (prefix6_decode hi) as [[b lb]|e|]; cbn [bind].
  2:{ destruct SH as [-> N]. split; [auto|]. intros mn mx ((la' & b & lb & _ & D & _) & _). eapply N; eauto. }
  2:{ exact SH. }
  destruct SL as (SL & La & Fa). destruct SH as (SH & Lb & Fb).
  cbv zeta. destruct (denotes_bounds _ _ _ _ Fl SL) as (B1 & B2 & B3).
  destruct (denotes_bounds _ _ _ _ Fh SH) as (B4 & B5 & B6).
  destruct (suffix_mask6_be lb b ltac:(lia) Lb Fb) as (E & Fm & Lm).
  rewrite lor_mask in E by (try lia; apply SH).
  set (hi6 := ipv6_suffix_mask lb b) in *.
  assert (U : forall mn' mx', range_denotes 128 lo hi mn' mx' -> mn' = be a /\ mx' = be hi6).
  { intros mn' mx' (la' & b' & lb' & D1 & D2 & ->).
    destruct (denotes_fun _ _ _ _ _ _ SL D1) as [-> ->].
    destruct (denotes_fun _ _ _ _ _ _ SH D2) as [-> ->]. auto. }
  assert (RD : range_denotes 128 lo hi (be a) (be hi6)) by (exists la, (be b), lb; auto).
  rewrite check_order6_spec by auto. destruct (Z.ltb_spec (be hi6) (be a)); cbn [bind].
  { split; [auto|]. intros mn' mx' (D & L & _). destruct (U _ _ D) as [-> ->]. lia. }
  destruct (check_encoding6_spec a hi6 La Lm Fa Fm ltac:(lia)) as [(-> & N)|(-> & Y)]; cbn [bind].
  - repeat split; auto.
  - split; [auto|]. intros mn' mx' (D & _ & N). destruct (U _ _ D) as [-> ->]. auto.
Qed.

(** ** C19 *)
Lemma to_bytes_be_bytes n v : to_bytes n v = be_bytes n v.
Proof.
  induction n; [reflexivity|]. cbn [to_bytes be_bytes]. rewrite IHn. f_equal.
  change 255 with (2 ^ 8 - 1). rewrite land_mask by lia. reflexivity.
Qed.
Lemma be_to_bytes v : 0 <= v < 2 ^ 128 -> be (to_bytes 16 v) = v /\
  Forall is_byte (to_bytes 16 v) /\ length (to_bytes 16 v) = 16%nat.
Proof.
  intros H. rewrite to_bytes_be_bytes. split; [|split; [|reflexivity]].
  - rewrite be_be_bytes. apply Z.mod_small. exact H.
  - assert (G : forall n, Forall is_byte (be_bytes n v)).
    { induction n; cbn [be_bytes]; constructor; auto. unfold is_byte. apply Z.mod_pos_bound. lia. }
    apply G.
Qed.

Lemma cov_inclusion W A la B lb :
  0 <= la <= W -> 0 <= lb <= W -> 0 <= A < 2 ^ W -> 0 <= B < 2 ^ W ->
  A mod 2 ^ (W - la) = 0 -> B mod 2 ^ (W - lb) = 0 ->
  (B / 2 ^ (W - la) * 2 ^ (W - la) = A /\ la <= lb <->
   forall x, in_prefix W B lb x -> in_prefix W A la x).
Proof.
  intros Hla Hlb HA HB MA MB.
  assert (PA : 0 < 2 ^ (W - la)) by (apply Z.pow_pos_nonneg; lia).
  assert (PB : 0 < 2 ^ (W - lb)) by (apply Z.pow_pos_nonneg; lia).
  assert (EA : A = A / 2 ^ (W - la) * 2 ^ (W - la)) by (pose proof (Z.div_mod A (2 ^ (W - la)) ltac:(lia)); lia).
  assert (EB : B = B / 2 ^ (W - lb) * 2 ^ (W - lb)) by (pose proof (Z.div_mod B (2 ^ (W - lb)) ltac:(lia)); lia).
  split.
  - intros [E L] x [Hx Hq]. split; [auto|].
    assert (D : forall y, y / 2 ^ (W - la) = y / 2 ^ (W - lb) / 2 ^ (lb - la)).
    { intros y. rewrite Z.div_div by (try (apply Z.pow_nonzero; lia); lia).
      rewrite <- Z.pow_add_r by lia. f_equal. f_equal. lia. }
    rewrite D, Hq, <- D. rewrite <- E. rewrite Z.div_mul by lia. reflexivity.
  - intros H.
    assert (HB0 : in_prefix W A la B) by (apply H; split; [lia|reflexivity]).
    destruct HB0 as [_ Q0]. split; [rewrite Q0; lia|].
    destruct (Z.le_gt_cases la lb) as [|G]; [auto|]. exfalso.
    assert (Hx : in_prefix W B lb (B + 2 ^ (W - lb) - 1)).
    { apply in_prefix_range; lia. }
    destruct (H _ Hx) as [_ Q1]. rewrite <- Q0 in Q1.
    assert (P2 : 2 * 2 ^ (W - la) <= 2 ^ (W - lb)).
    { rewrite <- Z.pow_succ_r by lia. apply Z.pow_le_mono_r; lia. }
    pose proof (Z.div_mod (B + 2 ^ (W - lb) - 1) (2 ^ (W - la)) ltac:(lia)).
    pose proof (Z.div_mod B (2 ^ (W - la)) ltac:(lia)).
    pose proof (Z.mod_pos_bound (B + 2 ^ (W - lb) - 1) (2 ^ (W - la)) PA).
    pose proof (Z.mod_pos_bound B (2 ^ (W - la)) PA).
    rewrite Q1 in *. lia.
Qed.

Lemma vrp_prefix_cov_spec a b : canonical a -> canonical b ->
  (vrp_prefix_cov a b = true <->
   v_fam a = v_fam b /\
   forall x, in_prefix (width (v_fam b)) (v_addr b) (v_len b) x ->
             in_prefix (width (v_fam a)) (v_addr a) (v_len a) x).
Proof.
  intros (La & Aa & Ma) (Lb & Ab & Mb). unfold vrp_prefix_cov.
  destruct (v_fam a) eqn:FA, (v_fam b) eqn:FB; cbn [family_eqb negb width] in *;
    try (split; [discriminate|intros [? _]; discriminate]).
  - rewrite andb_true_iff, Z.leb_le. unfold ipv4_covered.
    rewrite u32_suffix_mask_spec, ldiff_mask, Z.eqb_eq by lia.
    rewrite (cov_inclusion 32 (v_addr a) (v_len a) (v_addr b) (v_len b)) by auto. tauto.
  - rewrite andb_true_iff, Z.leb_le. unfold ipv6_covered.
    rewrite suffix_mask6_zero by lia. destruct (mask6_spec (v_len a) ltac:(lia)) as (Em & Fm & Lm).
    destruct (be_to_bytes _ Aa) as (EA & FAb & LA). destruct (be_to_bytes _ Ab) as (EB & FBb & LB).
    rewrite covered_loop_spec by (auto; lia). rewrite Em, EA, EB, ldiff_mask by lia.
    rewrite (cov_inclusion 128 (v_addr a) (v_len a) (v_addr b) (v_len b)) by auto. tauto.
Qed.
