(** What inet_ntop() writes can be read back. *)
From Verif Require Import Base BaseLemmas Oid OidSpec OidProofs Ntop NtopSpec.
Notation length := List.length.

(** *** Splitting *)
Lemma split_ne c s : split c s <> [].
Proof. induction s as [|x s IH]; cbn; [discriminate|]. destruct (x =? c); [discriminate|]. destruct (split c s); discriminate. Qed.
Lemma split_app c a b : ~ In c a -> split c (a ++ c :: b) = a :: split c b.
Proof.
  induction a as [|x a IH]; intros H; cbn [app split]; [rewrite Z.eqb_refl; reflexivity|].
  destruct (Z.eqb_spec x c) as [E|N]; [exfalso; apply H; left; exact E|]. rewrite IH by (intros K; apply H; right; exact K). reflexivity.
Qed.
Lemma split_all c a : ~ In c a -> split c a = [a].
Proof.
  induction a as [|x a IH]; intros H; cbn [split]; [reflexivity|].
  destruct (Z.eqb_spec x c) as [E|N]; [exfalso; apply H; left; exact E|]. rewrite IH by (intros K; apply H; right; exact K). reflexivity.
Qed.

(** *** Numbers *)
Lemma udec_chars n : is_u32 n -> Forall (fun c => 48 <= c <= 57) (udec n).
Proof. intros H. destruct (udec_spec n H) as (_ & F & _). exact F. Qed.
Lemma udec_number n : is_u32 n -> number (udec n) = n.
Proof. intros H. destruct (udec_spec n H) as (_ & _ & E & _). exact E. Qed.
Lemma udec_inj n m : is_u32 n -> is_u32 m -> udec n = udec m -> n = m.
Proof. intros A B E. rewrite <- (udec_number n A), <- (udec_number m B), E. reflexivity. Qed.
Lemma udec_not n c : is_u32 n -> ~ 48 <= c <= 57 -> ~ In c (udec n).
Proof. intros H N K. pose proof (udec_chars n H) as F. rewrite Forall_forall in F. apply N. exact (F _ K). Qed.
Lemma udec_nonempty n : is_u32 n -> udec n <> [].
Proof. intros H. destruct (udec_spec n H) as (N & _). exact N. Qed.

Lemma hexl_loop_front fuel : forall n acc, hexl_loop fuel n acc = hexl_loop fuel n [] ++ acc.
Proof.
  induction fuel as [|fuel IH]; intros n acc; cbn [hexl_loop]; [reflexivity|]. cbn zeta.
  destruct (n / 16 =? 0); [reflexivity|]. rewrite IH. rewrite (IH (n / 16) [_]). rewrite <- app_assoc. reflexivity.
Qed.
Lemma hexl_digit_val d : 0 <= d < 16 -> hexval (hexl_digit d) = d.
Proof. unfold hexval, hexl_digit. intros H. destruct (Z.ltb_spec d 10); [destruct (Z.ltb_spec (48 + d) 58)|destruct (Z.ltb_spec (87 + d) 58)]; lia. Qed.
Definition hexchar (c : Z) : Prop := 48 <= c <= 57 \/ 97 <= c <= 102.
Lemma hexl_digit_char d : 0 <= d < 16 -> hexchar (hexl_digit d).
Proof. unfold hexchar, hexl_digit. intros H. destruct (Z.ltb_spec d 10); lia. Qed.
Lemma hexl_loop_spec fuel : forall n, 0 <= n < 16 ^ Z.of_nat fuel -> (0 < fuel)%nat -> hexnum (hexl_loop fuel n []) = n /\ Forall hexchar (hexl_loop fuel n []) /\ hexl_loop fuel n [] <> [].
Proof.
  induction fuel as [|fuel IH]; intros n Hn Hf; [lia|]. cbn [hexl_loop]. cbn zeta.
  pose proof (Z.mod_pos_bound n 16 ltac:(lia)) as M. pose proof (Z.div_mod n 16 ltac:(lia)) as D.
  destruct (Z.eqb_spec (n / 16) 0) as [E|E].
  - split; [unfold hexnum; cbn [fold_left]; rewrite hexl_digit_val by exact M; lia|]. split; [constructor; [apply hexl_digit_char; exact M|constructor]|discriminate].
  - rewrite hexl_loop_front. rewrite Nat2Z.inj_succ, Z.pow_succ_r in Hn by lia.
    assert (0 <= n / 16 < 16 ^ Z.of_nat fuel) by (split; [apply Z.div_pos; lia|apply Z.div_lt_upper_bound; lia]).
    destruct fuel as [|fuel]; [change (16 ^ Z.of_nat 0) with 1 in *; lia|].
    destruct (IH (n / 16) ltac:(assumption) ltac:(lia)) as (I1 & I2 & I3). split; [|split].
    + unfold hexnum in *. rewrite fold_left_app. rewrite I1. cbn [fold_left]. rewrite hexl_digit_val by exact M. lia.
    + apply Forall_app. split; [exact I2|]. constructor; [apply hexl_digit_char; exact M|constructor].
    + destruct (hexl_loop (S fuel) (n / 16) []); [contradiction|discriminate].
Qed.
Lemma hexl_spec n : 0 <= n < 65536 -> hexnum (hexl n) = n /\ Forall hexchar (hexl n) /\ hexl n <> [].
Proof. intros H. apply hexl_loop_spec; [change (16 ^ Z.of_nat 4) with 65536; lia|lia]. Qed.
Lemma hexl_not n c : 0 <= n < 65536 -> ~ hexchar c -> ~ In c (hexl n).
Proof. intros H N K. destruct (hexl_spec n H) as (_ & F & _). rewrite Forall_forall in F. apply N. exact (F _ K). Qed.

Lemma hexl_word n : 0 <= n < 65536 -> hexword (hexl n) = true.
Proof.
  intros H. destruct (hexl_spec n H) as (_ & F & N). unfold hexword. apply andb_true_iff. split; [apply andb_true_iff; split|].
  - apply forallb_forall. intros c Hc. rewrite Forall_forall in F. specialize (F c Hc). unfold hexchar in F. unfold hexdigit. lia.
  - destruct (hexl n); [contradiction|reflexivity].
  - apply Nat.leb_le. unfold hexl. cbn [hexl_loop]. repeat match goal with |- context [if ?b then _ else _] => destruct b end; cbn; lia.
Qed.
Lemma dec_udec n : is_u32 n -> dec (udec n) = Some n.
Proof.
  intros H. destruct (udec_spec n H) as (N & F & E & Z0). unfold dec, decimal. replace (forallb _ (udec n)) with true; [|symmetry; apply forallb_forall; intros c Hc; rewrite Forall_forall in F; specialize (F c Hc); cbn in F; lia].
  rewrite E. destruct (udec n) as [|c [|d s]]; [contradiction|reflexivity|]. cbn in Z0 |- *. destruct (Z.eqb_spec c 48) as [->|]; [specialize (Z0 eq_refl); discriminate|reflexivity].
Qed.

(** *** IPv4 *)
Lemma byte_u32 n : 0 <= n < 256 -> is_u32 n.
Proof. unfold is_u32. lia. Qed.
Lemma mod256 n : 0 <= n mod 256 < 256.
Proof. apply Z.mod_pos_bound. lia. Qed.
Lemma read4_ntop4 a : is_u32 a -> read4 (ntop4 a) = Some a.
Proof.
  intros H. unfold read4, ntop4. rewrite !split_app by (apply udec_not; [apply byte_u32; apply mod256|lia]). rewrite split_all by (apply udec_not; [apply byte_u32; apply mod256|lia]).
  cbn [map]. rewrite !dec_udec by (apply byte_u32; apply mod256). unfold is_u32 in H.
  assert (L : forall x, x mod 256 <? 256 = true) by (intros x; apply Z.ltb_lt; apply mod256). rewrite !L. cbn [andb]. f_equal.
  pose proof (Z.div_mod a 256 ltac:(lia)). pose proof (Z.div_mod (a / 256) 256 ltac:(lia)). pose proof (Z.div_mod (a / 65536) 256 ltac:(lia)).
  assert (E1 : a / 65536 = a / 256 / 256) by (rewrite Z.div_div by lia; reflexivity). assert (E2 : a / 16777216 = a / 65536 / 256) by (rewrite Z.div_div by lia; reflexivity).
  rewrite (Z.mod_small (a / 16777216) 256) by (split; [apply Z.div_pos; lia|apply Z.div_lt_upper_bound; lia]). lia.
Qed.
Lemma ntop4_chars a : Forall (fun c => 48 <= c <= 57 \/ c = 46) (ntop4 a).
Proof.
  unfold ntop4. assert (G : forall n, 0 <= n < 256 -> Forall (fun c => 48 <= c <= 57 \/ c = 46) (udec n)).
  { intros n H. eapply Forall_impl; [|apply udec_chars; apply byte_u32; exact H]. cbn. auto. }
  repeat (apply Forall_app; split; [apply G; apply mod256|constructor; [auto|]]). apply G. apply mod256.
Qed.
Lemma ntop4_dot a : In 46 (ntop4 a).
Proof. unfold ntop4. apply in_or_app. right. left. reflexivity. Qed.

(** *** IPv6 *)
Definition zeros (ws : list Z) (b l : nat) : bool := forallb (fun i => nth i ws 1 =? 0) (seq b l).
Lemma best_run_spec w0 w1 w2 w3 w4 w5 w6 w7 b l : best_run [w0; w1; w2; w3; w4; w5; w6; w7] = Some (b, l) ->
  zeros [w0; w1; w2; w3; w4; w5; w6; w7] b l = true /\ (2 <= l)%nat /\ (b + l <= 8)%nat.
Proof.
  unfold best_run, zeros. cbn [runs].
  destruct (w0 =? 0) eqn:E0; destruct (w1 =? 0) eqn:E1; destruct (w2 =? 0) eqn:E2; destruct (w3 =? 0) eqn:E3;
  destruct (w4 =? 0) eqn:E4; destruct (w5 =? 0) eqn:E5; destruct (w6 =? 0) eqn:E6; destruct (w7 =? 0) eqn:E7; cbn;
  intros H; try discriminate H; injection H as <- <-; cbn; rewrite ?E0, ?E1, ?E2, ?E3, ?E4, ?E5, ?E6, ?E7; repeat split; lia.
Qed.
Lemma piece_hexl w : 0 <= w < 65536 -> piece (hexl w) = Some [w].
Proof.
  intros H. destruct (hexl_spec w H) as (E & F & N). unfold piece. rewrite (hexl_word w H), E.
  destruct (existsb (Z.eqb 46) (hexl w)) eqn:X; [|reflexivity]. apply existsb_exists in X. destruct X as (x & Hx & Ex). apply Z.eqb_eq in Ex. subst x.
  exfalso. revert Hx. apply hexl_not; [exact H|unfold hexchar; lia].
Qed.
Lemma piece_v4 a : is_u32 a -> piece (ntop4 a) = Some [a / 65536; a mod 65536].
Proof.
  intros H. unfold piece. assert (X : existsb (Z.eqb 46) (ntop4 a) = true) by (apply existsb_exists; exists 46; split; [apply ntop4_dot|reflexivity]). rewrite X, read4_ntop4 by exact H. reflexivity.
Qed.
Lemma ntop4_nonempty a : ntop4 a <> [].
Proof. intros E. pose proof (ntop4_dot a) as K. rewrite E in K. contradiction. Qed.
Lemma gap_cons w ps : 0 <= w < 65536 -> until_gap (hexl w :: ps) = (hexl w :: fst (until_gap ps), snd (until_gap ps)).
Proof. intros H. destruct (hexl_spec w H) as (_ & _ & N). cbn [until_gap]. destruct (hexl w); [contradiction|]. destruct (until_gap ps); reflexivity. Qed.
Lemma gap_nil ps : until_gap ([] :: ps) = ([], Some ps).
Proof. reflexivity. Qed.
Lemma read_hexl w ps : 0 <= w < 65536 -> read_pieces (hexl w :: ps) =
  match until_gap (hexl w :: ps) with
  | (a, Some b) => fill a b
  | (a, None) => match pieces a with Some l => if Nat.eqb (length l) 8 then Some l else None | None => None end
  end.
Proof. intros H. destruct (hexl_spec w H) as (_ & _ & N). unfold read_pieces. destruct (hexl w); [contradiction|reflexivity]. Qed.
Lemma read_gap r : read_pieces ([] :: [] :: r) = fill [] r.
Proof. reflexivity. Qed.
Lemma fill_hexl a w ps : 0 <= w < 65536 -> fill a (hexl w :: ps) =
  match pieces a, pieces (hexl w :: ps) with Some a, Some b => if Nat.leb (length a + length b) 7 then Some (a ++ repeat 0 (8 - length a - length b) ++ b) else None | _, _ => None end.
Proof. intros H. destruct (hexl_spec w H) as (_ & _ & N). unfold fill. destruct (hexl w); [contradiction|]. destruct ps; reflexivity. Qed.
Lemma fill_v4 a v : fill a [ntop4 v] =
  match pieces a, pieces [ntop4 v] with Some a, Some b => if Nat.leb (length a + length b) 7 then Some (a ++ repeat 0 (8 - length a - length b) ++ b) else None | _, _ => None end.
Proof. unfold fill. pose proof (ntop4_nonempty v) as N. destruct (ntop4 v); [contradiction|reflexivity]. Qed.
Lemma fill_end a : fill a [[]] = match pieces a with Some a => if Nat.leb (length a + 0) 7 then Some (a ++ repeat 0 (8 - length a - 0) ++ []) else None | None => None end.
Proof. reflexivity. Qed.
Lemma split_hexl w r : 0 <= w < 65536 -> split 58 (hexl w ++ 58 :: r) = hexl w :: split 58 r.
Proof. intros H. apply split_app. apply hexl_not; [exact H|unfold hexchar; lia]. Qed.
Lemma split_hexl_all w : 0 <= w < 65536 -> split 58 (hexl w) = [hexl w].
Proof. intros H. apply split_all. apply hexl_not; [exact H|unfold hexchar; lia]. Qed.
Lemma split_colon r : split 58 (58 :: r) = [] :: split 58 r.
Proof. reflexivity. Qed.
Lemma split_v4 a : split 58 (ntop4 a) = [ntop4 a].
Proof. apply split_all. intros K. pose proof (ntop4_chars a) as F. rewrite Forall_forall in F. specialize (F _ K). cbn in F. lia. Qed.
Lemma gap_end : until_gap [] = ([], None).
Proof. reflexivity. Qed.
Lemma loop_read w0 w1 w2 w3 w4 w5 w6 w7 v4 :
  0 <= w0 < 65536 -> 0 <= w1 < 65536 -> 0 <= w2 < 65536 -> 0 <= w3 < 65536 -> 0 <= w4 < 65536 -> 0 <= w5 < 65536 -> 0 <= w6 < 65536 -> 0 <= w7 < 65536 ->
  is_u32 v4 -> v4 / 65536 = w6 -> v4 mod 65536 = w7 ->
  let ws := [w0; w1; w2; w3; w4; w5; w6; w7] in read6 (ntop6_loop (best_run ws) w5 v4 0 ws) = Some ws.
Proof.
  intros H0 H1 H2 H3 H4 H5 H6 H7 Hv Hh Hl ws. unfold ws. clear ws.
  assert (P0 : [] = @nil Z) by reflexivity.
  destruct (best_run [w0; w1; w2; w3; w4; w5; w6; w7]) as [[b l]|] eqn:B.
  - destruct (best_run_spec _ _ _ _ _ _ _ _ _ _ B) as (Z0 & L2 & L8). clear B.
    assert (Cb : (b = 0 \/ b = 1 \/ b = 2 \/ b = 3 \/ b = 4 \/ b = 5 \/ b = 6)%nat) by lia.
    assert (Cl : (l = 2 \/ l = 3 \/ l = 4 \/ l = 5 \/ l = 6 \/ l = 7 \/ l = 8)%nat) by lia.
    destruct Cb as [->|[->|[->|[->|[->|[->| ->]]]]]]; destruct Cl as [->|[->|[->|[->|[->|[->| ->]]]]]]; try (exfalso; lia);
    cbn [zeros seq forallb nth andb] in Z0; unfold zeros in Z0; cbn [seq forallb nth] in Z0;
    repeat (apply andb_prop in Z0; let E := fresh "E" in destruct Z0 as (E & Z0); apply Z.eqb_eq in E); clear Z0;
    cbn [ntop6_loop Nat.leb Nat.ltb Nat.eqb Nat.add andb orb app]; try (destruct (w5 =? 65535) eqn:?);
    unfold read6;
    repeat first [rewrite split_hexl by assumption | rewrite split_hexl_all by assumption | rewrite split_colon | rewrite split_v4 | rewrite app_nil_r];
    cbn [split];
    first [rewrite read_gap | rewrite read_hexl by assumption];
    repeat first [rewrite gap_cons by assumption | rewrite gap_nil | rewrite gap_end]; cbn [fst snd];
    first [rewrite fill_hexl by assumption | rewrite fill_v4 | rewrite fill_end]; cbn [pieces];
    repeat first [rewrite piece_hexl by assumption | rewrite piece_v4 by assumption]; cbn [app length Nat.add Nat.leb Nat.sub repeat];
    rewrite ?Hh, ?Hl; subst; try congruence; reflexivity.
  - clear B. cbn [ntop6_loop Nat.eqb app]. unfold read6. rewrite app_nil_r. rewrite !split_hexl, split_hexl_all by assumption. rewrite read_hexl by assumption. rewrite !gap_cons by assumption. rewrite gap_end. cbn [fst snd pieces].
    rewrite !piece_hexl by assumption. reflexivity.
Qed.
Lemma word_range a i : 0 <= word a i < 65536.
Proof. apply Z.mod_pos_bound. lia. Qed.
Lemma words_value a : 0 <= a < 2 ^ 128 -> value (words a) = a.
Proof.
  intros H. unfold words, value, word. cbn [seq map fold_left Z.of_nat]. change (Z.of_nat 0) with 0.
  cbn [Z.of_nat Pos.of_succ_nat Pos.succ].
  change (2 ^ (16 * (7 - 0))) with (2 ^ 112). change (2 ^ (16 * (7 - 1))) with (2 ^ 96). change (2 ^ (16 * (7 - 2))) with (2 ^ 80). change (2 ^ (16 * (7 - 3))) with (2 ^ 64).
  change (2 ^ (16 * (7 - 4))) with (2 ^ 48). change (2 ^ (16 * (7 - 5))) with (2 ^ 32). change (2 ^ (16 * (7 - 6))) with (2 ^ 16). change (2 ^ (16 * (7 - 7))) with 1.
  rewrite Z.div_1_r.
  assert (E : forall k, 0 <= k -> a / 2 ^ k = 65536 * (a / 2 ^ (k + 16)) + (a / 2 ^ k) mod 65536).
  { intros k Hk. rewrite Z.pow_add_r, <- Z.div_div by (try apply Z.pow_nonzero; try apply Z.pow_pos_nonneg; lia). apply Z.div_mod. lia. }
  pose proof (Z.div_mod a 65536 ltac:(lia)) as D. change 65536 with (2 ^ 16) in D at 1 2.
  pose proof (E 16 ltac:(lia)) as E1. pose proof (E 32 ltac:(lia)) as E2. pose proof (E 48 ltac:(lia)) as E3. pose proof (E 64 ltac:(lia)) as E4.
  pose proof (E 80 ltac:(lia)) as E5. pose proof (E 96 ltac:(lia)) as E6. pose proof (E 112 ltac:(lia)) as E7.
  cbn [Z.add Pos.add Pos.succ Pos.add_carry] in E1, E2, E3, E4, E5, E6, E7.
  assert (E8 : a / 2 ^ 128 = 0) by (apply Z.div_small; exact H). rewrite E8 in E7.
  set (x1 := a / 2 ^ 16) in *. set (x2 := a / 2 ^ 32) in *. set (x3 := a / 2 ^ 48) in *. set (x4 := a / 2 ^ 64) in *. set (x5 := a / 2 ^ 80) in *. set (x6 := a / 2 ^ 96) in *. set (x7 := a / 2 ^ 112) in *.
  change (2 ^ 16) with 65536 in D. lia.
Qed.
Lemma read6_words a : 0 <= a < 2 ^ 128 -> read6 (ntop6 a) = Some (words a).
Proof.
  intros H. unfold ntop6, words. cbn [seq map].
  assert (Hv : is_u32 (a mod 4294967296)) by (unfold is_u32; pose proof (Z.mod_pos_bound a 4294967296 ltac:(lia)); lia).
  apply loop_read; try apply word_range; try exact Hv.
  - unfold word. change (16 * (7 - Z.of_nat 6)) with 16. change (2 ^ 16) with 65536. rewrite (Z.mod_eq a 4294967296) by lia.
    replace (a - 4294967296 * (a / 4294967296)) with (a + (- (a / 4294967296) * 65536) * 65536) by lia. rewrite Z.div_add by lia.
    rewrite (Z.mod_eq (a / 65536)) by lia. rewrite Z.div_div by lia. change (65536 * 65536) with 4294967296. lia.
  - unfold word. change (2 ^ (16 * (7 - Z.of_nat 7))) with 1. rewrite Z.div_1_r. change 4294967296 with (65536 * 65536). rewrite Z.rem_mul_r by lia.
    rewrite (Z.mul_comm 65536), Z.mod_add by lia. apply Z.mod_mod. lia.
Qed.
Lemma read6_ntop6 a : 0 <= a < 2 ^ 128 -> option_map value (read6 (ntop6 a)) = Some a.
Proof. intros H. rewrite read6_words by exact H. cbn [option_map]. rewrite words_value by exact H. reflexivity. Qed.
Lemma ntop6_colon a : In 58 (ntop6 a).
Proof.
  unfold ntop6, words. cbn [seq map]. set (best := best_run _). cbn [ntop6_loop]. destruct best as [[b l]|].
  - destruct (Nat.leb b 0 && Nat.ltb 0 (b + l)) eqn:E0.
    + apply andb_prop in E0. destruct E0 as (E0 & _). apply Nat.leb_le in E0. assert (b = 0%nat) by lia. subst b. left. reflexivity.
    + cbn [Nat.eqb andb app]. apply in_or_app. right. destruct (Nat.leb b 1 && Nat.ltb 1 (b + l)) eqn:E1; [|left; reflexivity].
      apply andb_prop in E1. destruct E1 as (E1 & E2). apply Nat.leb_le in E1. apply Nat.ltb_lt in E2. destruct b as [|b].
      * exfalso. destruct l; [lia|]. discriminate E0.
      * assert (b = 0%nat) by lia. subst b. left. reflexivity.
  - cbn [Nat.eqb app]. apply in_or_app. right. left. reflexivity.
Qed.
Definition addrchar (c : Z) : Prop := hexchar c \/ c = 46 \/ c = 58.
Lemma loop_chars best w5 v4 : forall ws i, Forall (fun w => 0 <= w < 65536) ws -> Forall addrchar (ntop6_loop best w5 v4 i ws).
Proof.
  assert (C : Forall addrchar [58]) by (constructor; [right; right; reflexivity|constructor]).
  induction ws as [|w ws IH]; intros i F; cbn [ntop6_loop].
  - destruct best as [[b l]|]; [destruct (Nat.eqb (b + l) 8)|]; auto; constructor.
  - inversion F as [|? ? F1 F2]; subst. match goal with |- Forall _ (if ?c then _ else _) => destruct c end.
    + apply Forall_app. split; [|apply IH; exact F2]. destruct best as [[b l]|]; [destruct (Nat.eqb i b)|]; auto; constructor.
    + apply Forall_app. split; [destruct (Nat.eqb i 0); auto; constructor|]. cbn zeta. match goal with |- Forall _ (if ?c then _ else _) => destruct c end.
      * eapply Forall_impl; [|apply ntop4_chars]. unfold addrchar, hexchar. cbn. intros; lia.
      * apply Forall_app. split; [|apply IH; exact F2]. destruct (hexl_spec w F1) as (_ & G & _). eapply Forall_impl; [|exact G]. unfold addrchar. auto.
Qed.
Lemma ntop6_chars a : Forall addrchar (ntop6 a).
Proof. apply loop_chars. unfold words. apply Forall_forall. intros x Hx. apply in_map_iff in Hx. destruct Hx as (i & <- & _). apply word_range. Qed.
Example ntop_examples :
  ntop4 3232235777 = [49; 57; 50; 46; 49; 54; 56; 46; 49; 46; 49] /\                       (* 192.168.1.1 *)
  ntop6 (8193 * 2 ^ 112 + 3512 * 2 ^ 96 + 1) = [50; 48; 48; 49; 58; 100; 98; 56; 58; 58; 49] /\    (* 2001:db8::1 *)
  ntop6 (65535 * 2 ^ 32 + 16909060) = [58; 58; 102; 102; 102; 102; 58; 49; 46; 50; 46; 51; 46; 52]. (* ::ffff:1.2.3.4 *)
Proof. vm_compute. auto. Qed.
