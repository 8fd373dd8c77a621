(** UTF-8 and dates of JsonEnc.v. *)
From Coq Require Import String Lia.
From Verif Require Import Base BaseLemmas CString Slurm Oid Manifest ManifestSpec ManifestProofs.
From Verif Require Import BerSpec BerProofs Asn1Dec JsonEnc JsonEncSpec JsonEncProofs.
Notation length := List.length.
Open Scope list_scope.
Open Scope Z_scope.

Lemma land63 u : 128 <= u <= 191 -> Z.land u 63 = u - 128.
Proof. intros H. change 63 with (Z.ones 6). rewrite Z.land_ones by lia. symmetry. apply (Z.mod_unique_pos _ _ 2); lia. Qed.
Lemma land31 u : 192 <= u <= 223 -> Z.land u 31 = u - 192.
Proof. intros H. change 31 with (Z.ones 5). rewrite Z.land_ones by lia. symmetry. apply (Z.mod_unique_pos _ _ 6); lia. Qed.
Lemma land15 u : 224 <= u <= 239 -> Z.land u 15 = u - 224.
Proof. intros H. change 15 with (Z.ones 4). rewrite Z.land_ones by lia. symmetry. apply (Z.mod_unique_pos _ _ 14); lia. Qed.
Lemma land7 u : 240 <= u <= 247 -> Z.land u 7 = u - 240.
Proof. intros H. change 7 with (Z.ones 3). rewrite Z.land_ones by lia. symmetry. apply (Z.mod_unique_pos _ _ 30); lia. Qed.

Lemma utf8_nil : utf8 [].
Proof. exists []. split; [constructor|reflexivity]. Qed.
Lemma utf8_cons c s : scalar c -> utf8 s -> utf8 (utf8_bytes c ++ s).
Proof. intros Hc (cs & H & ->). exists (c :: cs). split; [constructor; assumption|reflexivity]. Qed.

Lemma tail_step v u t : utf8_tail v (u :: t) = if (u <? 128) || (191 <? u) then None else utf8_tail (v * 64 + Z.land u 63) t.
Proof. reflexivity. Qed.

(** Writes a character's encoding back. *)
Lemma bytes2 a b : 194 <= a <= 223 -> 128 <= b <= 191 -> utf8_bytes ((a - 192) * 64 + (b - 128)) = [a; b].
Proof.
  intros Ha Hb. set (c := (a - 192) * 64 + (b - 128)). unfold utf8_bytes. destruct (Z.ltb_spec c 128); [lia|]. destruct (Z.ltb_spec c 2048); [|lia].
  rewrite <- (Z.div_unique_pos c 64 (a - 192) (b - 128)) by lia. rewrite <- (Z.mod_unique_pos c 64 (a - 192) (b - 128)) by lia. repeat f_equal; lia.
Qed.
Lemma bytes3 a b d : 224 <= a <= 239 -> 128 <= b <= 191 -> 128 <= d <= 191 -> 2048 <= ((a - 224) * 64 + (b - 128)) * 64 + (d - 128) ->
  utf8_bytes (((a - 224) * 64 + (b - 128)) * 64 + (d - 128)) = [a; b; d].
Proof.
  intros Ha Hb Hd. set (c := ((a - 224) * 64 + (b - 128)) * 64 + (d - 128)). intros Hc. unfold utf8_bytes.
  destruct (Z.ltb_spec c 128); [lia|]. destruct (Z.ltb_spec c 2048); [lia|]. destruct (Z.ltb_spec c 65536); [|lia].
  rewrite <- (Z.div_unique_pos c 64 ((a - 224) * 64 + (b - 128)) (d - 128)) by lia.
  rewrite <- (Z.mod_unique_pos c 64 ((a - 224) * 64 + (b - 128)) (d - 128)) by lia.
  rewrite <- (Z.div_unique_pos c 4096 (a - 224) ((b - 128) * 64 + (d - 128))) by lia.
  rewrite <- (Z.mod_unique_pos ((a - 224) * 64 + (b - 128)) 64 (a - 224) (b - 128)) by lia. repeat f_equal; lia.
Qed.
Lemma bytes4 a b d e : 240 <= a <= 244 -> 128 <= b <= 191 -> 128 <= d <= 191 -> 128 <= e <= 191 ->
  65536 <= (((a - 240) * 64 + (b - 128)) * 64 + (d - 128)) * 64 + (e - 128) ->
  utf8_bytes ((((a - 240) * 64 + (b - 128)) * 64 + (d - 128)) * 64 + (e - 128)) = [a; b; d; e].
Proof.
  intros Ha Hb Hd He. set (c := (((a - 240) * 64 + (b - 128)) * 64 + (d - 128)) * 64 + (e - 128)). intros Hc. unfold utf8_bytes.
  destruct (Z.ltb_spec c 128); [lia|]. destruct (Z.ltb_spec c 2048); [lia|]. destruct (Z.ltb_spec c 65536); [lia|].
  rewrite <- (Z.div_unique_pos c 64 (((a - 240) * 64 + (b - 128)) * 64 + (d - 128)) (e - 128)) by lia.
  rewrite <- (Z.mod_unique_pos c 64 (((a - 240) * 64 + (b - 128)) * 64 + (d - 128)) (e - 128)) by lia.
  rewrite <- (Z.div_unique_pos c 4096 ((a - 240) * 64 + (b - 128)) ((d - 128) * 64 + (e - 128))) by lia.
  rewrite <- (Z.div_unique_pos c 262144 (a - 240) (((b - 128) * 64 + (d - 128)) * 64 + (e - 128))) by lia.
  rewrite <- (Z.mod_unique_pos (((a - 240) * 64 + (b - 128)) * 64 + (d - 128)) 64 ((a - 240) * 64 + (b - 128)) (d - 128)) by lia.
  rewrite <- (Z.mod_unique_pos ((a - 240) * 64 + (b - 128)) 64 (a - 240) (b - 128)) by lia. repeat f_equal; lia.
Qed.

Lemma first_cases u : is_byte u ->
  (u < 128 /\ utf8_check_first u = 1%nat) \/ (194 <= u <= 223 /\ utf8_check_first u = 2%nat) \/ (224 <= u <= 239 /\ utf8_check_first u = 3%nat)
  \/ (240 <= u <= 244 /\ utf8_check_first u = 4%nat) \/ utf8_check_first u = 0%nat.
Proof.
  unfold is_byte, utf8_check_first. intros H. destruct (Z.ltb_spec u 128); [tauto|]. destruct (Z.leb_spec u 191); [tauto|].
  destruct (Z.eqb_spec u 192); [tauto|]. destruct (Z.eqb_spec u 193); [tauto|]. cbn [orb].
  destruct (Z.leb_spec u 223); [right; left; split; [lia|reflexivity]|].
  destruct (Z.leb_spec u 239); [right; right; left; split; [lia|reflexivity]|].
  destruct (Z.leb_spec u 244); [right; right; right; left; split; [lia|reflexivity]|]. tauto.
Qed.

Lemma first_some u : 194 <= u <= 244 -> utf8_check_first u <> 0%nat.
Proof.
  unfold utf8_check_first. intros H. destruct (Z.ltb_spec u 128); [lia|]. destruct (Z.leb_spec u 191); [lia|].
  destruct (Z.eqb_spec u 192); [lia|]. destruct (Z.eqb_spec u 193); [lia|]. cbn [orb].
  destruct (Z.leb_spec u 223); [discriminate|]. destruct (Z.leb_spec u 239); [discriminate|]. destruct (Z.leb_spec u 244); [discriminate|lia].
Qed.

(** The check of several bytes is that of a character. *)
Lemma full2 a b : 194 <= a <= 223 -> utf8_check_full 2 a [b] = true <-> 128 <= b <= 191.
Proof.
  intros Ha. unfold utf8_check_full. rewrite land31 by lia. rewrite tail_step. cbn [utf8_tail].
  destruct (Z.ltb_spec b 128); cbn [orb]; [split; [discriminate|lia]|]. destruct (Z.ltb_spec 191 b); [split; [discriminate|lia]|].
  rewrite land63 by lia. split; [lia|]. intros _. set (c := (a - 192) * 64 + (b - 128)).
  destruct (Z.ltb_spec 1114111 c); [lia|]. destruct (Z.leb_spec 55296 c); [lia|]. cbn [andb Nat.eqb orb negb].
  destruct (Z.ltb_spec c 128); [lia|]. reflexivity.
Qed.
Lemma full3 a b d : 224 <= a <= 239 -> utf8_check_full 3 a [b; d] = true <->
  128 <= b <= 191 /\ 128 <= d <= 191 /\ scalar (((a - 224) * 64 + (b - 128)) * 64 + (d - 128)) /\ 2048 <= ((a - 224) * 64 + (b - 128)) * 64 + (d - 128).
Proof.
  intros Ha. unfold utf8_check_full. rewrite land15 by lia. rewrite !tail_step. cbn [utf8_tail].
  destruct (Z.ltb_spec b 128); cbn [orb]; [split; [discriminate|lia]|]. destruct (Z.ltb_spec 191 b); [split; [discriminate|lia]|].
  destruct (Z.ltb_spec d 128); cbn [orb]; [split; [discriminate|lia]|]. destruct (Z.ltb_spec 191 d); [split; [discriminate|lia]|].
  rewrite !land63 by lia. set (c := ((a - 224) * 64 + (b - 128)) * 64 + (d - 128)). unfold scalar.
  destruct (Z.ltb_spec 1114111 c); [split; [discriminate|lia]|]. destruct (Z.leb_spec 55296 c); cbn [andb].
  - destruct (Z.leb_spec c 57343); [split; [discriminate|lia]|]. cbn [andb Nat.eqb orb negb]. destruct (Z.ltb_spec c 2048); cbn; (split; [intros; try discriminate|]); lia.
  - cbn [andb Nat.eqb orb negb]. destruct (Z.ltb_spec c 2048); cbn; (split; [intros; try discriminate|intros; try reflexivity]); lia.
Qed.
Lemma full4 a b d e : 240 <= a <= 244 -> utf8_check_full 4 a [b; d; e] = true <->
  128 <= b <= 191 /\ 128 <= d <= 191 /\ 128 <= e <= 191 /\ scalar ((((a - 240) * 64 + (b - 128)) * 64 + (d - 128)) * 64 + (e - 128))
  /\ 65536 <= (((a - 240) * 64 + (b - 128)) * 64 + (d - 128)) * 64 + (e - 128).
Proof.
  intros Ha. unfold utf8_check_full. rewrite land7 by lia. rewrite !tail_step. cbn [utf8_tail].
  destruct (Z.ltb_spec b 128); cbn [orb]; [split; [discriminate|lia]|]. destruct (Z.ltb_spec 191 b); [split; [discriminate|lia]|].
  destruct (Z.ltb_spec d 128); cbn [orb]; [split; [discriminate|lia]|]. destruct (Z.ltb_spec 191 d); [split; [discriminate|lia]|].
  destruct (Z.ltb_spec e 128); cbn [orb]; [split; [discriminate|lia]|]. destruct (Z.ltb_spec 191 e); [split; [discriminate|lia]|].
  rewrite !land63 by lia. set (c := (((a - 240) * 64 + (b - 128)) * 64 + (d - 128)) * 64 + (e - 128)). unfold scalar.
  destruct (Z.ltb_spec 1114111 c); [split; [discriminate|lia]|]. destruct (Z.leb_spec 55296 c); cbn [andb].
  - destruct (Z.leb_spec c 57343); [split; [discriminate|lia]|]. cbn [andb Nat.eqb orb negb]. destruct (Z.ltb_spec c 65536); cbn; (split; [intros; try discriminate|]); lia.
  - cbn [andb Nat.eqb orb negb]. destruct (Z.ltb_spec c 65536); cbn; (split; [intros; try discriminate|intros; try reflexivity]); lia.
Qed.

Lemma check_sound fuel : forall s, bytes s -> utf8_check_loop fuel s = true -> utf8 s.
Proof.
  induction fuel as [|fuel IH]; intros s Hs E; [destruct s; [apply utf8_nil|discriminate]|].
  destruct s as [|u s]; [apply utf8_nil|]. inversion Hs as [|? ? Hu Hs']; subst. cbn [utf8_check_loop] in E.
  destruct (first_cases u Hu) as [(R & F)|[(R & F)|[(R & F)|[(R & F)|F]]]]; rewrite F in E; [..|discriminate].
  - specialize (IH s Hs' E). assert (B : utf8_bytes u = [u]) by (unfold utf8_bytes; destruct (Z.ltb_spec u 128); [reflexivity|lia]).
    change (u :: s) with ([u] ++ s). rewrite <- B. apply utf8_cons; [unfold scalar, is_byte in *; lia|assumption].
  - destruct s as [|b s]; [discriminate|]. cbn [length Nat.ltb Nat.leb Nat.sub firstn skipn] in E. inversion Hs' as [|? ? Hb Hs'']; subst.
    destruct (utf8_check_full 2 u [b]) eqn:E2; [|discriminate]. apply full2 in E2; [|assumption].
    specialize (IH s Hs'' E). change (u :: b :: s) with ([u; b] ++ s). rewrite <- (bytes2 u b) by assumption. apply utf8_cons; [unfold scalar; lia|assumption].
  - destruct s as [|b [|d s]]; [discriminate..|]. cbn [length Nat.ltb Nat.leb Nat.sub firstn skipn] in E. inversion Hs' as [|? ? Hb Hs'']; subst. inversion Hs'' as [|? ? Hd Hs3]; subst.
    destruct (utf8_check_full 3 u [b; d]) eqn:E2; [|discriminate]. apply full3 in E2; [|assumption]. destruct E2 as (E2 & E3 & E4 & E5).
    specialize (IH s Hs3 E). change (u :: b :: d :: s) with ([u; b; d] ++ s). rewrite <- (bytes3 u b d) by assumption. apply utf8_cons; assumption.
  - destruct s as [|b [|d [|e s]]]; [discriminate..|]. cbn [length Nat.ltb Nat.leb Nat.sub firstn skipn] in E. inversion Hs' as [|? ? Hb Hs'']; subst. inversion Hs'' as [|? ? Hd Hs3]; subst.
    inversion Hs3 as [|? ? He Hs4]; subst.
    destruct (utf8_check_full 4 u [b; d; e]) eqn:E2; [|discriminate]. apply full4 in E2; [|assumption]. destruct E2 as (E2 & E3 & E4 & E5 & E6).
    specialize (IH s Hs4 E). change (u :: b :: d :: e :: s) with ([u; b; d; e] ++ s). rewrite <- (bytes4 u b d e) by assumption. apply utf8_cons; assumption.
Qed.

Lemma check_complete cs : Forall scalar cs -> forall fuel, (length (flat_map utf8_bytes cs) <= fuel)%nat -> utf8_check_loop fuel (flat_map utf8_bytes cs) = true.
Proof.
  intros H. induction H as [|c cs Hc H IH]; intros fuel Hf; [destruct fuel; reflexivity|]. cbn [flat_map] in *. rewrite app_length in Hf.
  set (s := flat_map utf8_bytes cs) in *. clearbody s.
  assert (Q : forall l : list Z, (length l > 0)%nat -> (length l + length s <= fuel)%nat -> exists f, fuel = S f /\ (length s <= f)%nat).
  { intros l H1 H2. destruct fuel as [|f]; [lia|]. exists f. split; [reflexivity|lia]. }
  unfold scalar in Hc. unfold utf8_bytes in *.
  destruct (Z.ltb_spec c 128) as [C1|C1]; [|destruct (Z.ltb_spec c 2048) as [C2|C2]; [|destruct (Z.ltb_spec c 65536) as [C3|C3]]]; cbn [app] in *;
    match goal with Hf : (length ?l + length s <= _)%nat |- _ => destruct (Q l ltac:(cbn; lia) Hf) as (f & -> & Hl) end; cbn [utf8_check_loop].
  - unfold utf8_check_first. destruct (Z.ltb_spec c 128); [|lia]. apply IH. assumption.
  - pose proof (Z.div_mod c 64 ltac:(lia)). pose proof (Z.mod_pos_bound c 64 ltac:(lia)).
    set (a := c / 64) in *. set (b := c mod 64) in *. clearbody a b.
    assert (Ha : 194 <= 192 + a <= 223) by lia. destruct (first_cases (192 + a) ltac:(unfold is_byte; lia)) as [(R & F)|[(R & F)|[(R & F)|[(R & F)|F]]]]; try lia.
    + rewrite F. cbn [length Nat.ltb Nat.leb Nat.sub firstn skipn]. rewrite (proj2 (full2 (192 + a) (128 + b) Ha)) by lia. apply IH. assumption.
    + exfalso. revert F. apply first_some. lia.
  - pose proof (Z.div_mod c 64 ltac:(lia)). pose proof (Z.mod_pos_bound c 64 ltac:(lia)).
    assert (E4 : c / 4096 = c / 64 / 64) by (rewrite Z.div_div by lia; reflexivity).
    pose proof (Z.div_mod (c / 64) 64 ltac:(lia)). pose proof (Z.mod_pos_bound (c / 64) 64 ltac:(lia)).
    rewrite E4 in *. set (a := c / 64 / 64) in *. set (b := (c / 64) mod 64) in *. set (d := c mod 64) in *. set (q := c / 64) in *. clearbody a b d q.
    assert (Ha : 224 <= 224 + a <= 239) by lia. destruct (first_cases (224 + a) ltac:(unfold is_byte; lia)) as [(R & F)|[(R & F)|[(R & F)|[(R & F)|F]]]]; try lia.
    + rewrite F. cbn [length Nat.ltb Nat.leb Nat.sub firstn skipn]. rewrite (proj2 (full3 (224 + a) (128 + b) (128 + d) Ha)); [apply IH; assumption|].
      replace (((224 + a - 224) * 64 + (128 + b - 128)) * 64 + (128 + d - 128)) with c by lia. unfold scalar. lia.
    + exfalso. revert F. apply first_some. lia.
  - pose proof (Z.div_mod c 64 ltac:(lia)). pose proof (Z.mod_pos_bound c 64 ltac:(lia)).
    assert (E4 : c / 4096 = c / 64 / 64) by (rewrite Z.div_div by lia; reflexivity).
    assert (E5 : c / 262144 = c / 64 / 64 / 64) by (rewrite !Z.div_div by lia; reflexivity).
    pose proof (Z.div_mod (c / 64) 64 ltac:(lia)). pose proof (Z.mod_pos_bound (c / 64) 64 ltac:(lia)).
    pose proof (Z.div_mod (c / 64 / 64) 64 ltac:(lia)). pose proof (Z.mod_pos_bound (c / 64 / 64) 64 ltac:(lia)).
    rewrite E4, E5 in *. set (a := c / 64 / 64 / 64) in *. set (b := (c / 64 / 64) mod 64) in *. set (d := (c / 64) mod 64) in *. set (e := c mod 64) in *.
    set (r := c / 64 / 64) in *. set (q := c / 64) in *. clearbody a b d e r q.
    assert (Ha : 240 <= 240 + a <= 244) by lia. destruct (first_cases (240 + a) ltac:(unfold is_byte; lia)) as [(R & F)|[(R & F)|[(R & F)|[(R & F)|F]]]]; try lia.
    + rewrite F. cbn [length Nat.ltb Nat.leb Nat.sub firstn skipn]. rewrite (proj2 (full4 (240 + a) (128 + b) (128 + d) (128 + e) Ha)); [apply IH; assumption|].
      replace ((((240 + a - 240) * 64 + (128 + b - 128)) * 64 + (128 + d - 128)) * 64 + (128 + e - 128)) with c by lia. unfold scalar. lia.
    + exfalso. revert F. apply first_some. lia.
Qed.

Theorem utf8_spec s : bytes s -> utf8_check_string s = true <-> utf8 s.
Proof.
  intros Hs. split; [apply check_sound; assumption|]. intros (cs & H & ->). apply check_complete; [assumption|lia].
Qed.

(** ** Dates *)
Definition digits4 (v : Z) : list Z := [48 + v / 1000 mod 10; 48 + v / 100 mod 10; 48 + v / 10 mod 10; 48 + v mod 10].
Definition digits2 (v : Z) : list Z := [48 + v / 10 mod 10; 48 + v mod 10].
Lemma padded4 v : 0 <= v < 10000 -> padded 4 v = digits4 v.
Proof.
  intros H. assert (E : forallb (fun v => list_eqb Z.eqb (padded 4 v) (digits4 v)) (map Z.of_nat (seq 0 (Z.to_nat 10000))) = true) by (vm_compute; reflexivity).
  rewrite forallb_forall in E. specialize (E v). cbv beta in E.
  assert (I : In v (map Z.of_nat (seq 0 (Z.to_nat 10000)))) by (apply in_map_iff; exists (Z.to_nat v); split; [lia|apply in_seq; lia]).
  apply E in I. apply list_eqb_spec in I; [assumption|]. intros. apply Z.eqb_eq.
Qed.
Lemma padded2 v : 0 <= v < 100 -> padded 2 v = digits2 v.
Proof.
  intros H. assert (E : forallb (fun v => list_eqb Z.eqb (padded 2 v) (digits2 v)) (map Z.of_nat (seq 0 100)) = true) by (vm_compute; reflexivity).
  rewrite forallb_forall in E. specialize (E v). cbv beta in E.
  assert (I : In v (map Z.of_nat (seq 0 100))) by (apply in_map_iff; exists (Z.to_nat v); split; [lia|apply in_seq; lia]).
  apply E in I. apply list_eqb_spec in I; [assumption|]. intros. apply Z.eqb_eq.
Qed.
Lemma num4_padded s v : num 4 s v -> padded 4 v = s /\ 0 <= v < 10000 /\ length s = 4%nat.
Proof.
  intros (L & D & ->). destruct s as [|a [|b [|c [|d [|]]]]]; try discriminate L. cbn [fold_left].
  repeat match goal with H : Forall _ (_ :: _) |- _ => inversion H; clear H; subst end. unfold is_digit in *.
  set (v := 10 * (10 * (10 * (10 * 0 + (a - 48)) + (b - 48)) + (c - 48)) + (d - 48)). split; [|split; [lia|reflexivity]].
  rewrite padded4 by lia. unfold digits4.
  rewrite <- (Z.mod_unique_pos v 10 (100 * (a - 48) + 10 * (b - 48) + (c - 48)) (d - 48)) by lia.
  rewrite <- (Z.div_unique_pos v 10 (100 * (a - 48) + 10 * (b - 48) + (c - 48)) (d - 48)) by lia.
  rewrite <- (Z.div_unique_pos v 100 (10 * (a - 48) + (b - 48)) (10 * (c - 48) + (d - 48))) by lia.
  rewrite <- (Z.div_unique_pos v 1000 (a - 48) (100 * (b - 48) + 10 * (c - 48) + (d - 48))) by lia.
  rewrite <- (Z.mod_unique_pos (100 * (a - 48) + 10 * (b - 48) + (c - 48)) 10 (10 * (a - 48) + (b - 48)) (c - 48)) by lia.
  rewrite <- (Z.mod_unique_pos (10 * (a - 48) + (b - 48)) 10 (a - 48) (b - 48)) by lia.
  rewrite Z.mod_small by lia. repeat f_equal; lia.
Qed.
Lemma num2_padded s v : num 2 s v -> padded 2 v = s /\ 0 <= v < 100 /\ length s = 2%nat.
Proof.
  intros (L & D & ->). destruct s as [|a [|b [|]]]; try discriminate L. cbn [fold_left].
  repeat match goal with H : Forall _ (_ :: _) |- _ => inversion H; clear H; subst end. unfold is_digit in *.
  set (v := 10 * (10 * 0 + (a - 48)) + (b - 48)). split; [|split; [lia|reflexivity]].
  rewrite padded2 by lia. unfold digits2.
  rewrite <- (Z.mod_unique_pos v 10 (a - 48) (b - 48)) by lia. rewrite <- (Z.div_unique_pos v 10 (a - 48) (b - 48)) by lia.
  rewrite Z.mod_small by lia. repeat f_equal; lia.
Qed.
Lemma num_ascii n s v : num n s v -> Forall (fun c => 0 <= c < 128) s.
Proof. intros (_ & D & _). eapply Forall_impl; [|exact D]. intros c. unfold is_digit. lia. Qed.

Lemma time_text_ascii st s : time_text st s -> Forall (fun c => 0 <= c < 128) s.
Proof.
  intros (sy & smo & sd & sh & smi & sse & fr & rest & y & mo & d & h & mi & se & _ & Ny & Nmo & Nd & Nh & Nmi & Nse & _ & _ & _ & _ & _ & ->).
  repeat (apply Forall_app; split); try (eapply num_ascii; eassumption); repeat constructor; lia.
Qed.

Lemma time_spec st : outcome (time_json (asn_GT2time st)) (shows_time st).
Proof.
  destruct (gt_cases st) as [E|(y & mo & d & h & mi & se & T & R & E)].
  - rewrite E. cbn. intros j J. destruct J as [s (sy & smo & sd & sh & smi & sse & fr & rest & y & mo & d & h & mi & se & E' & Ny & Nmo & Nd & Nh & Nmi & Nse & Hf & R1 & R2 & R3 & R4 & _)].
    rewrite (gt_complete st y mo d h mi se) in E; [discriminate| |unfold gt_ranges; lia].
    exists sy, smo, sd, sh, smi, sse, fr, rest. repeat split; assumption || apply Ny || apply Nmo || apply Nd || apply Nh || apply Nmi || apply Nse.
  - rewrite E. destruct T as (sy & smo & sd & sh & smi & sse & fr & rest & Est & Ny & Nmo & Nd & Nh & Nmi & Nse & Hf).
    destruct (num4_padded _ _ Ny) as (Py & _ & Ly). destruct (num2_padded _ _ Nmo) as (Pmo & _ & Lmo). destruct (num2_padded _ _ Nd) as (Pd & _ & Ld).
    destruct (num2_padded _ _ Nh) as (Ph & _ & Lh). destruct (num2_padded _ _ Nmi) as (Pmi & _ & Lmi). destruct (num2_padded _ _ Nse) as (Pse & _ & Lse).
    unfold time_json, asn_tm2str, gt_tm. cbn [tm_year tm_mon tm_mday tm_hour tm_min tm_sec].
    replace (y - 1900 + 1900) with y by lia. replace (mo - 1 + 1) with mo by lia. rewrite Py, Pmo, Pd, Ph, Pmi, Pse.
    rewrite !app_length, Ly, Lmo, Ld, Lh, Lmi, Lse. cbn [length Nat.add Nat.eqb].
    assert (T : time_text st (sy ++ [45] ++ smo ++ [45] ++ sd ++ [32] ++ sh ++ [58] ++ smi ++ [58] ++ sse ++ [90])).
    { unfold gt_ranges in R. exists sy, smo, sd, sh, smi, sse, fr, rest, y, mo, d, h, mi, se.
      split; [assumption|]. split; [assumption|]. split; [assumption|]. split; [assumption|]. split; [assumption|]. split; [assumption|]. split; [assumption|].
      split; [assumption|]. split; [lia|]. split; [lia|]. split; [lia|]. split; [lia|]. reflexivity. }
    unfold json_str_new. rewrite strn_ascii by (eapply time_text_ascii; eassumption). cbn [outcome]. constructor. assumption.
Qed.
