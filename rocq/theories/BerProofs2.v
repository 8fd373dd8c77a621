(** Lemmas about the BER model: incomplete headers, tags, nested values. *)
From Verif Require Import Base BaseLemmas PduWireProofs Ber BerSpec BerProofs.

Notation length := List.length.

Lemma fetch_length_more c mem size : bytes mem -> (size <= length mem)%nat ->
  ber_fetch_length c mem size = Ok More ->
  exists ext o, bytes ext /\ ext <> [] /\ accepted_length c (firstn size mem ++ ext) o.
Proof.
  unfold ber_fetch_length. intros Hb Hs.
  destruct (Nat.eqb_spec size 0) as [->|Hz].
  { intros _. exists [0], (Some 0). cbn [firstn app].
    split; [repeat constructor; unfold is_byte; lia|]. split; [discriminate|]. left; constructor; lia. }
  destruct mem as [|oct mem]; [discriminate|]. inversion Hb as [|? ? Hb1 Hb2]; subst.
  rewrite land128 by assumption. unfold is_byte in Hb1.
  destruct (Z.ltb_spec oct 128); [discriminate|].
  destruct (c && (oct =? 128)); [discriminate|].
  destruct (Z.eqb_spec oct 255); [discriminate|].
  rewrite land127 by (unfold is_byte; lia). destruct (Z.ltb_spec oct 128); [lia|].
  destruct (Nat.le_gt_cases (Z.to_nat (oct - 128) + 1) size).
  { rewrite fetch_loop_spec by (cbn [length] in Hs; try assumption; lia).
    destruct (Nat.leb_spec (Z.to_nat (oct - 128) + 1) size); [|lia]. cbn zeta.
    destruct (_ <? _); discriminate. }
  intros _. set (k := Z.to_nat (oct - 128)) in *.
  exists (repeat 0 (k - (size - 1))), (Some (be256 (firstn (size - 1) mem ++ repeat 0 (k - (size - 1))))).
  assert (Hrep : bytes (repeat 0 (k - (size - 1)))).
  { apply Forall_forall. intros x Hx. apply repeat_spec in Hx. subst; unfold is_byte; lia. }
  split; [exact Hrep|]. split.
  { intros E. apply (f_equal (@length Z)) in E. rewrite repeat_length in E. cbn [length] in E. lia. }
  left. replace (firstn size (oct :: mem)) with (oct :: firstn (size - 1) mem)
    by (replace size with (S (size - 1)) at 2 by lia; reflexivity).
  cbn [app].
  assert (L : length (firstn (size - 1) mem ++ repeat 0 (k - (size - 1))) = k).
  { rewrite app_length, repeat_length, firstn_length_le by (cbn [length] in Hs; lia). lia. }
  replace oct with (128 + Z.of_nat (length (firstn (size - 1) mem ++ repeat 0 (k - (size - 1))))) by (rewrite L; unfold k; lia).
  apply long_form; [apply Forall_app; split; [apply bytes_firstn; assumption|exact Hrep]|rewrite L; unfold k in *; lia].
Qed.

Lemma fetch_length_bad c mem size ext n o : bytes mem -> (size <= length mem)%nat ->
  ber_fetch_length c mem size = Ok Bad -> bytes ext ->
  accepted_length c (firstn n (firstn size mem ++ ext)) o -> ~ length_fits o.
Proof.
  intros Hb Hs E Hext Ha Hf.
  assert (Hnf : match o with Some n => n <? 4611686018427387904 | None => true end = true)
    by (destruct o; [cbn in Hf; lia|reflexivity]).
  assert (Ls : length (firstn size mem) = size) by (apply firstn_length_le; lia).
  remember (firstn n (firstn size mem ++ ext)) as A eqn:EA.
  destruct (Nat.le_gt_cases (length A) size) as [Hle|Hgt].
  - assert (EA' : A = firstn (length A) mem).
    { rewrite firstn_app, Ls, firstn_firstn in EA.
      destruct (Nat.le_gt_cases n size) as [Hn|Hn].
      - rewrite Nat.min_l in EA by lia. replace (n - size)%nat with 0%nat in EA by lia.
        cbn [firstn] in EA. rewrite app_nil_r in EA. rewrite EA at 2. rewrite firstn_length_le by lia. exact EA.
      - rewrite Nat.min_r in EA by lia.
        assert (X : firstn (n - size) ext = []).
        { destruct (firstn (n - size) ext) as [|x xs] eqn:X; [reflexivity|exfalso].
          rewrite EA, app_length, Ls in Hle. cbn [length] in Hle. lia. }
        rewrite X, app_nil_r in EA. rewrite EA at 2. rewrite Ls. exact EA. }
    rewrite EA' in Ha. rewrite <- (firstn_skipn (length A) mem) in E.
    rewrite (fetch_length_complete c _ o _ size Ha) in E;
      [rewrite Hnf in E; discriminate|apply bytes_skipn; assumption|].
    rewrite firstn_skipn. rewrite firstn_length_le by lia. lia.
  - assert (HA : exists ext', A = firstn size mem ++ ext' /\ ext' <> []).
    { rewrite EA in Hgt |- *. rewrite firstn_app in Hgt |- *. rewrite Ls in *. rewrite firstn_firstn in *.
      rewrite app_length, !firstn_length in Hgt.
      rewrite (Nat.min_r n size) by lia. exists (firstn (n - size) ext). split; [reflexivity|].
      intros E0. apply (f_equal (@length Z)) in E0. rewrite firstn_length in E0. cbn [length] in E0. lia. }
    destruct HA as [ext' [HA Hne]]. revert E. unfold ber_fetch_length.
    destruct (Nat.eqb_spec size 0); [discriminate|].
    destruct mem as [|oct mem]; [cbn in Hs; lia|].
    replace (firstn size (oct :: mem)) with (oct :: firstn (size - 1) mem) in HA
      by (replace size with (S (size - 1)) at 2 by lia; reflexivity).
    cbn [app] in HA.
    assert (Hlen2 : (2 <= length A)%nat).
    { rewrite HA. cbn [length]. rewrite app_length. destruct ext'; [contradiction|cbn [length]; lia]. }
    destruct Ha as [Ha|[_ [Ha _]]]; [|rewrite Ha in Hlen2; cbn in Hlen2; lia].
    clear EA Hgt. destruct Ha as [b Hb'|bs Hbs Hn|Hct]; cbn [length] in Hlen2; try lia.
    pose proof (f_equal (hd 0) HA) as H1. pose proof (f_equal (@tl Z) HA) as H2. cbn [hd tl] in H1, H2.
    clear HA. subst oct bs.
    inversion Hb as [|? ? Hb1 Hb2]; subst.
    rewrite land128 by (unfold is_byte; lia). destruct (Z.ltb_spec (128 + Z.of_nat (length (firstn (size - 1) mem ++ ext'))) 128); [lia|].
    destruct (Z.eqb_spec (128 + Z.of_nat (length (firstn (size - 1) mem ++ ext'))) 128); [lia|].
    rewrite andb_false_r.
    destruct (Z.eqb_spec (128 + Z.of_nat (length (firstn (size - 1) mem ++ ext'))) 255); [lia|].
    rewrite land127 by (unfold is_byte; lia).
    destruct (Z.ltb_spec (128 + Z.of_nat (length (firstn (size - 1) mem ++ ext'))) 128); [lia|].
    set (k := length (firstn (size - 1) mem ++ ext')) in *.
    replace (Z.to_nat (128 + Z.of_nat k - 128)) with k by lia.
    assert (Hk : (size < k + 1)%nat).
    { unfold k. rewrite app_length, firstn_length_le by (cbn [length] in Hs; lia).
      destruct ext'; [contradiction|cbn [length]; lia]. }
    destruct (fetch_loop_short mem k size 1 0) as [E|[E M]]; try assumption; try lia; try (cbn [length] in Hs; lia).
    + rewrite E; discriminate.
    + intros _. cbn in Hf. unfold be256 in Hf. rewrite be256_app in Hf.
      apply Forall_app in Hbs. destruct Hbs as [Hb3 Hb4].
      pose proof (fold256_mono (firstn (size - 1) mem) 0 Hb3 ltac:(lia)) as M1.
      pose proof (fold256_mono ext' _ Hb4 M1) as M2. lia.
Qed.

(** ** Tags *)
Lemma fold128_app a b v : fold_left (fun v b => v * 128 + b) (a ++ b) v
  = fold_left (fun v b => v * 128 + b) b (fold_left (fun v b => v * 128 + b) a v).
Proof. apply fold_left_app. Qed.

Lemma wrap_shift val k b : 0 <= k -> 0 <= val -> val * 2 ^ k < 4294967296 -> 0 <= b < 2 ^ k ->
  Z.lor (wrap32 (Z.shiftl val k)) b = val * 2 ^ k + b.
Proof.
  intros Hk Hv Hs Hb. rewrite wrap32_id.
  - apply lor_shift_add; lia.
  - rewrite Z.shiftl_mul_pow2 by lia. unfold is_u32. split; [|lia].
    apply Z.mul_nonneg_nonneg; [lia|]. apply Z.pow_nonneg; lia.
Qed.

Lemma fetch_tag_loop_complete cont : forall last rest size skipped val cl fuel,
  Forall (fun c => 0 <= c < 128) cont -> 0 <= last < 128 -> 0 <= val -> 0 <= cl < 4 ->
  fold_left (fun v b => v * 128 + b) (cont ++ [last]) val < 1073741824 ->
  (skipped + length cont <= size)%nat -> (length cont < fuel)%nat ->
  fetch_tag_loop (map (fun c => 128 + c) cont ++ last :: rest) size skipped val cl fuel
  = Ok (Got (skipped + length cont) (fold_left (fun v b => v * 128 + b) (cont ++ [last]) val * 4 + cl)).
Proof.
  induction cont as [|b cont IH]; intros last rest size skipped val cl fuel Hc Hl Hv Hcl Hf Hs Hfu;
    (destruct fuel; [lia|]); cbn [map app fetch_tag_loop length] in *;
    (destruct (Nat.leb_spec skipped size); [|lia]).
  - rewrite land128 by (unfold is_byte; lia). destruct (Z.ltb_spec last 128); [|lia]. cbn [negb].
    cbn [fold_left] in *. cbn zeta. rewrite (wrap_shift val 7 last) by (try change (2 ^ 7) with 128; lia).
    change (2 ^ 7) with 128.
    rewrite (wrap_shift _ 2 cl) by (try change (2 ^ 2) with 4; lia). change (2 ^ 2) with 4.
    rewrite Nat.add_0_r. reflexivity.
  - inversion Hc as [|? ? Hb1 Hb2]; subst. cbn [fold_left] in *.
    rewrite land128 by (unfold is_byte; lia). destruct (Z.ltb_spec (128 + b) 128); [lia|]. cbn [negb]. cbn zeta.
    rewrite land127 by (unfold is_byte; lia). destruct (Z.ltb_spec (128 + b) 128); [lia|].
    replace (128 + b - 128) with b by lia.
    rewrite fold128_app in Hf. cbn [fold_left] in Hf.
    pose proof (fold128_mono cont (val * 128 + b) Hb2 ltac:(lia)) as M.
    rewrite (wrap_shift val 7 b) by (try change (2 ^ 7) with 128; lia). change (2 ^ 7) with 128.
    rewrite shiftr_zero by lia. change (2 ^ 23) with 8388608.
    destruct (Z.ltb_spec (val * 128 + b) 8388608); [|lia]. cbn [negb].
    rewrite IH; [f_equal; f_equal; lia|assumption|lia|lia|lia| |lia|lia].
    rewrite fold128_app. cbn [fold_left]. lia.
Qed.

Lemma fetch_tag_loop_sound fuel : forall mem size skipped val cl n v,
  bytes mem -> 0 <= val < 8388608 -> 0 <= cl < 4 -> (size < length mem + skipped)%nat ->
  fetch_tag_loop mem size skipped val cl fuel = Ok (Got n v) ->
  exists cont last rest, mem = map (fun c => 128 + c) cont ++ last :: rest /\
    Forall (fun c => 0 <= c < 128) cont /\ 0 <= last < 128 /\ n = (skipped + length cont)%nat /\ (n <= size)%nat /\
    fold_left (fun v b => v * 128 + b) (cont ++ [last]) val < 1073741824 /\
    v = fold_left (fun v b => v * 128 + b) (cont ++ [last]) val * 4 + cl.
Proof.
  induction fuel as [|fuel IH]; intros mem size skipped val cl n v Hb Hv Hcl Hs; cbn [fetch_tag_loop]; [discriminate|].
  destruct (Nat.leb_spec skipped size) as [Hsz|]; [|discriminate].
  destruct mem as [|oct mem]; [discriminate|]. inversion Hb as [|? ? Hb1 Hb2]; subst.
  rewrite land128 by assumption. unfold is_byte in Hb1. destruct (Z.ltb_spec oct 128); cbn [negb]; cbn zeta.
  - rewrite (wrap_shift val 7 oct) by (try change (2 ^ 7) with 128; lia). change (2 ^ 7) with 128.
    rewrite (wrap_shift _ 2 cl) by (try change (2 ^ 2) with 4; lia). change (2 ^ 2) with 4.
    intros E; injection E as <- <-. exists [], oct, mem. cbn [map app length fold_left].
    repeat split; try lia. constructor.
  - rewrite land127 by (unfold is_byte; lia). destruct (Z.ltb_spec oct 128); [lia|].
    rewrite (wrap_shift val 7 (oct - 128)) by (try change (2 ^ 7) with 128; lia). change (2 ^ 7) with 128.
    rewrite shiftr_zero by lia. change (2 ^ 23) with 8388608.
    destruct (Z.ltb_spec (val * 128 + (oct - 128)) 8388608); cbn [negb]; [|discriminate].
    intros E. apply IH in E; [|assumption|lia|lia|cbn [length] in Hs; lia].
    destruct E as (cont & last & rest & -> & Hc & Hl & -> & Hn & Hf & ->).
    exists ((oct - 128) :: cont), last, rest. cbn [map app length fold_left].
    repeat split; try lia; [f_equal; lia|constructor; [lia|assumption]].
Qed.

Lemma fetch_tag_loop_total fuel : forall mem size skipped val cl,
  (size < length mem + skipped)%nat -> exists r, fetch_tag_loop mem size skipped val cl fuel = Ok r.
Proof.
  induction fuel as [|fuel IH]; intros mem size skipped val cl Hs; cbn [fetch_tag_loop]; [eauto|].
  destruct (Nat.leb_spec skipped size) as [Hsz|]; [|eauto].
  destruct mem as [|oct mem]; [cbn in Hs; lia|].
  destruct (negb _); [|eauto]. cbn zeta. destruct (negb _); [eauto|]. apply IH. cbn [length] in Hs; lia.
Qed.

Lemma first_byte cl (pc : bool) k : 0 <= cl < 4 -> 0 <= k < 32 ->
  let b := cl * 64 + (if pc then 32 else 0) + k in
  is_byte b /\ Z.shiftr b 6 = cl /\ Z.land b 31 = k /\ constructed_bit b = pc.
Proof.
  intros Hcl Hk b. assert (Hb : is_byte b) by (unfold is_byte, b; destruct pc; lia).
  split; [exact Hb|]. split; [rewrite shift6|split; [rewrite land31 by exact Hb|rewrite land32 by exact Hb]].
  - unfold b. symmetry. apply Z.div_unique with (r := (if pc then 32 else 0) + k); destruct pc; lia.
  - unfold b. symmetry. apply Z.mod_unique with (q := cl * 2 + (if pc then 1 else 0)); destruct pc; lia.
  - assert (E : b / 32 = cl * 2 + (if pc then 1 else 0)).
    { unfold b. symmetry. apply Z.div_unique with (r := k); destruct pc; lia. }
    rewrite E. destruct pc.
    + replace ((cl * 2 + 1) mod 2) with 1; [reflexivity|]. apply Z.mod_unique with (q := cl); lia.
    + replace ((cl * 2 + 0) mod 2) with 0; [reflexivity|]. apply Z.mod_unique with (q := cl); lia.
Qed.

Lemma byte_split b : is_byte b -> exists cl (pc : bool) k, 0 <= cl < 4 /\ 0 <= k < 32 /\ b = cl * 64 + (if pc then 32 else 0) + k.
Proof.
  intros Hb. unfold is_byte in Hb. exists (b / 64), (32 <=? b mod 64), (b mod 32).
  pose proof (Z.div_mod b 64 ltac:(lia)). pose proof (Z.mod_pos_bound b 64 ltac:(lia)).
  pose proof (Z.mod_pos_bound b 32 ltac:(lia)).
  split; [split; [lia|apply Z.div_lt_upper_bound; lia]|]. split; [lia|].
  destruct (Z.leb_spec 32 (b mod 64)).
  - replace (b mod 32) with (b mod 64 - 32); [lia|]. apply Z.mod_unique with (q := b / 64 * 2 + 1); lia.
  - replace (b mod 32) with (b mod 64); [lia|]. apply Z.mod_unique with (q := b / 64 * 2); lia.
Qed.

Lemma fetch_tag_complete T cl pc num rest size : tag_octets T cl pc num -> tag_fits num ->
  (length T <= size)%nat ->
  ber_fetch_tag (T ++ rest) size = Ok (Got (length T) (num * 4 + cl)).
Proof.
  intros H Hf Hs. unfold ber_fetch_tag, tag_fits in *. destruct H as [cl pc num Hcl Hn|cl pc cont last Hcl Hc Hl].
  - cbn [length app] in *. destruct (Nat.eqb_spec size 0); [lia|].
    destruct (first_byte cl pc num Hcl ltac:(lia)) as (Hb & E6 & E31 & _). cbn zeta in *.
    rewrite E6, E31. destruct (Z.eqb_spec num 31); [lia|]. cbn [negb].
    rewrite (wrap_shift num 2 cl) by (try change (2 ^ 2) with 4; lia). reflexivity.
  - cbn [length app] in *. rewrite app_length, map_length in *. cbn [length] in *. destruct (Nat.eqb_spec size 0); [lia|].
    destruct (first_byte cl pc 31 Hcl ltac:(lia)) as (Hb & E6 & E31 & _). cbn zeta in *.
    rewrite E6, E31. cbn [Z.eqb Pos.eqb negb]. rewrite <- app_assoc. cbn [app].
    rewrite fetch_tag_loop_complete; [|assumption|assumption|lia|assumption|exact Hf|lia|lia].
    rewrite Nat.add_comm. unfold be128. f_equal. f_equal. lia.
Qed.

Lemma fetch_tag_sound mem size n v : bytes mem -> (size <= length mem)%nat ->
  ber_fetch_tag mem size = Ok (Got n v) ->
  exists cl pc num, tag_octets (firstn n mem) cl pc num /\ tag_fits num /\ v = num * 4 + cl /\
    (1 <= n <= size)%nat /\ constructed_bit (nth 0 mem 0) = pc.
Proof.
  unfold ber_fetch_tag, tag_fits. intros Hb Hs. destruct (Nat.eqb_spec size 0); [discriminate|].
  destruct mem as [|b mem]; [discriminate|]. inversion Hb as [|? ? Hb1 Hb2]; subst.
  destruct (byte_split b Hb1) as (cl & pc & k & Hcl & Hk & E).
  destruct (first_byte cl pc k Hcl Hk) as (_ & E6 & E31 & Ec). cbn zeta in E6, E31, Ec. rewrite <- E in E6, E31, Ec.
  cbn zeta. rewrite E6, E31. cbn [nth]. rewrite Ec.
  destruct (Z.eqb_spec k 31) as [->|]; cbn [negb].
  - intros G. apply fetch_tag_loop_sound in G; [|assumption|lia|assumption|cbn [length] in Hs; lia].
    destruct G as (cont & last & rest & -> & Hc & Hl & -> & Hn & Hf & ->).
    exists cl, pc, (be128 (cont ++ [last])). split; [|repeat split; try lia; exact Hf].
    replace (2 + length cont)%nat with (length (b :: map (fun c => 128 + c) cont ++ [last]))
      by (cbn [length]; rewrite app_length, map_length; cbn [length]; lia).
    replace (b :: map (fun c => 128 + c) cont ++ last :: rest) with ((b :: map (fun c => 128 + c) cont ++ [last]) ++ rest)
      by (cbn [app]; rewrite <- app_assoc; reflexivity).
    rewrite firstn_app_exact, E. apply high_tag; assumption.
  - rewrite (wrap_shift k 2 cl) by (try change (2 ^ 2) with 4; lia). change (2 ^ 2) with 4.
    intros G; injection G as <- <-. exists cl, pc, k. cbn [firstn]. rewrite E.
    split; [apply low_tag; lia|]. repeat split; try lia.
Qed.

Lemma fetch_tag_total mem size : (size <= length mem)%nat -> exists r, ber_fetch_tag mem size = Ok r.
Proof.
  unfold ber_fetch_tag. intros Hs. destruct (Nat.eqb_spec size 0); [eauto|].
  destruct mem as [|b mem]; [cbn in Hs; lia|]. cbn zeta. destruct (negb _); [eauto|].
  apply fetch_tag_loop_total. cbn [length] in Hs; lia.
Qed.

Lemma tag_octets_bytes T cl pc num : tag_octets T cl pc num -> bytes T /\ (1 <= length T)%nat /\ constructed_bit (nth 0 T 0) = pc
  /\ (nth 0 T 0 = 0 -> length T = 1%nat).
Proof.
  intros H. destruct H as [cl pc num Hcl Hn|cl pc cont last Hcl Hc Hl].
  - destruct (first_byte cl pc num Hcl ltac:(lia)) as (Hb & _ & _ & Ec).
    split; [constructor; [exact Hb|constructor]|]. cbn [length nth]. auto.
  - destruct (first_byte cl pc 31 Hcl ltac:(lia)) as (Hb & _ & _ & Ec). cbn zeta in *.
    split; [|cbn [length nth]; split; [lia|split; [exact Ec|intros E; exfalso; destruct pc; lia]]].
    constructor; [exact Hb|]. apply Forall_app. split; [|repeat constructor; unfold is_byte; lia].
    apply Forall_forall. intros x Hx. apply in_map_iff in Hx. destruct Hx as [y [<- Hy]].
    apply (proj1 (Forall_forall _ _) Hc) in Hy. unfold is_byte; lia.
Qed.
