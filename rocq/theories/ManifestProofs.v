(** Proofs about manifests (C40-C42). *)
From Coq Require Import String.
From Verif Require Import Base BaseLemmas CString CLib PathBuilder Manifest ManifestSpec.
From Coq Require Import Permutation.
Notation length := List.length.

(** ** The text of a date *)
Lemma digit_cases v c buf : (digit v (c :: buf) = Ok None /\ ~ is_digit c) \/ (digit v (c :: buf) = Ok (Some (v * 10 + (c - 48), buf)) /\ is_digit c).
Proof.
  unfold digit, is_digit. destruct ((c <? 48) || (57 <? c)) eqn:E; [left|right]; split; auto; lia.
Qed.
Lemma digit_ok v c buf : is_digit c -> digit v (c :: buf) = Ok (Some (v * 10 + (c - 48), buf)).
Proof. intros H. destruct (digit_cases v c buf) as [[_ N]|[E _]]; auto. contradiction. Qed.

Lemma two_cases buf : two_digits buf = Ok None \/ exists a b buf', buf = a :: b :: buf' /\ is_digit a /\ is_digit b /\ two_digits buf = Ok (Some ((a - 48) * 10 + (b - 48), buf')).
Proof.
  destruct buf as [|a [|b buf]]; cbn [two_digits]; auto.
  - destruct (_ || _); auto.
  - destruct ((a <? 48) || (57 <? a)) eqn:E; auto. destruct (digit_cases (a - 48) b buf) as [[-> _]|[-> H]]; auto.
    right. exists a, b, buf. repeat split; auto; unfold is_digit in *; lia.
Qed.
Lemma two_ok a b buf : is_digit a -> is_digit b -> two_digits (a :: b :: buf) = Ok (Some ((a - 48) * 10 + (b - 48), buf)).
Proof.
  intros H K. cbn [two_digits]. destruct ((a <? 48) || (57 <? a)) eqn:E; [unfold is_digit in H; lia|]. apply digit_ok; auto.
Qed.

Lemma skip_spec buf : exists ds, buf = ds ++ skip_digits buf /\ Forall is_digit ds.
Proof.
  induction buf as [|c buf (ds&E&F)]; cbn [skip_digits]; [exists []; auto|].
  destruct ((48 <=? c) && (c <=? 57)) eqn:H; [|exists []; auto].
  exists (c :: ds). split; [cbn; congruence|constructor; auto; unfold is_digit; lia].
Qed.
Lemma skip_app ds c buf : Forall is_digit ds -> ~ is_digit c -> skip_digits (ds ++ c :: buf) = c :: buf.
Proof.
  intros F N. induction F as [|d ds H F IH]; cbn [skip_digits app].
  - destruct ((48 <=? c) && (c <=? 57)) eqn:E; auto. unfold is_digit in N; lia.
  - destruct ((48 <=? d) && (d <=? 57)) eqn:E; auto. unfold is_digit in H; lia.
Qed.

Lemma num2 a b : is_digit a -> is_digit b -> num 2 [a; b] ((a - 48) * 10 + (b - 48)).
Proof. intros. split; [reflexivity|split; [auto|cbn [fold_left]; lia]]. Qed.
Lemma num2_inv s v : num 2 s v -> exists a b, s = [a; b] /\ is_digit a /\ is_digit b /\ v = (a - 48) * 10 + (b - 48).
Proof.
  intros (L&F&V). destruct s as [|a [|b [|]]]; try discriminate. inversion F as [|? ? H F']; inversion F'; subst.
  exists a, b. repeat split; auto; try (unfold is_digit in *; lia). cbn [fold_left]. lia.
Qed.
Lemma num4_inv s v : num 4 s v -> exists a b c d, s = [a; b; c; d] /\ is_digit a /\ is_digit b /\ is_digit c /\ is_digit d /\ v = (((a - 48) * 10 + (b - 48)) * 10 + (c - 48)) * 10 + (d - 48).
Proof.
  intros (L&F&V). destruct s as [|a [|b [|c [|d [|]]]]]; try discriminate. rewrite !Forall_cons_iff in F. destruct F as (H1&H2&H3&H4&_).
  exists a, b, c, d. split; [reflexivity|]. repeat (split; [assumption|]). rewrite V. cbn [fold_left]. lia.
Qed.

Definition gt_ranges (mo d h se : Z) : Prop := 1 <= mo <= 12 /\ 1 <= d <= 31 /\ h <= 23 /\ se <= 60.
Definition gt_tm (y mo d h mi se : Z) : tm := {| tm_year := y - 1900; tm_mon := mo - 1; tm_mday := d; tm_hour := h; tm_min := mi; tm_sec := se |}.

Lemma gt_complete s y mo d h mi se : gt_text s y mo d h mi se -> gt_ranges mo d h se -> asn_GT2time s = Ok (Some (gt_tm y mo d h mi se)).
Proof.
  intros (sy&smo&sd&sh&smi&sse&fr&rest&->&Hy&Hmo&Hd&Hh&Hmi&Hse&Hf) HR.
  apply num4_inv in Hy. destruct Hy as (y1&y2&y3&y4&->&?&?&?&?&Vy).
  apply num2_inv in Hmo. destruct Hmo as (m1&m2&->&?&?&Vm).
  apply num2_inv in Hd. destruct Hd as (d1&d2&->&?&?&Vd).
  apply num2_inv in Hh. destruct Hh as (h1&h2&->&?&?&Vh).
  apply num2_inv in Hmi. destruct Hmi as (i1&i2&->&?&?&Vi).
  apply num2_inv in Hse. destruct Hse as (s1&s2&->&?&?&Vs).
  unfold asn_GT2time. cbn [app length Nat.ltb Nat.leb].
  rewrite !digit_ok by auto. cbn [then_]. rewrite !digit_ok by auto. cbn [then_]. rewrite !digit_ok by auto. cbn [then_]. rewrite !digit_ok by auto. cbn [then_].
  rewrite !digit_ok by auto. cbn [then_]. rewrite !digit_ok by auto. cbn [then_]. rewrite !digit_ok by auto. cbn [then_]. rewrite !digit_ok by auto. cbn [then_].
  rewrite !digit_ok by auto. cbn [then_]. rewrite !digit_ok by auto. cbn [then_]. rewrite !two_ok by auto. cbn [then_]. rewrite !two_ok by auto. cbn [then_].
  unfold gt_ranges in HR. subst y mo d h mi se.
  assert (E : exists c buf', fr ++ 90 :: rest = c :: buf' /\ (if (c =? 44) || (c =? 46) then skip_digits buf' else c :: buf') = 90 :: rest).
  { destruct Hf as [->|(c&ds&->&Hc&F)]; cbn [app].
    - exists 90, rest. split; reflexivity.
    - exists c, (ds ++ 90 :: rest). split; auto. destruct ((c =? 44) || (c =? 46)) eqn:Q; [|lia]. apply skip_app; auto. unfold is_digit; lia. }
  destruct E as (c&buf'&E1&E2). rewrite E1. cbn zeta. rewrite E2. cbn [Z.eqb Pos.eqb negb].
  match goal with |- context [if ?b then _ else _] => destruct b eqn:R end; [exfalso; lia|].
  unfold gt_tm. do 3 f_equal; lia.
Qed.

Lemma gt_cases s : asn_GT2time s = Ok None \/ exists y mo d h mi se, gt_text s y mo d h mi se /\ gt_ranges mo d h se /\ asn_GT2time s = Ok (Some (gt_tm y mo d h mi se)).
Proof.
  destruct s as [|y1 [|y2 [|y3 [|y4 [|m1 [|m2 [|d1 [|d2 [|h1 [|h2 buf]]]]]]]]]]; try (left; reflexivity).
  unfold asn_GT2time at 1. cbn [length Nat.ltb Nat.leb].
  Ltac dg := match goal with |- context [digit ?v (?c :: ?b)] => let E := fresh "E" in let H := fresh "D" in
    destruct (digit_cases v c b) as [[E H]|[E H]]; rewrite E; cbn [then_]; [left; reflexivity|]; clear E end.
  dg. dg. dg. dg. dg. dg. dg. dg. dg. dg.
  destruct (two_cases buf) as [E|(i1&i2&buf1&->&Hi1&Hi2&E)]; rewrite E; cbn [then_]; [left; reflexivity|]; clear E.
  destruct (two_cases buf1) as [E|(s1&s2&buf2&->&Hs1&Hs2&E)]; rewrite E; cbn [then_]; [left; reflexivity|]; clear E.
  destruct buf2 as [|c buf3]; [left; reflexivity|]. cbn zeta.
  assert (Hf : exists fr, c :: buf3 = fr ++ (if (c =? 44) || (c =? 46) then skip_digits buf3 else c :: buf3) /\ fraction fr).
  { destruct ((c =? 44) || (c =? 46)) eqn:Q; [|exists []; split; auto; left; auto].
    destruct (skip_spec buf3) as (ds&E&F). exists (c :: ds). split; [cbn; congruence|]. right. exists c, ds. repeat split; auto. lia. }
  destruct Hf as (fr&Ef&Hf).
  destruct (if (c =? 44) || (c =? 46) then skip_digits buf3 else c :: buf3) as [|z rest]; [left; reflexivity|].
  destruct (z =? 90) eqn:Ez; cbn [negb]; [|left; reflexivity]. apply Z.eqb_eq in Ez. subst z.
  match goal with |- context [if ?b then _ else _] => destruct b eqn:R end; [left; reflexivity|]. right.
  assert (T : gt_text (y1 :: y2 :: y3 :: y4 :: m1 :: m2 :: d1 :: d2 :: h1 :: h2 :: i1 :: i2 :: s1 :: s2 :: c :: buf3)
     ((((y1 - 48) * 10 + (y2 - 48)) * 10 + (y3 - 48)) * 10 + (y4 - 48)) ((m1 - 48) * 10 + (m2 - 48)) ((d1 - 48) * 10 + (d2 - 48))
     ((h1 - 48) * 10 + (h2 - 48)) ((i1 - 48) * 10 + (i2 - 48)) ((s1 - 48) * 10 + (s2 - 48))).
  { exists [y1; y2; y3; y4], [m1; m2], [d1; d2], [h1; h2], [i1; i2], [s1; s2], fr, rest.
    split; [cbn [app]; rewrite Ef; reflexivity|]. split; [split; [reflexivity|split; [auto 6|cbn [fold_left]; lia]]|]. do 5 (split; [apply num2; auto|]). exact Hf. }
  assert (G : gt_ranges ((m1 - 48) * 10 + (m2 - 48)) ((d1 - 48) * 10 + (d2 - 48)) ((h1 - 48) * 10 + (h2 - 48)) ((s1 - 48) * 10 + (s2 - 48))) by (unfold gt_ranges; lia).
  exists ((((y1 - 48) * 10 + (y2 - 48)) * 10 + (y3 - 48)) * 10 + (y4 - 48)), ((m1 - 48) * 10 + (m2 - 48)), ((d1 - 48) * 10 + (d2 - 48)),
     ((h1 - 48) * 10 + (h2 - 48)), ((i1 - 48) * 10 + (i2 - 48)), ((s1 - 48) * 10 + (s2 - 48)).
  split; [exact T|split; [exact G|]]. apply gt_complete; auto.
Qed.

(** ** Chronology *)
Lemma year_step y : days_before_year (y + 1) = days_before_year y + 365 + (if leap y then 1 else 0).
Proof.
  unfold days_before_year, leap. replace (y + 1 - 1) with y by lia.
  assert (H4 : y / 4 = (y - 1) / 4 + (if y mod 4 =? 0 then 1 else 0)) by (destruct (y mod 4 =? 0) eqn:E; Z.to_euclidean_division_equations; lia).
  assert (H100 : y / 100 = (y - 1) / 100 + (if y mod 100 =? 0 then 1 else 0)) by (destruct (y mod 100 =? 0) eqn:E; Z.to_euclidean_division_equations; lia).
  assert (H400 : y / 400 = (y - 1) / 400 + (if y mod 400 =? 0 then 1 else 0)) by (destruct (y mod 400 =? 0) eqn:E; Z.to_euclidean_division_equations; lia).
  assert (A : y mod 400 = 0 -> y mod 100 = 0) by (intros; Z.to_euclidean_division_equations; lia).
  assert (B : y mod 100 = 0 -> y mod 4 = 0) by (intros; Z.to_euclidean_division_equations; lia).
  rewrite H4, H100, H400.
  destruct (y mod 4 =? 0) eqn:E4, (y mod 100 =? 0) eqn:E100, (y mod 400 =? 0) eqn:E400; cbn [andb orb negb]; lia.
Qed.
Lemma year_mono y y' : y < y' -> days_before_year y + 365 + (if leap y then 1 else 0) <= days_before_year y'.
Proof.
  intros H. rewrite <- year_step. replace y' with (y + 1 + Z.of_nat (Z.to_nat (y' - y - 1))) by lia.
  generalize (Z.to_nat (y' - y - 1)). induction n as [|n IH].
  - rewrite Z.add_0_r. lia.
  - etransitivity; [exact IH|]. replace (y + 1 + Z.of_nat (S n)) with (y + 1 + Z.of_nat n + 1) by lia. rewrite year_step.
    destruct (leap _); lia.
Qed.
Ltac months m := assert (m = 0 \/ m = 1 \/ m = 2 \/ m = 3 \/ m = 4 \/ m = 5 \/ m = 6 \/ m = 7 \/ m = 8 \/ m = 9 \/ m = 10 \/ m = 11) as Hm by lia;
  repeat (destruct Hm as [Hm|Hm]); subst m.
Lemma month_total y m : 0 <= m <= 11 -> days_before_month y m + month_days y m <= 365 + (if leap y then 1 else 0).
Proof. intros H. unfold days_before_month, month_days. destruct (leap y); months m; vm_compute; discriminate. Qed.
Lemma month_mono y m m' : 0 <= m -> m < m' -> m' <= 11 -> days_before_month y m + month_days y m <= days_before_month y m'.
Proof.
  intros H K L. assert (HH : 0 <= m <= 11) by lia. unfold days_before_month, month_days.
  destruct (leap y); months m; assert (HH' : 0 <= m' <= 11) by lia; (months m'; first [exfalso; clear -K; lia|vm_compute; discriminate]).
Qed.
Lemma month_nonneg y m : 0 <= m <= 11 -> 0 <= days_before_month y m.
Proof. intros H. unfold days_before_month, month_days. destruct (leap y); months m; vm_compute; discriminate. Qed.

Lemma moment_lt a b : real a -> real b -> tm_cmp a b = -1 -> moment a < moment b.
Proof.
  unfold tm_cmp, real, moment. intros (M1&D1&H1&I1&S1) (M2&D2&H2&I2&S2).
  destruct a as [ya ma da ha ia sa], b as [yb mb db hb ib sb]. cbn [tm_year tm_mon tm_mday tm_hour tm_min tm_sec] in *.
  destruct (ya <? yb) eqn:E1.
  { intros _. pose proof (year_mono (ya + 1900) (yb + 1900) ltac:(lia)). pose proof (month_total (ya + 1900) ma ltac:(lia)). pose proof (month_nonneg (yb + 1900) mb ltac:(lia)). lia. }
  destruct (yb <? ya) eqn:E1'; [discriminate|]. assert (ya = yb) by lia. subst yb.
  destruct (ma <? mb) eqn:E2.
  { intros _. pose proof (month_mono (ya + 1900) ma mb ltac:(lia) ltac:(lia) ltac:(lia)). lia. }
  destruct (mb <? ma) eqn:E2'; [discriminate|]. assert (ma = mb) by lia. subst mb.
  destruct (da <? db) eqn:E3; [intros _; lia|]. destruct (db <? da) eqn:E3'; [discriminate|].
  destruct (ha <? hb) eqn:E4; [intros _; lia|]. destruct (hb <? ha) eqn:E4'; [discriminate|].
  destruct (ia <? ib) eqn:E5; [intros _; lia|]. destruct (ib <? ia) eqn:E5'; [discriminate|].
  destruct (sa <? sb) eqn:E6; [intros _; lia|]. destruct (sb <? sa) eqn:E6'; discriminate.
Qed.
Lemma tm_cmp_range a b : tm_cmp a b = -1 \/ tm_cmp a b = 0 \/ tm_cmp a b = 1.
Proof. unfold tm_cmp. repeat match goal with |- context [if ?c then _ else _] => destruct c end; auto. Qed.
Lemma tm_cmp_sym a b : tm_cmp b a = - tm_cmp a b.
Proof.
  unfold tm_cmp. 
  repeat match goal with |- context [?x <? ?y] => destruct (Z.ltb_spec x y); destruct (Z.ltb_spec y x); try lia end.
Qed.
Lemma tm_cmp_eq a b : tm_cmp a b = 0 -> a = b.
Proof.
  unfold tm_cmp. destruct a as [ya ma da ha ia sa], b as [yb mb db hb ib sb]. cbn [tm_year tm_mon tm_mday tm_hour tm_min tm_sec].
  repeat match goal with |- context [?x <? ?y] => destruct (Z.ltb_spec x y); destruct (Z.ltb_spec y x); try lia; try discriminate end.
  intros _. f_equal; lia.
Qed.
Lemma tm_cmp_refl a : tm_cmp a a = 0.
Proof. unfold tm_cmp. rewrite !Z.ltb_irrefl. reflexivity. Qed.
Lemma tm_cmp_moment a b : real a -> real b -> (tm_cmp a b < 0 <-> moment a < moment b) /\ (0 < tm_cmp a b <-> moment b < moment a).
Proof.
  intros Ra Rb. pose proof (tm_cmp_sym a b) as Hs. destruct (tm_cmp_range a b) as [E|[E|E]]; rewrite E in *.
  - pose proof (moment_lt a b Ra Rb E). lia.
  - apply tm_cmp_eq in E. subst b. lia.
  - pose proof (moment_lt b a Rb Ra Hs). lia.
Qed.

(** ** The shuffle *)
Lemma upd_split {A} (l1 : list A) x l2 a : upd (l1 ++ x :: l2) (length l1) a = l1 ++ a :: l2.
Proof. induction l1; cbn; congruence. Qed.
Lemma nth_error_two {A} (l : list A) i j x y : (i < j)%nat -> nth_error l i = Some x -> nth_error l j = Some y ->
  exists l1 l2 l3, l = l1 ++ x :: l2 ++ y :: l3 /\ length l1 = i /\ (length l1 + S (length l2) = j)%nat.
Proof.
  intros H Hi Hj. apply nth_error_split in Hi. destruct Hi as (l1&r&->&L).
  rewrite nth_error_app2 in Hj by lia. replace (j - length l1)%nat with (S (j - i - 1)) in Hj by lia. cbn in Hj.
  apply nth_error_split in Hj. destruct Hj as (l2&l3&->&L2). exists l1, l2, l3. repeat split; auto. lia.
Qed.
Lemma upd_self {A} (l : list A) i x : nth_error l i = Some x -> upd l i x = l.
Proof. intros H. apply nth_error_split in H. destruct H as (l1&l2&->&<-). apply upd_split. Qed.
Lemma swap_perm {A} (l : list A) i j a b : (i <= j)%nat -> nth_error l j = Some a -> nth_error l i = Some b -> Permutation l (upd (upd l j b) i a).
Proof.
  intros H Hj Hi. assert (K : i = j \/ (i < j)%nat) by lia. destruct K as [->|K].
  - assert (a = b) by congruence. subst. rewrite !(upd_self l); auto.
  - destruct (nth_error_two l i j b a K Hi Hj) as (l1&l2&l3&->&L1&L2).
    assert (E : l1 ++ b :: l2 ++ a :: l3 = (l1 ++ b :: l2) ++ a :: l3) by (rewrite <- app_assoc; reflexivity).
    rewrite E at 2. replace j with (length (l1 ++ b :: l2)) by (rewrite app_length; cbn; lia). rewrite upd_split.
    rewrite <- app_assoc. cbn [app]. subst i. rewrite upd_split.
    apply Permutation_app_head. transitivity (b :: a :: l2 ++ l3); [constructor; symmetry; apply Permutation_middle|].
    transitivity (a :: b :: l2 ++ l3); [constructor|]. constructor. apply Permutation_middle.
Qed.
Lemma upd_length' {A} (l : list A) n a : length (upd l n a) = length l.
Proof. revert n. induction l; intros [|n]; cbn; auto. Qed.

Lemma shuffle_loop_ok rnd : forall fuel i arr, arr <> [] -> Z.of_nat (length arr) <= 2147483647 -> 0 <= i -> (Z.of_nat (length arr) <= i + Z.of_nat fuel)%Z ->
  exists arr', shuffle_loop fuel rnd i arr = Ok arr' /\ Permutation arr arr'.
Proof.
  induction fuel as [|fuel IH]; intros i arr Hne Hl Hi Hf; cbn [shuffle_loop].
  - destruct arr as [|a arr]; [congruence|]. remember (a :: arr) as l. assert (1 <= Z.of_nat (length l)) by (subst; cbn; lia).
    unfold wrap32. rewrite Z.mod_small by lia. destruct (Z.ltb_spec i (Z.of_nat (length l) - 1)); [lia|]. eauto.
  - assert (H1 : 1 <= Z.of_nat (length arr)) by (destruct arr; [congruence|cbn; lia]).
    assert (W1 : wrap32 (Z.of_nat (length arr) - 1) = Z.of_nat (length arr) - 1) by (unfold wrap32; rewrite Z.mod_small by lia; auto).
    rewrite W1. destruct (Z.ltb_spec i (Z.of_nat (length arr) - 1)) as [L|L]; [|eauto].
    assert (W2 : wrap32 (Z.of_nat (length arr) - i) = Z.of_nat (length arr) - i) by (unfold wrap32; rewrite Z.mod_small by lia; auto).
    rewrite W2. destruct (Z.eqb_spec (Z.of_nat (length arr) - i) 0); [lia|].
    pose proof (Z.mod_pos_bound (rnd (Z.to_nat i)) (Z.of_nat (length arr) - i) ltac:(lia)) as B.
    set (j := i + rnd (Z.to_nat i) mod (Z.of_nat (length arr) - i)) in *.
    assert (W3 : wrap32 j = j) by (unfold wrap32; rewrite Z.mod_small by (subst j; lia); auto). rewrite W3.
    destruct (nth_error arr (Z.to_nat j)) as [a|] eqn:Ej; [|apply nth_error_None in Ej; subst j; lia].
    destruct (nth_error arr (Z.to_nat i)) as [b|] eqn:Ei; [|apply nth_error_None in Ei; lia].
    assert (W4 : wrap32 (i + 1) = i + 1) by (unfold wrap32; rewrite Z.mod_small by lia; auto). rewrite W4.
    assert (Hlen : length (upd (upd arr (Z.to_nat j) b) (Z.to_nat i) a) = length arr) by (rewrite !upd_length'; auto).
    destruct (IH (i + 1) (upd (upd arr (Z.to_nat j) b) (Z.to_nat i) a)) as (arr'&E&P).
    + intros N. rewrite N in Hlen. cbn in Hlen. lia.
    + rewrite Hlen. lia.
    + lia.
    + rewrite Hlen. lia.
    + exists arr'. split; auto. rewrite <- P. apply swap_perm; auto. subst j; lia.
Qed.

(** ** Extensions *)
Lemma ends_with_iff s e : str_ends_with s e = true <-> ends_with s e.
Proof.
  unfold str_ends_with, ends_with. destruct (Nat.ltb_spec (length s) (length e)) as [L|L].
  - split; [discriminate|]. intros [p ->]. rewrite app_length in L. lia.
  - rewrite (list_eqb_spec Z.eqb Z.eqb_eq). split.
    + intros H. exists (firstn (length s - length e) s). rewrite <- H at 2. rewrite firstn_skipn. reflexivity.
    + intros [p ->]. rewrite app_length. replace (length p + length e - length e)%nat with (length p) by lia. rewrite skipn_app, skipn_all, Nat.sub_diag. reflexivity.
Qed.
Lemma ends_excl s a b : length a = length b -> a <> b -> str_ends_with s a = true -> str_ends_with s b = false.
Proof.
  intros L N H. destruct (str_ends_with s b) eqn:K; auto. apply ends_with_iff in H, K. destruct H as [p ->], K as [q K].
  exfalso. apply N. assert (length p = length q) by (apply (f_equal (@length Z)) in K; rewrite !app_length in K; lia).
  clear L. revert q K H. induction p as [|x p IH]; intros [|y q] K H; cbn in *; try discriminate; auto. injection K as _ K. eauto.
Qed.

Section Build.
  Variable J : Z.
  Variable repository : list Z.
  Variable tal notif : option (list Z).
  Variable hash_file : list Z -> Z + list Z.
  Variable not_found not_match : action.
  Variable mft : rpki_uri.
  Hypothesis hf : forall p, hash_file p <> inl 0.
  Notation ok := (entry_ok J repository tal notif hash_file not_found not_match mft).
  Notation hv := (hash_validate_mft_file hash_file not_found not_match).

  Lemma entry_dec f u : uri_create_mft J repository tal notif mft (f_file f) = Ok u ->
    (hv u f < 0 /\ forall o, ~ ok f o) \/ (0 < hv u f /\ forall o, ok f o <-> o = None) \/ (hv u f = 0 /\ forall o, ok f o <-> o = Some u).
  Proof.
    intros HU. unfold hash_validate_mft_file.
    assert (INV : forall o, ok f o -> f_unused f = 0 /\ ((exists h, hash_file (u_local u) = inr h /\ (h = f_hash f \/ not_match <> INAC_ERROR) /\ o = Some u) \/
       (exists e, hash_file (u_local u) = inl e /\ (e = 2 \/ e = 13) /\ not_found <> INAC_ERROR /\ o = None))).
    { intros o H. inversion H as [f' u' A B C|f' u' h A B C D|f' u' e A B C D K]; subst; rewrite HU in A; injection A as <-; split; auto; [left|left|right]; eauto 6. }
    destruct (f_unused f =? 0) eqn:EU; cbn [negb].
    2:{ left. split; [lia|]. intros o H. apply INV in H. lia. }
    apply Z.eqb_eq in EU.
    destruct (hash_file (u_local u)) as [e|h] eqn:EH.
    - unfold c_EACCES, c_ENOENT. destruct ((e =? 13) || (e =? 2)) eqn:EE.
      + destruct not_found eqn:NF; cbn [incidence Z.eqb negb].
        * right; left. split; [lia|]. intros o. split; [|intros ->; eapply eo_missing; eauto; [lia|discriminate]].
          intros H. apply INV in H. destruct H as (_&[(h&C&_)|(e'&C&_&_&->)]); [discriminate|auto].
        * right; left. split; [lia|]. intros o. split; [|intros ->; eapply eo_missing; eauto; [lia|discriminate]].
          intros H. apply INV in H. destruct H as (_&[(h&C&_)|(e'&C&_&_&->)]); [discriminate|auto].
        * left. split; [lia|]. intros o H. apply INV in H. destruct H as (_&[(h&C&_)|(e'&C&_&N&_)]); [discriminate|congruence].
      + left. split. { assert (e <> 0) by (intros ->; eapply hf; eauto). destruct (e <? 0) eqn:Q; lia. }
        intros o H. apply INV in H. destruct H as (_&[(h&C&_)|(e'&C&N&_)]); [discriminate|]. injection C as ->. lia.
    - destruct (list_eqb Z.eqb (f_hash f) h) eqn:EQ.
      + apply (list_eqb_spec Z.eqb Z.eqb_eq) in EQ. subst h. right; right. split; auto. intros o. split; [|intros ->; eapply eo_match; eauto].
        intros H. apply INV in H. destruct H as (_&[(h&C&_&->)|(e'&C&_)]); [auto|discriminate].
      + destruct not_match eqn:NM; cbn [incidence].
        * right; right. split; auto. intros o. split; [|intros ->; eapply eo_mismatch; eauto; discriminate].
          intros H. apply INV in H. destruct H as (_&[(h'&C&_&->)|(e'&C&_)]); [auto|discriminate].
        * right; right. split; auto. intros o. split; [|intros ->; eapply eo_mismatch; eauto; discriminate].
          intros H. apply INV in H. destruct H as (_&[(h'&C&_&->)|(e'&C&_)]); [auto|discriminate].
        * left. split; [lia|]. intros o H. apply INV in H. destruct H as (_&[(h'&C&[->|N]&_)|(e'&C&_)]); [|congruence|discriminate].
          injection C as ->. assert (X : list_eqb Z.eqb (f_hash f) (f_hash f) = true) by (apply (list_eqb_spec Z.eqb Z.eqb_eq); auto). congruence.
  Qed.

  Definition kind (e : list Z) (u : rpki_uri) : bool := str_ends_with (u_global u) e.
  (** What adding the present files to [pp] gives. *)
  Definition extended (pp : rpp) (us : list rpki_uri) (pp' : rpp) : Prop :=
    pp_certs pp' = pp_certs pp ++ filter (kind (cstr ".cer")) us /\
    pp_roas pp' = pp_roas pp ++ filter (kind (cstr ".roa")) us /\
    pp_gbrs pp' = pp_gbrs pp ++ filter (kind (cstr ".gbr")) us /\
    match pp_crl pp with
    | Some c => filter (kind (cstr ".crl")) us = [] /\ pp_crl pp' = Some c
    | None => match filter (kind (cstr ".crl")) us with [] => pp_crl pp' = None | [c] => pp_crl pp' = Some c | _ => False end
    end.
  Lemma rpp_eq a b : pp_certs a = pp_certs b -> pp_roas a = pp_roas b -> pp_gbrs a = pp_gbrs b -> pp_crl a = pp_crl b -> a = b.
  Proof. destruct a, b; cbn; congruence. Qed.

  Lemma build_loop_iff : forall l pp pp', build_loop J repository tal notif hash_file not_found not_match mft l pp = Ok pp' <->
    exists us, Forall2 ok l us /\ extended pp (present us) pp'.
  Proof.
    induction l as [|f l IH]; intros pp pp'; cbn [build_loop].
    - split.
      + intros H. injection H as <-. exists []. split; [constructor|]. unfold extended. cbn. rewrite !app_nil_r. repeat split; auto. destruct (pp_crl pp); auto.
      + intros (us&F&X). inversion F; subst. unfold extended in X. cbn in X. rewrite !app_nil_r in X. destruct X as (A&B&C&D).
        f_equal. apply rpp_eq; auto. destruct (pp_crl pp); [destruct D as [_ D]|]; auto.
    - destruct (uri_create_mft J repository tal notif mft (f_file f)) as [u| |] eqn:HU; cbn [bind].
      2,3: split; [discriminate|]; intros (us&F&_); inversion F as [|? o ? ? H]; subst; inversion H; congruence.
      destruct (entry_dec f u HU) as [(E&HO)|[(E&HO)|(E&HO)]].
      + destruct (Z.ltb_spec (hv u f) 0); [|lia]. split; [discriminate|]. intros (us&F&_). inversion F as [|? o ? ? H']; subst. exfalso. eapply HO; eauto.
      + destruct (Z.ltb_spec (hv u f) 0); [lia|]. destruct (Z.ltb_spec 0 (hv u f)); [|lia]. rewrite IH. split.
        * intros (us&F&X). exists (None :: us). split; [constructor; auto; apply HO; auto|exact X].
        * intros (us&F&X). inversion F as [|? o ? us' H' F']; subst. apply HO in H'. subst o. exists us'. auto.
      + destruct (Z.ltb_spec (hv u f) 0); [lia|]. destruct (Z.ltb_spec 0 (hv u f)); [lia|].
        assert (ST : (exists us, Forall2 ok (f :: l) us /\ extended pp (present us) pp') <-> exists us, Forall2 ok l us /\ extended pp (u :: present us) pp').
        { split.
          - intros (us&F&X). inversion F as [|? o ? us' H' F']; subst. apply HO in H'. subst o. exists us'. auto.
          - intros (us&F&X). exists (Some u :: us). split; [constructor; auto; apply HO; auto|exact X]. }
        rewrite ST. clear ST HO.
        assert (EX : forall a b, a <> b -> length a = 4%nat -> length b = 4%nat -> kind a u = true -> kind b u = false) by (intros a b N La Lb; apply ends_excl; congruence).
        assert (STEP : forall pp1 us, 
           (kind (cstr ".cer") u = true /\ pp1 = rpp_add_cert pp u) \/
           (kind (cstr ".roa") u = true /\ pp1 = rpp_add_roa pp u) \/
           (kind (cstr ".gbr") u = true /\ pp1 = rpp_add_ghostbusters pp u) \/
           (kind (cstr ".crl") u = true /\ rpp_add_crl pp u = Some pp1) \/
           (kind (cstr ".cer") u = false /\ kind (cstr ".roa") u = false /\ kind (cstr ".gbr") u = false /\ kind (cstr ".crl") u = false /\ pp1 = pp) ->
           (extended pp1 us pp' <-> extended pp (u :: us) pp')).
        { intros pp1 us HS. unfold extended. cbn [filter].
          destruct HS as [(K&->)|[(K&->)|[(K&->)|[(K&HC)|(K1&K2&K3&K4&->)]]]].
          - rewrite (EX (cstr ".cer") (cstr ".roa") ltac:(vm_compute; discriminate) eq_refl eq_refl K), (EX (cstr ".cer") (cstr ".gbr") ltac:(vm_compute; discriminate) eq_refl eq_refl K), (EX (cstr ".cer") (cstr ".crl") ltac:(vm_compute; discriminate) eq_refl eq_refl K), K.
            cbn [rpp_add_cert pp_certs pp_roas pp_gbrs pp_crl]. rewrite <- app_assoc. reflexivity.
          - rewrite (EX (cstr ".roa") (cstr ".cer") ltac:(vm_compute; discriminate) eq_refl eq_refl K), (EX (cstr ".roa") (cstr ".gbr") ltac:(vm_compute; discriminate) eq_refl eq_refl K), (EX (cstr ".roa") (cstr ".crl") ltac:(vm_compute; discriminate) eq_refl eq_refl K), K.
            cbn [rpp_add_roa pp_certs pp_roas pp_gbrs pp_crl]. rewrite <- app_assoc. reflexivity.
          - rewrite (EX (cstr ".gbr") (cstr ".cer") ltac:(vm_compute; discriminate) eq_refl eq_refl K), (EX (cstr ".gbr") (cstr ".roa") ltac:(vm_compute; discriminate) eq_refl eq_refl K), (EX (cstr ".gbr") (cstr ".crl") ltac:(vm_compute; discriminate) eq_refl eq_refl K), K.
            cbn [rpp_add_ghostbusters pp_certs pp_roas pp_gbrs pp_crl]. rewrite <- app_assoc. reflexivity.
          - rewrite (EX (cstr ".crl") (cstr ".cer") ltac:(vm_compute; discriminate) eq_refl eq_refl K), (EX (cstr ".crl") (cstr ".roa") ltac:(vm_compute; discriminate) eq_refl eq_refl K), (EX (cstr ".crl") (cstr ".gbr") ltac:(vm_compute; discriminate) eq_refl eq_refl K), K.
            unfold rpp_add_crl in HC. destruct (pp_crl pp) as [c|] eqn:EC; [discriminate|]. injection HC as <-. cbn [pp_certs pp_roas pp_gbrs pp_crl].
            destruct (filter (kind (cstr ".crl")) us); [tauto|]. split; [intros (?&?&?&X&_); discriminate|tauto].
          - rewrite K1, K2, K3, K4. reflexivity. }
        change (str_ends_with (u_global u)) with (fun e => kind e u). cbn beta.
        destruct (kind (cstr ".cer") u) eqn:K1.
        { rewrite IH. split; intros (us&F&X); exists us; (split; [exact F|]); revert X; apply STEP; auto 10. }
        destruct (kind (cstr ".roa") u) eqn:K2.
        { rewrite IH. split; intros (us&F&X); exists us; (split; [exact F|]); revert X; apply STEP; auto 10. }
        destruct (kind (cstr ".crl") u) eqn:K3.
        { destruct (rpp_add_crl pp u) as [pp1|] eqn:HC.
          - rewrite IH. split; intros (us&F&X); exists us; (split; [exact F|]); revert X; apply STEP; auto 10.
          - split; [discriminate|]. intros (us&F&X). exfalso. unfold extended in X. cbn [filter] in X. rewrite K3 in X. unfold rpp_add_crl in HC.
            destruct (pp_crl pp); [|discriminate]. destruct X as (_&_&_&X&_). discriminate. }
        destruct (kind (cstr ".gbr") u) eqn:K4.
        { rewrite IH. split; intros (us&F&X); exists us; (split; [exact F|]); revert X; apply STEP; auto 10. }
        { rewrite IH. split; intros (us&F&X); exists us; (split; [exact F|]); revert X; apply STEP; auto 10. }
  Qed.

  Lemma build_loop_nub : forall l pp, (forall f, In f l -> uri_create_mft J repository tal notif mft (f_file f) <> UB) ->
    build_loop J repository tal notif hash_file not_found not_match mft l pp <> UB.
  Proof.
    induction l as [|f l IH]; intros pp HU; cbn [build_loop]; [discriminate|].
    assert (HI : forall pp, build_loop J repository tal notif hash_file not_found not_match mft l pp <> UB) by (intros; apply IH; intros; apply HU; right; auto).
    pose proof (HU f (or_introl eq_refl)). destruct (uri_create_mft J repository tal notif mft (f_file f)) as [u| |]; cbn [bind]; try congruence.
    repeat match goal with |- context [if ?b then _ else _] => destruct b end; auto; try discriminate.
    destruct (rpp_add_crl pp u); auto. discriminate.
  Qed.
End Build.

Lemma sublist_filter e us : sublist (fun u => ends_with (u_global u) e) us (filter (kind e) us).
Proof.
  induction us as [|u us IH]; cbn [filter]; [constructor|]. unfold kind at 1. destruct (str_ends_with (u_global u) e) eqn:K.
  - apply sl_in; auto. apply ends_with_iff; auto.
  - apply sl_out; auto. intros H. apply ends_with_iff in H. congruence.
Qed.
Lemma sublist_fun P us a b : sublist P us a -> sublist P us b -> a = b.
Proof. intros H. revert b. induction H; intros b K; inversion K; subst; auto; try contradiction. f_equal; auto. Qed.
Lemma filter_perm {A} (f : A -> bool) l l' : Permutation l l' -> Permutation (filter f l) (filter f l').
Proof.
  induction 1; cbn; auto; try (etransitivity; eauto).
  - destruct (f x); auto.
  - destruct (f x), (f y); auto. constructor.
Qed.
Lemma present_perm us us' : Permutation us us' -> Permutation (present us) (present us').
Proof. apply Permutation_flat_map. Qed.
Lemma Forall2_perm {A B} (R : A -> B -> Prop) l l' us : Permutation l l' -> Forall2 R l us -> exists us', Forall2 R l' us' /\ Permutation us us'.
Proof.
  intros P. revert us. induction P as [|x l l' P IH|x y l|l l1 l2 P1 IH1 P2 IH2]; intros us F.
  - inversion F; subst. exists []. auto.
  - inversion F as [|? u ? us' H F']; subst. destruct (IH us' F') as (us2&F2&P2). exists (u :: us2). auto.
  - inversion F as [|? u ? us' H F']; subst. inversion F' as [|? v ? us2 H' F2]; subst. exists (v :: u :: us2). split; [auto|constructor].
  - destruct (IH1 us F) as (us1&F1&Q1). destruct (IH2 us1 F1) as (us2&F2&Q2). exists us2. split; auto. etransitivity; eauto.
Qed.
