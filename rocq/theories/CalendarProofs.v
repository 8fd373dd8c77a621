(** The calendar, for C106. *)
From Coq Require Import String.
From Verif Require Import Base BaseLemmas CString Calendar CalendarSpec.
Notation length := List.length.
Open Scope list_scope.
Open Scope Z_scope.

(** ** The calendar, as a function *)
Definition leapb (y : Z) : bool := (y mod 4 =? 0) && (negb (y mod 100 =? 0) || (y mod 400 =? 0)).
Definition mlen (y m : Z) : Z :=
  if m =? 2 then if leapb y then 29 else 28
  else if (m =? 4) || (m =? 6) || (m =? 9) || (m =? 11) then 30 else 31.
Definition nxt (p : Z * Z * Z) : Z * Z * Z :=
  let '(y, m, d) := p in
  if d <? mlen y m then (y, m, d + 1) else if m <? 12 then (y, m + 1, 1) else (y + 1, 1, 1).
Definition validb (p : Z * Z * Z) : bool :=
  let '(y, m, d) := p in (1 <=? m) && (m <=? 12) && (1 <=? d) && (d <=? mlen y m).
Definition dateb (p q : Z * Z * Z) : bool :=
  let '(y, m, d) := p in let '(y', m', d') := q in (y =? y') && (m =? m') && (d =? d').
Lemma dateb_eq p q : dateb p q = true -> p = q.
Proof. destruct p as [[y m] d], q as [[y' m'] d']. unfold dateb. intros H. repeat f_equal; lia. Qed.

Lemma leapb_iff y : leapb y = true <-> leap_year y.
Proof.
  unfold leapb, leap_year. rewrite andb_true_iff, orb_true_iff, negb_true_iff, Z.eqb_neq, !Z.eqb_eq.
  rewrite <- (Z.mod_divide y 4), <- (Z.mod_divide y 100), <- (Z.mod_divide y 400) by lia. tauto.
Qed.
Lemma mlen_spec y m : 1 <= m <= 12 -> month_length y m (mlen y m).
Proof.
  intros H. unfold mlen. destruct (m =? 2) eqn:E.
  - apply Z.eqb_eq in E. subst m. destruct (leapb y) eqn:L; [apply ML29, leapb_iff; auto|apply ML28; rewrite <- leapb_iff, L; discriminate].
  - destruct ((m =? 4) || (m =? 6) || (m =? 9) || (m =? 11)) eqn:F; [apply ML30|apply ML31]; cbn; lia.
Qed.
Lemma month_length_fun y m n : month_length y m n -> 1 <= m <= 12 /\ n = mlen y m /\ 28 <= n.
Proof.
  intros [m' I|m' I|L|L].
  - cbn in I. repeat (destruct I as [<-|I]; [repeat split; reflexivity || lia|]). contradiction.
  - cbn in I. repeat (destruct I as [<-|I]; [repeat split; reflexivity || lia|]). contradiction.
  - apply leapb_iff in L. unfold mlen. cbn. rewrite L. lia.
  - rewrite <- leapb_iff in L. unfold mlen. cbn. destruct (leapb y); [congruence|lia].
Qed.
Lemma mlen28 y m : 28 <= mlen y m <= 31.
Proof. unfold mlen. destruct (m =? 2), (leapb y), ((m =? 4) || (m =? 6) || (m =? 9) || (m =? 11)); lia. Qed.
Lemma nxt_sound p : validb p = true -> next_day p (nxt p).
Proof.
  destruct p as [[y m] d]. unfold validb, nxt. intros V. assert (M := mlen_spec y m ltac:(lia)).
  destruct (d <? mlen y m) eqn:E; [apply ND_day with (1 := M); lia|].
  assert (d = mlen y m) by lia. subst d. destruct (m <? 12) eqn:F; [apply ND_month; auto; lia|].
  assert (m = 12) by lia. subst m. apply ND_year.
Qed.
Lemma next_fun p q : next_day p q -> q = nxt p /\ validb p = true /\ validb q = true.
Proof.
  intros [y m d n M D|y m n M L|y]; try apply month_length_fun in M; unfold nxt, validb.
  - destruct M as (A & -> & _). destruct (d <? mlen y m) eqn:E; [|lia]. repeat split; lia.
  - destruct M as (A & -> & B). rewrite Z.ltb_irrefl. destruct (m <? 12) eqn:E; [|lia]. pose proof (mlen28 y (m + 1)). repeat split; lia.
  - change (mlen y 12) with 31. change (mlen (y + 1) 1) with 31. auto.
Qed.
Lemma nxt_inj p q : validb p = true -> validb q = true -> nxt p = nxt q -> p = q.
Proof.
  destruct p as [[y m] d], q as [[y' m'] d']. unfold validb, nxt. intros V W.
  assert (Q : (d <? mlen y m) = false -> d = mlen y m) by lia. assert (Q' : (d' <? mlen y' m') = false -> d' = mlen y' m') by lia.
  assert (G : y = y' -> m = m' -> d = d' -> (y, m, d) = (y', m', d')) by (intros; subst; reflexivity).
  assert (B : y = y' -> m = m' -> mlen y m = mlen y' m') by (intros; subst; reflexivity).
  destruct (d <? mlen y m) eqn:E, (d' <? mlen y' m') eqn:E'; try destruct (m <? 12) eqn:F; try destruct (m' <? 12) eqn:F'; intros H; injection H; clear H; intros; try lia; apply G; lia.
Qed.

(** ** One cycle *)
Fixpoint chk (P : Z -> bool) (n : nat) (z : Z) : bool :=
  match n with O => true | S n => if P z then chk P n (z + 1) else false end.
Lemma chk_spec P n : forall z, chk P n z = true -> forall k, z <= k < z + Z.of_nat n -> P k = true.
Proof.
  induction n as [|n IH]; intros z H k K; [lia|]. cbn [chk] in H. destruct (P z) eqn:E; [|discriminate].
  destruct (Z.eq_dec k z) as [->|]; auto. apply (IH (z + 1) H). lia.
Qed.
Definition day_ok (k : Z) : bool :=
  let p := civil_in_era k in let '(y, m, d) := p in
  validb p && dateb (nxt p) (if k =? 146096 then (400, 3, 1) else civil_in_era (k + 1)) && (days_from_civil y m d =? k - 719468) &&
  (0 <=? y) && (y <=? 400) && (if k <=? 146036 then y <=? 399 else y =? 400) && (if 135080 <=? k then 370 <=? y else true).
(** A cycle's years, which start in March: the first day of each, and the days after it. *)
Definition start (y : Z) : Z := 365 * y + y / 4 - y / 100.
Definition ylen (b : bool) : Z := if b then 366 else 365.
Definition yend (y : Z) : Z := start y + ylen (leapb (y + 1)).
Definition year_of (k : Z) : Z := (k - k / 1460 + k / 36524 - k / 146096) / 365.
Definition moy (j : Z) : Z := let mp := (5 * j + 2) / 153 in if mp <? 10 then mp + 3 else mp - 9.
Definition dom (j : Z) : Z := j - (153 * ((5 * j + 2) / 153) + 2) / 5 + 1.
Definition off (j : Z) : Z := if moy j <=? 2 then 1 else 0.
Definition cv (y j : Z) : Z * Z * Z := (y + off j, moy j, dom j).
Definition year_ok (y : Z) : bool :=
  (year_of (start y) =? y) && (year_of (yend y - 1) =? y) && (yend y =? if y =? 399 then 146097 else start (y + 1)) && (0 <=? start y) &&
  (if y <? 399 then yend y <=? 146037 else start y =? 145731) && (if y <? 369 then yend y <=? 134774 else (134774 <=? start y)).
Definition mlenb (b : bool) (m : Z) : Z :=
  if m =? 2 then if b then 29 else 28
  else if (m =? 4) || (m =? 6) || (m =? 9) || (m =? 11) then 30 else 31.
Definition doy_ok (b : bool) (j : Z) : bool :=
  let m := moy j in let d := dom j in let o := off j in
  (1 <=? m) && (m <=? 12) && (1 <=? d) && (d <=? mlenb b m) && ((153 * ((m + 9) mod 12) + 2) / 5 + d - 1 =? j) && (if j <? 306 then o =? 0 else o =? 1) &&
  dateb (if d <? mlenb b m then (o, m, d + 1) else if m <? 12 then (o, m + 1, 1) else (o + 1, 1, 1))
        (if j + 1 <? ylen b then (off (j + 1), moy (j + 1), dom (j + 1)) else (1, 3, 1)).
Lemma years_ok y : 0 <= y < 400 -> year_ok y = true.
Proof. apply (chk_spec year_ok (Z.to_nat 400) 0). vm_compute. reflexivity. Qed.
Lemma doys_ok b j : 0 <= j < ylen b -> doy_ok b j = true.
Proof. destruct b; [apply (chk_spec (doy_ok true) (Z.to_nat 366) 0)|apply (chk_spec (doy_ok false) (Z.to_nat 365) 0)]; vm_compute; reflexivity. Qed.
Lemma year_step k : 0 <= k < 146096 -> year_of k <= year_of (k + 1).
Proof.
  intros K. unfold year_of. apply Z.div_le_mono; [lia|].
  assert (A : (k + 1) / 1460 <= k / 1460 + 1) by (clear; Z.to_euclidean_division_equations; lia).
  assert (B : k / 36524 <= (k + 1) / 36524) by (apply Z.div_le_mono; lia).
  rewrite (Z.div_small k 146096) by lia. destruct (Z.eq_dec k 146095) as [->|]; [vm_compute; discriminate|]. rewrite (Z.div_small (k + 1) 146096) by lia. revert A B. generalize (k / 1460) ((k + 1) / 1460) (k / 36524) ((k + 1) / 36524). intros. lia.
Qed.
Lemma year_mono k n : 0 <= k -> 0 <= n -> k + n <= 146096 -> year_of k <= year_of (k + n).
Proof.
  intros K N. pattern n. apply natlike_ind; [|..|exact N].
  - intros _. rewrite Z.add_0_r. lia.
  - intros x X IH L. etransitivity; [apply IH; lia|]. replace (k + Z.succ x) with (k + x + 1) by lia. apply year_step. lia.
Qed.
Lemma era y j : 0 <= y < 400 -> 0 <= j < ylen (leapb (y + 1)) -> civil_in_era (start y + j) = cv y j.
Proof.
  intros Y J. assert (O := years_ok y Y). unfold year_ok in O. rewrite !andb_true_iff in O. destruct O as (((((A & B) & C) & D) & E) & F).
  assert (G : yend y <= 146097) by (destruct (y <? 399) eqn:Q in E; [lia|]; assert (y = 399) by lia; subst y; vm_compute; discriminate).
  assert (H : year_of (start y + j) = y).
  { unfold yend in *. pose proof (year_mono (start y) j ltac:(lia) ltac:(lia) ltac:(lia)).
    pose proof (year_mono (start y + j) (ylen (leapb (y + 1)) - 1 - j) ltac:(lia) ltac:(lia) ltac:(lia)) as M.
    replace (start y + j + (ylen (leapb (y + 1)) - 1 - j)) with (start y + ylen (leapb (y + 1)) - 1) in M by lia. lia. }
  unfold civil_in_era. fold (year_of (start y + j)). rewrite H. fold (start y). replace (start y + j - start y) with j by lia.
  unfold cv, off, moy, dom. cbv zeta. f_equal. f_equal. destruct (_ <=? 2); lia.
Qed.
Lemma in_year k : 0 <= k < 146097 -> exists y j, 0 <= y < 400 /\ 0 <= j < ylen (leapb (y + 1)) /\ k = start y + j.
Proof.
  intros K. assert (forall n, 0 <= n -> n <= 399 -> k < yend n -> exists y j, 0 <= y < 400 /\ 0 <= j < ylen (leapb (y + 1)) /\ k = start y + j) as H.
  { intros n N. pattern n. apply natlike_ind; [|..|exact N].
    - intros _ L. exists 0, k. change (start 0) with 0. change (yend 0) with (0 + ylen (leapb (0 + 1))) in L. lia.
    - intros x X IH L U. destruct (Z_lt_le_dec k (yend x)) as [Q|Q]; [apply IH; lia|].
      assert (O := years_ok x ltac:(lia)). unfold year_ok in O. rewrite !andb_true_iff in O. destruct O as ((((_ & C) & _) & _) & _).
      destruct (x =? 399) eqn:R; [lia|]. exists (Z.succ x), (k - start (Z.succ x)). unfold yend in U. replace (Z.succ x) with (x + 1) in * by lia. lia. }
  apply (H 399); try lia. change (yend 399) with 146097. lia.
Qed.
Lemma ylen_pos b : 365 <= ylen b <= 366. Proof. destruct b; unfold ylen; lia. Qed.
Lemma T3 (a b c a' b' c' : Z) : a = a' -> b = b' -> c = c' -> (a, b, c) = (a', b', c'). Proof. congruence. Qed.
Lemma mlen_b y m : mlen y m = mlenb (leapb y) m. Proof. reflexivity. Qed.
Lemma mlen_other b b' m : m <> 2 -> mlenb b m = mlenb b' m.
Proof. intros H. unfold mlenb. destruct (m =? 2) eqn:E; [lia|reflexivity]. Qed.
Lemma cycle_ok k : 0 <= k < 146097 -> day_ok k = true.
Proof.
  intros K. destruct (in_year k K) as (y & j & Y & J & E). assert (D := doys_ok _ j J). assert (O := years_ok y Y).
  assert (C := era y j Y J). rewrite <- E in C.
  assert (N : (if k =? 146096 then (400, 3, 1) else civil_in_era (k + 1)) = if j + 1 <? ylen (leapb (y + 1)) then cv y (j + 1) else (y + 1, 3, 1)).
  { unfold year_ok in O. rewrite !andb_true_iff in O. destruct O as (((((_ & _) & Q) & _) & F) & _).
    destruct (j + 1 <? ylen (leapb (y + 1))) eqn:L.
    - rewrite E. replace (start y + j + 1) with (start y + (j + 1)) by lia. rewrite (era y (j + 1)) by lia.
      unfold yend in *. destruct (_ =? 146096) eqn:R; [|reflexivity]. destruct (y <? 399) eqn:T; [lia|]. assert (y = 399) by lia. subst y. change (399 =? 399) with true in Q. cbv iota in Q. lia.
    - unfold yend in *. destruct (y =? 399) eqn:T.
      + destruct (k =? 146096) eqn:R; [f_equal; f_equal; lia|lia].
      + destruct (y <? 399) eqn:U in F; [|lia]. destruct (k =? 146096) eqn:R; [lia|].
        replace (k + 1) with (start (y + 1) + 0) by lia. rewrite era; [|lia|pose proof (ylen_pos (leapb (y + 1 + 1))); lia].
        unfold cv. change (off 0) with 0. change (moy 0) with 3. change (dom 0) with 1. f_equal. f_equal. lia. }
  unfold day_ok. rewrite C, N. clear C N. unfold cv at 1 2 3. cbv zeta beta iota.
  unfold doy_ok in D. cbv zeta in D. rewrite !andb_true_iff in D. destruct D as ((((((M1 & M2) & D1) & D2) & B) & P) & S).
  assert (OF : off j = if moy j <=? 2 then 1 else 0) by reflexivity.
  assert (ML : mlen (y + off j) (moy j) = mlenb (leapb (y + 1)) (moy j)).
  { rewrite mlen_b. destruct (moy j =? 2) eqn:T; [rewrite OF; destruct (moy j <=? 2) eqn:U; [reflexivity|lia]|apply mlen_other; lia]. }
  apply dateb_eq in S. unfold validb, cv, nxt. rewrite ML.
  assert (NX : (if dom j <? mlenb (leapb (y + 1)) (moy j) then (y + off j, moy j, dom j + 1) else if moy j <? 12 then (y + off j, moy j + 1, 1) else (y + off j + 1, 1, 1)) =
               (if j + 1 <? ylen (leapb (y + 1)) then (y + off (j + 1), moy (j + 1), dom (j + 1)) else (y + 1, 3, 1))).
  { destruct (dom j <? _), (j + 1 <? _); try destruct (moy j <? 12); injection S; intros; apply T3; lia. }
  rewrite NX. assert (DB : forall p, dateb p p = true) by (intros [[a b] c]; unfold dateb; rewrite !Z.eqb_refl; reflexivity). rewrite DB.
  assert (DF : days_from_civil (y + off j) (moy j) (dom j) = k - 719468).
  { unfold days_from_civil. cbv zeta. replace (if moy j <=? 2 then y + off j - 1 else y + off j) with y by (rewrite OF; destruct (moy j <=? 2); lia).
    rewrite (Z.mod_small y 400), (Z.div_small y 400) by lia. unfold start in E. lia. }
  rewrite DF, Z.eqb_refl. unfold year_ok in O. rewrite !andb_true_iff in O. destruct O as (((((_ & _) & _) & _) & F) & G).
  assert (QO : off j = 0 /\ j < 306 \/ off j = 1 /\ 306 <= j) by (destruct (j <? 306) eqn:U in P; lia).
  assert (X : y = 369 -> start y = 134774) by (intros ->; reflexivity).
  unfold yend in *. clear OF NX S DB ML DF B. rewrite !andb_true_iff.
  destruct (y <? 399) eqn:U1 in F; destruct (y <? 369) eqn:U2 in G; (destruct (k <=? 146036) eqn:U3; destruct (135080 <=? k) eqn:U4); repeat split; lia.
Qed.
