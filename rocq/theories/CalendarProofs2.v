(** The calendar, for C106: from one 400-year cycle to all. *)
From Coq Require Import String.
From Verif Require Import Base BaseLemmas CString Calendar CalendarSpec CalendarProofs.
Notation length := List.length.
Open Scope list_scope.
Open Scope Z_scope.

Lemma leapb_cycle y e : leapb (y + 400 * e) = leapb y.
Proof.
  unfold leapb. replace (y + 400 * e) with (y + (100 * e) * 4) at 1 by lia. rewrite Z.mod_add by lia.
  replace (y + 400 * e) with (y + (4 * e) * 100) at 1 by lia. rewrite Z.mod_add by lia.
  replace (y + 400 * e) with (y + e * 400) by lia. rewrite Z.mod_add by lia. reflexivity.
Qed.
Lemma mlen_cycle y m e : mlen (y + 400 * e) m = mlen y m.
Proof. unfold mlen. rewrite leapb_cycle. reflexivity. Qed.
Definition shift (e : Z) (p : Z * Z * Z) : Z * Z * Z := let '(y, m, d) := p in (y + 400 * e, m, d).
Lemma nxt_shift e p : nxt (shift e p) = shift e (nxt p).
Proof.
  destruct p as [[y m] d]. unfold nxt, shift. rewrite mlen_cycle. destruct (d <? mlen y m); auto. destruct (m <? 12); auto.
  replace (y + 400 * e + 1) with (y + 1 + 400 * e) by lia. reflexivity.
Qed.
Lemma validb_shift e p : validb (shift e p) = validb p.
Proof. destruct p as [[y m] d]. unfold validb, shift. rewrite mlen_cycle. reflexivity. Qed.
Lemma civil_shift z : civil z = shift ((z + 719468) / 146097) (civil_in_era ((z + 719468) mod 146097)).
Proof. unfold civil. destruct (civil_in_era _) as [[y m] d]. reflexivity. Qed.
Lemma dfc_shift e y m d : days_from_civil (y + 400 * e) m d = e * 146097 + days_from_civil y m d.
Proof.
  unfold days_from_civil. cbv zeta.
  replace (if m <=? 2 then y + 400 * e - 1 else y + 400 * e) with ((if m <=? 2 then y - 1 else y) + e * 400) by (destruct (m <=? 2); lia).
  rewrite Z.mod_add, Z.div_add by lia. lia.
Qed.
Lemma dfc_day y m d : days_from_civil y m d = days_from_civil y m 1 + (d - 1).
Proof. unfold days_from_civil. lia. Qed.

Lemma civil_facts z : let '(y, m, d) := civil z in validb (y, m, d) = true /\ days_from_civil y m d = z /\ civil (z + 1) = nxt (y, m, d).
Proof.
  set (e := (z + 719468) / 146097). set (k := (z + 719468) mod 146097).
  assert (K : 0 <= k < 146097) by (apply Z.mod_pos_bound; lia). assert (Z0 : z + 719468 = 146097 * e + k) by (apply Z.div_mod; lia).
  assert (OK := cycle_ok k K). assert (C : civil z = shift e (civil_in_era k)) by apply civil_shift. clearbody e k. rewrite C.
  unfold day_ok in OK. destruct (civil_in_era k) as [[y m] d] eqn:P. rewrite !andb_true_iff in OK. destruct OK as [[[[[[V N] D] _] _] _] _].
  change (shift e (y, m, d)) with (y + 400 * e, m, d) in *.
  split; [apply (eq_trans (validb_shift e (y, m, d)) V)|]. split; [rewrite dfc_shift; apply Z.eqb_eq in D; lia|].
  change (y + 400 * e, m, d) with (shift e (y, m, d)). rewrite nxt_shift. apply dateb_eq in N. rewrite N, civil_shift.
  destruct (k =? 146096) eqn:E.
  - assert (Q : z + 1 + 719468 = (e + 1) * 146097) by lia. rewrite Q, Z.div_mul, Z.mod_mul by lia.
    change (civil_in_era 0) with (0, 3, 1). unfold shift. replace (400 + 400 * e) with (0 + 400 * (e + 1)) by lia. reflexivity.
  - assert (Q : z + 1 + 719468 = (k + 1) + e * 146097) by lia. rewrite Q, Z.div_add, Z.mod_add by lia.
    rewrite (Z.div_small (k + 1)), (Z.mod_small (k + 1)) by lia. reflexivity.
Qed.
Lemma civil_valid z : validb (civil z) = true.
Proof. pose proof (civil_facts z) as H. destruct (civil z) as [[y m] d]. tauto. Qed.
Lemma civil_next z : civil (z + 1) = nxt (civil z).
Proof. pose proof (civil_facts z) as H. destruct (civil z) as [[y m] d]. tauto. Qed.
Lemma civil_back z y m d : civil z = (y, m, d) -> days_from_civil y m d = z.
Proof. intros E. pose proof (civil_facts z) as H. rewrite E in H. tauto. Qed.

(** The date of a day is what counting gives. *)
Lemma civil_epoch : civil 0 = (1970, 1, 1). Proof. reflexivity. Qed.
Lemma civil_is_day z : is_day z (civil z).
Proof.
  assert (U : forall n : nat, is_day (Z.of_nat n) (civil (Z.of_nat n))).
  { induction n as [|n IH]; [exact ID_epoch|]. rewrite Nat2Z.inj_succ. unfold Z.succ. rewrite civil_next. apply ID_after with (1 := IH), nxt_sound, civil_valid. }
  assert (D : forall n : nat, is_day (- Z.of_nat n) (civil (- Z.of_nat n))).
  { induction n as [|n IH]; [exact ID_epoch|]. rewrite Nat2Z.inj_succ.
    replace (- Z.succ (Z.of_nat n)) with (- Z.of_nat n - 1) by lia. apply ID_before with (1 := IH).
    replace (- Z.of_nat n) with (- Z.of_nat n - 1 + 1) at 2 by lia. rewrite civil_next. apply nxt_sound, civil_valid. }
  destruct (Z_le_gt_dec 0 z); [rewrite <- (Z2Nat.id z) by lia; apply U|].
  replace z with (- Z.of_nat (Z.to_nat (- z))) by lia. apply D.
Qed.
Lemma is_day_civil n p : is_day n p -> p = civil n.
Proof.
  induction 1 as [|n d d' I IH N|n d d' I IH N]; [reflexivity| |].
  - apply next_fun in N. destruct N as (-> & _). rewrite civil_next, IH. reflexivity.
  - apply next_fun in N. destruct N as (E & V & _). apply nxt_inj; auto using civil_valid. rewrite <- civil_next.
    replace (n - 1 + 1) with n by lia. congruence.
Qed.

(** Years. *)
Lemma year_range z : 0 <= z < 2932897 -> let '(y, _, _) := civil z in 1970 <= y <= 9999.
Proof.
  intros H. rewrite civil_shift. set (e := (z + 719468) / 146097). set (k := (z + 719468) mod 146097).
  assert (K : 0 <= k < 146097) by (apply Z.mod_pos_bound; lia). assert (Z0 : z + 719468 = 146097 * e + k) by (apply Z.div_mod; lia).
  assert (OK := cycle_ok k K). clearbody e k. unfold day_ok in OK. destruct (civil_in_era k) as [[y m] d]. rewrite !andb_true_iff in OK. cbn [shift].
  destruct OK as [[[[[[_ _] _] A] B] C] D]. assert (4 <= e <= 24) by lia.
  destruct (k <=? 146036) eqn:E, (135080 <=? k) eqn:F; lia.
Qed.
Lemma year_late z : 2932897 <= z -> let '(y, _, _) := civil z in 10000 <= y.
Proof.
  intros H. rewrite civil_shift. set (e := (z + 719468) / 146097). set (k := (z + 719468) mod 146097).
  assert (K : 0 <= k < 146097) by (apply Z.mod_pos_bound; lia). assert (Z0 : z + 719468 = 146097 * e + k) by (apply Z.div_mod; lia).
  assert (OK := cycle_ok k K). clearbody e k. unfold day_ok in OK. destruct (civil_in_era k) as [[y m] d]. rewrite !andb_true_iff in OK. cbn [shift].
  destruct OK as [[[[[[_ _] _] A] B] C] _]. assert (24 <= e) by lia.
  destruct (k <=? 146036) eqn:E; lia.
Qed.

(** Every first of a month is some day. *)
Definition first_ok (k : Z) : bool := let y := k / 12 in let m := k mod 12 + 1 in dateb (civil (days_from_civil y m 1)) (y, m, 1).
Lemma firsts_ok k : 0 <= k < 4800 -> first_ok k = true.
Proof. apply (chk_spec first_ok (Z.to_nat 4800) 0). vm_compute. reflexivity. Qed.
Lemma civil_cycle z e : civil (e * 146097 + z) = shift e (civil z).
Proof.
  rewrite !civil_shift. replace (e * 146097 + z + 719468) with (z + 719468 + e * 146097) by lia. rewrite Z.div_add, Z.mod_add by lia.
  destruct (civil_in_era _) as [[y m] d]. unfold shift. set (q := (z + 719468) / 146097). replace (y + 400 * (q + e)) with (y + 400 * q + 400 * e) by lia. reflexivity.
Qed.
Lemma first_of_month y m : 1 <= m <= 12 -> is_day (days_from_civil y m 1) (y, m, 1).
Proof.
  intros M. pose proof (Z.div_mod y 400 ltac:(lia)) as D. pose proof (Z.mod_pos_bound y 400 ltac:(lia)) as B. set (e := y / 400) in *. set (r := y mod 400) in *.
  assert (OK := firsts_ok (r * 12 + (m - 1)) ltac:(lia)). unfold first_ok in OK. cbv zeta in OK.
  replace ((r * 12 + (m - 1)) / 12) with r in OK by (apply (Z.div_unique _ _ r (m - 1)); lia).
  replace ((r * 12 + (m - 1)) mod 12 + 1) with m in OK by (rewrite <- (Z.mod_unique (r * 12 + (m - 1)) 12 r (m - 1)); lia).
  apply dateb_eq in OK. replace y with (r + 400 * e) by lia. rewrite dfc_shift.
  assert (E : civil (e * 146097 + days_from_civil r m 1) = (r + 400 * e, m, 1)) by (rewrite civil_cycle, OK; reflexivity).
  rewrite <- E. apply civil_is_day.
Qed.
