(** Proofs about resource sets. *)
From Verif Require Import Base BaseLemmas PduWireSpec PduWireProofs Address AddressSpec AddressProofs SArray SArraySpec.

(** ** A comparison over numbers, which the two C comparisons agree with *)
Definition zcmp (a b : Z * Z) : sacmp :=
  let '(l1, h1) := a in
  let '(l2, h2) := b in
  if (l1 =? l2) && (h1 =? h2) then SACMP_EQUAL
  else if (l1 <=? l2) && (h2 <=? h1) then SACMP_CHILD
  else if (l2 <=? l1) && (h1 <=? h2) then SACMP_PARENT
  else if h1 + 1 =? l2 then SACMP_ADJACENT_RIGHT
  else if h1 <? l2 then SACMP_RIGHT
  else if h2 + 1 =? l1 then SACMP_ADJACENT_LEFT
  else if h2 <? l1 then SACMP_LEFT
  else SACMP_INTERSECTION.

Lemma sorted_app_one l r : sorted_with_gaps l -> fst r <= snd r -> may_follow l r ->
  sorted_with_gaps (l ++ [r]).
Proof.
  induction l as [|a l IH]; cbn [sorted_with_gaps app]; intros S O M.
  - repeat split; auto.
  - destruct S as [S1 [S2 S3]]. repeat split; auto.
    + apply Forall_app; split; auto. constructor; auto. apply M; left; reflexivity.
    + apply IH; auto. intros r' I; apply M; right; exact I.
Qed.

Lemma sorted_nth l : sorted_with_gaps l -> forall i j a b, (i < j)%nat ->
  nth_error l i = Some a -> nth_error l j = Some b -> snd a + 1 < fst b.
Proof.
  induction l as [|x l IH]; intros S i j a b LT Ha Hb.
  - destruct i; discriminate.
  - destruct S as [S1 [S2 S3]]. destruct j as [|j]; [lia|].
    destruct i as [|i]; cbn [nth_error] in *.
    + inversion Ha; subst. rewrite Forall_forall in S2. apply S2. eapply nth_error_In; eauto.
    + apply (IH S3 i j a b); auto; lia.
Qed.
Lemma sorted_valid l : sorted_with_gaps l -> forall r, In r l -> fst r <= snd r.
Proof.
  induction l as [|x l IH]; intros S r I; [contradiction|].
  destruct S as [S1 [S2 S3]]. destruct I as [<-|I]; auto.
Qed.

Lemma may_follow_last l r a : sorted_with_gaps (l ++ [a]) -> (may_follow (l ++ [a]) r <-> snd a + 1 < fst r).
Proof.
  intros S; split; intros H.
  - apply H. apply in_or_app; right; left; reflexivity.
  - intros r' I. apply in_app_iff in I. destruct I as [I|[<-|[]]]; auto.
    destruct (In_nth_error _ _ I) as [i Hi].
    assert (LT : (i < length l)%nat) by (apply nth_error_Some; congruence).
    assert (snd r' + 1 < fst a).
    { eapply (sorted_nth _ S i (length l)); eauto.
      - rewrite nth_error_app1; auto.
      - rewrite nth_error_app2, Nat.sub_diag; auto. }
    assert (fst a <= snd a) by (eapply sorted_valid; [exact S|apply in_or_app; right; left; reflexivity]).
    lia.
Qed.

Section Generic.
  Context {A : Type} (cmp : A -> A -> sacmp) (num : A -> Z * Z) (ok : A -> Prop).
  Hypothesis cmp_num : forall a b, ok a -> ok b -> cmp a b = zcmp (num a) (num b).
  Hypothesis ok_num : forall a, ok a -> 0 <= fst (num a) <= snd (num a).

  (** What every reachable array satisfies. *)
  Definition inv (s : sarray A) : Prop :=
    Forall ok (sa_elems s) /\ sorted_with_gaps (map num (sa_elems s)) /\
    8 <= sa_len s /\ sa_count s <= sa_len s /\
    (exists k, sa_len s = 8 * 2 ^ Z.of_nat k /\ sa_len s <= Z.max 8 (2 * sa_count s)).

  Lemma inv_create : inv (sarray_create A).
  Proof.
    unfold inv, sarray_create, sa_count; cbn [sa_elems sa_len map length sorted_with_gaps].
    repeat split; auto; try lia. exists O. cbn. lia.
  Qed.

  Lemma last_elem (s : sarray A) : sa_count s <> 0 -> sa_count s < 4294967296 ->
    exists l a, sa_elems s = l ++ [a] /\
      nth_error (sa_elems s) (Z.to_nat (wrap32 (sa_count s - 1))) = Some a.
  Proof.
    intros NZ LT. unfold sa_count in *.
    destruct (exists_last (l := sa_elems s)) as [l [a E]].
    { destruct (sa_elems s); cbn in *; [lia|discriminate]. }
    exists l, a. split; auto. rewrite E in *. rewrite app_length in *; cbn [length] in *.
    rewrite wrap32_id by (unfold is_u32; lia).
    rewrite nth_error_app2 by lia.
    replace (Z.to_nat (Z.of_nat (length l + 1) - 1) - length l)%nat with O by lia. reflexivity.
  Qed.

  Lemma add_spec s e : inv s -> ok e -> sa_count s < 2 ^ 31 ->
    exists s' err, sarray_add cmp s e = Ok (s', err) /\ inv s' /\
      ((err = 0 /\ may_follow (map num (sa_elems s)) (num e) /\ sa_elems s' = sa_elems s ++ [e]) \/
       (err < 0 /\ ~ may_follow (map num (sa_elems s)) (num e) /\ s' = s)).
  Proof.
    intros I OKe CNT. pose proof I as I0.
    destruct I as [I1 [I2 [I3 [I4 [k [I5 I6]]]]]].
    unfold sarray_add.
    assert (GROW : may_follow (map num (sa_elems s)) (num e) ->
      exists len, (let len := if sa_len s <=? sa_count s then wrap32 (2 * sa_len s) else sa_len s in
        if sa_count s <? len then Ok (Build_sarray (sa_elems s ++ [e]) len, 0) else UB)
        = Ok (Build_sarray (sa_elems s ++ [e]) len, 0) /\ inv (Build_sarray (sa_elems s ++ [e]) len)).
    { intros MF. cbv zeta.
      assert (BASE : Forall ok (sa_elems s ++ [e]) /\ sorted_with_gaps (map num (sa_elems s ++ [e]))).
      { split; [apply Forall_app; split; auto|]. rewrite map_app. cbn [map].
        apply sorted_app_one; auto. apply ok_num in OKe; lia. }
      unfold sa_count in *.
      destruct (sa_len s <=? Z.of_nat (length (sa_elems s))) eqn:E.
      - assert (EQ : Z.of_nat (length (sa_elems s)) = sa_len s) by lia.
        rewrite wrap32_id by (unfold is_u32; lia).
        replace (Z.of_nat (length (sa_elems s)) <? 2 * sa_len s) with true by lia.
        exists (2 * sa_len s). split; auto. unfold inv, sa_count. cbn [sa_elems sa_len].
        destruct BASE as [B1 B2]. rewrite app_length; cbn [length].
        repeat split; auto; try lia. exists (S k).
        replace (Z.of_nat (S k)) with (Z.of_nat k + 1) by lia. rewrite Z.pow_add_r by lia.
        change (2 ^ 1) with 2. lia.
      - replace (Z.of_nat (length (sa_elems s)) <? sa_len s) with true by lia.
        exists (sa_len s). split; auto. unfold inv, sa_count. cbn [sa_elems sa_len].
        destruct BASE as [B1 B2]. rewrite app_length; cbn [length].
        repeat split; auto; try lia. exists k. lia. }
    unfold compare. destruct (sa_count s =? 0) eqn:Z0.
    - assert (EN : sa_elems s = []).
      { unfold sa_count in Z0. destruct (sa_elems s); auto. cbn in Z0. lia. }
      assert (MF : may_follow (map num (sa_elems s)) (num e)).
      { rewrite EN. intros r' []. }
      destruct (GROW MF) as [len [G1 G2]]. cbn [bind]. rewrite Z.eqb_refl. cbn [negb].
      cbv zeta in G1 |- *. rewrite G1. exists (Build_sarray (sa_elems s ++ [e]) len), 0. split; auto.
    - destruct (last_elem s) as [l [a [EL EN]]]; [lia|lia|].
      rewrite EN. cbn [bind].
      assert (OKa : ok a).
      { rewrite EL in I1. apply Forall_app in I1. destruct I1 as [_ I1]. inversion I1; auto. }
      rewrite (cmp_num a e OKa OKe).
      assert (MFI : may_follow (map num (sa_elems s)) (num e) <-> snd (num a) + 1 < fst (num e)).
      { rewrite EL, map_app. cbn [map]. apply may_follow_last. rewrite EL, map_app in I2. exact I2. }
      pose proof (ok_num _ OKa) as Na. pose proof (ok_num _ OKe) as Ne.
      assert (NO : forall err, err < 0 -> ~ (snd (num a) + 1 < fst (num e)) ->
        exists s' err0, (if negb (err =? 0) then Ok (s, err) else
          (let len := if sa_len s <=? sa_count s then wrap32 (2 * sa_len s) else sa_len s in
           if sa_count s <? len then Ok (Build_sarray (sa_elems s ++ [e]) len, 0) else UB)) = Ok (s', err0) /\
        inv s' /\
        ((err0 = 0 /\ may_follow (map num (sa_elems s)) (num e) /\ sa_elems s' = sa_elems s ++ [e]) \/
         (err0 < 0 /\ ~ may_follow (map num (sa_elems s)) (num e) /\ s' = s))).
      { intros err E1 E2. replace (err =? 0) with false by lia. cbn [negb].
        exists s, err. split; auto. split; auto. right. rewrite MFI. auto. }
      destruct (num a) as [l1 h1], (num e) as [l2 h2]; cbn [fst snd] in *.
      unfold zcmp.
      destruct ((l1 =? l2) && (h1 =? h2)) eqn:E1; [apply (NO (- EEQUAL)); unfold EEQUAL; lia|].
      destruct ((l1 <=? l2) && (h2 <=? h1)) eqn:E2; [apply (NO (- ECHILD2)); unfold ECHILD2; lia|].
      destruct ((l2 <=? l1) && (h1 <=? h2)) eqn:E3; [apply (NO (- EPARENT)); unfold EPARENT; lia|].
      destruct (h1 + 1 =? l2) eqn:E4; [apply (NO (- EADJRIGHT)); unfold EADJRIGHT; lia|].
      destruct (h1 <? l2) eqn:E5.
      { assert (MF : may_follow (map num (sa_elems s)) (l2, h2)) by (apply MFI; lia).
        destruct (GROW MF) as [len [G1 G2]]. rewrite Z.eqb_refl. cbn [negb]. cbv zeta in G1 |- *. rewrite G1.
        exists (Build_sarray (sa_elems s ++ [e]) len), 0. split; auto. }
      destruct (h2 + 1 =? l1) eqn:E6; [apply (NO (- EADJLEFT)); unfold EADJLEFT; lia|].
      destruct (h2 <? l1) eqn:E7; [apply (NO (- ELEFT)); unfold ELEFT; lia|].
      apply (NO (- EINTERSECTION)); unfold EINTERSECTION; lia.
  Qed.

  (** Membership. *)
  Definition subset (l : list (Z * Z)) (r : Z * Z) : Prop :=
    forall x, fst r <= x <= snd r -> covered l x.

  (** A range inside a gapped set lies in one of its members. *)
  Lemma subset_one l r : sorted_with_gaps l -> fst r <= snd r -> subset l r ->
    exists r', In r' l /\ fst r' <= fst r /\ snd r <= snd r'.
  Proof.
    intros S V SUB.
    destruct (SUB (fst r)) as [r1 [I1 B1]]; [lia|].
    exists r1. split; auto. split; [lia|].
    destruct (Z_le_gt_dec (snd r) (snd r1)) as [L|G]; auto. exfalso.
    destruct (SUB (snd r1 + 1)) as [r2 [I2 B2]]; [lia|].
    destruct (In_nth_error _ _ I1) as [i Hi]. destruct (In_nth_error _ _ I2) as [j Hj].
    destruct (lt_eq_lt_dec i j) as [[LT|EQ]|GT].
    - pose proof (sorted_nth _ S i j _ _ LT Hi Hj). lia.
    - subst j. rewrite Hi in Hj. inversion Hj; subst. lia.
    - pose proof (sorted_nth _ S j i _ _ GT Hj Hi). pose proof (sorted_valid _ S _ I1). lia.
  Qed.

  Lemma contains_loop_spec s e : inv s -> ok e -> 0 < sa_count s < 2 ^ 31 ->
    forall fuel left right, 0 <= left -> right < sa_count s -> -1 <= right ->
    left <= right + 1 -> right + 1 - left < Z.of_nat fuel ->
    (forall i a, nth_error (sa_elems s) i = Some a -> Z.of_nat i < left -> snd (num a) < fst (num e)) ->
    (forall i a, nth_error (sa_elems s) i = Some a -> right < Z.of_nat i -> snd (num e) < fst (num a)) ->
    right >= 0 ->
    exists b, contains_loop cmp s e fuel left right = Ok b /\
      (b = true <-> subset (map num (sa_elems s)) (num e)).
  Proof.
    intros I OKe CNT. destruct I as [I1 [I2 _]].
    pose proof (ok_num _ OKe) as Ne.
    assert (NOT : forall P : Prop, (P -> False) -> (false = true <-> P))
      by (intros P H; split; [discriminate|intros X; destruct (H X)]).
    assert (OUT : (forall i a, nth_error (sa_elems s) i = Some a ->
              ~ (fst (num a) <= fst (num e) /\ snd (num e) <= snd (num a))) ->
            ~ subset (map num (sa_elems s)) (num e)).
    { intros H SUB. destruct (subset_one _ _ I2 (proj2 Ne) SUB) as [r' [IN B]].
      apply in_map_iff in IN. destruct IN as [a [<- IN]].
      destruct (In_nth_error _ _ IN) as [i Hi]. apply (H i a Hi). lia. }
    induction fuel as [|fuel IH]; intros left right L0 RC RM LR F INVL INVR R0; [lia|].
    cbn [contains_loop].
    destruct (left <=? right) eqn:E.
    2:{ exists false. split; auto. apply NOT. intros SUB. revert SUB. apply OUT.
        intros i a Hi [B1 B2].
        destruct (Z_lt_le_dec (Z.of_nat i) left) as [T|T].
        - specialize (INVL i a Hi T). lia.
        - specialize (INVR i a Hi ltac:(lia)). lia. }
    cbv zeta.
    rewrite (wrap32_id (right - left)) by (unfold is_u32; lia).
    assert (MB : left <= left + (right - left) / 2 <= right).
    { split; [|]; Z.to_euclidean_division_equations; lia. }
    rewrite (wrap32_id (left + (right - left) / 2)) by (unfold is_u32; lia).
    set (mid := left + (right - left) / 2) in *.
    destruct (nth_error (sa_elems s) (Z.to_nat mid)) as [x|] eqn:HX.
    2:{ apply nth_error_None in HX. unfold sa_count in *. lia. }
    assert (OKx : ok x).
    { rewrite Forall_forall in I1. apply I1. eapply nth_error_In; eauto. }
    rewrite (cmp_num x e OKx OKe). pose proof (ok_num _ OKx) as Nx.
    assert (HXm : nth_error (map num (sa_elems s)) (Z.to_nat mid) = Some (num x))
      by (rewrite nth_error_map, HX; reflexivity).
    assert (BEFORE : forall i a, nth_error (sa_elems s) i = Some a -> Z.of_nat i < mid ->
              snd (num a) + 1 < fst (num x)).
    { intros i a Hi LT. eapply (sorted_nth _ I2 i (Z.to_nat mid)); eauto; [lia|].
      rewrite nth_error_map, Hi; reflexivity. }
    assert (AFTER : forall i a, nth_error (sa_elems s) i = Some a -> mid < Z.of_nat i ->
              snd (num x) + 1 < fst (num a)).
    { intros i a Hi LT. eapply (sorted_nth _ I2 (Z.to_nat mid) i); eauto; [lia|].
      rewrite nth_error_map, Hi; reflexivity. }
    assert (IDX : forall i a, nth_error (sa_elems s) i = Some a ->
       Z.of_nat i < mid \/ (Z.of_nat i > mid) \/ a = x).
    { intros i a Hi. destruct (Z.eq_dec (Z.of_nat i) mid) as [EQ|NE]; [|lia].
      right; right. assert (i = Z.to_nat mid) by lia. subst i. congruence. }
    assert (YES : fst (num x) <= fst (num e) -> snd (num e) <= snd (num x) ->
      exists b, Ok true = Ok b /\ (b = true <-> subset (map num (sa_elems s)) (num e))).
    { intros B1 B2. exists true. split; auto. split; auto. intros _ y By.
      exists (num x). split; [apply in_map; eapply nth_error_In; eauto|lia]. }
    assert (LEFT : snd (num e) < fst (num x) ->
      exists b, (if mid =? 0 then Ok false else contains_loop cmp s e fuel left (wrap32 (mid - 1))) = Ok b /\
        (b = true <-> subset (map num (sa_elems s)) (num e))).
    { intros LT. destruct (mid =? 0) eqn:M0.
      - exists false. split; auto. apply NOT. intros SUB; revert SUB. apply OUT.
        intros i a Hi [B1 B2]. destruct (IDX i a Hi) as [T|[T| ->]]; [lia| |lia].
        pose proof (AFTER i a Hi ltac:(lia)). lia.
      - rewrite wrap32_id by (unfold is_u32; lia).
        apply IH; auto; try lia.
        intros i a Hi LT2. destruct (IDX i a Hi) as [T|[T| ->]]; [lia| |lia].
        pose proof (AFTER i a Hi ltac:(lia)). lia. }
    assert (RIGHT : snd (num x) < fst (num e) ->
      exists b, (if mid =? wrap32 (sa_count s - 1) then Ok false
                 else contains_loop cmp s e fuel (wrap32 (mid + 1)) right) = Ok b /\
        (b = true <-> subset (map num (sa_elems s)) (num e))).
    { intros LT. rewrite (wrap32_id (sa_count s - 1)) by (unfold is_u32; lia).
      destruct (mid =? sa_count s - 1) eqn:M0.
      - exists false. split; auto. apply NOT. intros SUB; revert SUB. apply OUT.
        intros i a Hi [B1 B2]. destruct (IDX i a Hi) as [T|[T| ->]]; [| |lia].
        + pose proof (BEFORE i a Hi T). lia.
        + assert (i < length (sa_elems s))%nat by (apply nth_error_Some; congruence).
          unfold sa_count in *. lia.
      - rewrite wrap32_id by (unfold is_u32; lia).
        apply IH; auto; try lia.
        intros i a Hi LT2. destruct (IDX i a Hi) as [T|[T| ->]]; [|lia|lia].
        pose proof (BEFORE i a Hi ltac:(lia)). lia. }
    assert (NEVER : ~ (fst (num x) <= fst (num e) /\ snd (num e) <= snd (num x)) ->
              fst (num x) <= snd (num e) -> fst (num e) <= snd (num x) ->
      exists b, Ok false = Ok b /\ (b = true <-> subset (map num (sa_elems s)) (num e))).
    { intros N O1 O2. exists false. split; auto. apply NOT. intros SUB; revert SUB. apply OUT.
      intros i a Hi [B1 B2]. destruct (IDX i a Hi) as [T|[T| ->]]; [| |lia].
      - pose proof (BEFORE i a Hi T). lia.
      - pose proof (AFTER i a Hi ltac:(lia)). lia. }
    destruct (num x) as [l1 h1], (num e) as [l2 h2]; cbn [fst snd] in *.
    unfold zcmp.
    destruct ((l1 =? l2) && (h1 =? h2)) eqn:E1; [apply YES; lia|].
    destruct ((l1 <=? l2) && (h2 <=? h1)) eqn:E2; [apply YES; lia|].
    destruct ((l2 <=? l1) && (h1 <=? h2)) eqn:E3; [apply NEVER; lia|].
    destruct (h1 + 1 =? l2) eqn:E4; [apply RIGHT; lia|].
    destruct (h1 <? l2) eqn:E5; [apply RIGHT; lia|].
    destruct (h2 + 1 =? l1) eqn:E6; [apply LEFT; lia|].
    destruct (h2 <? l1) eqn:E7; [apply LEFT; lia|].
    apply NEVER; lia.
  Qed.

  Lemma contains_spec s e : inv s -> ok e -> sa_count s < 2 ^ 31 ->
    exists b, sarray_contains cmp (Some s) e = Ok b /\
      (b = true <-> subset (map num (sa_elems s)) (num e)).
  Proof.
    intros I OKe CNT. unfold sarray_contains. pose proof (ok_num _ OKe) as Ne.
    destruct (sa_count s =? 0) eqn:Z0.
    - exists false. split; auto. split; [discriminate|]. intros SUB.
      destruct (SUB (fst (num e))) as [r [IN _]]; [lia|].
      unfold sa_count in Z0. destruct (sa_elems s); cbn in *; [contradiction|lia].
    - assert (0 <= sa_count s) by (unfold sa_count; lia).
      rewrite wrap32_id by (unfold is_u32; lia).
      apply contains_loop_spec; auto; try lia.
      + unfold sa_count; lia.
      + intros i a Hi LT. assert (i < length (sa_elems s))%nat by (apply nth_error_Some; congruence).
        unfold sa_count in *. lia.
  Qed.

  (** Histories of additions. *)
  Definition run_adds (ops : list A) : res (sarray A) :=
    fold_left (fun r e => bind r (fun s => bind (sarray_add cmp s e) (fun p => Ok (fst p)))) ops
      (Ok (sarray_create A)).

  Lemma kept_length ops l : kept ops l -> (length l <= length ops)%nat.
  Proof. induction 1; try rewrite !app_length; cbn [length] in *; lia. Qed.

  Lemma run_adds_spec ops : Forall ok ops -> Z.of_nat (length ops) < 2 ^ 31 ->
    exists s, run_adds ops = Ok s /\ inv s /\ kept (map num ops) (map num (sa_elems s)).
  Proof.
    induction ops as [|e ops IH] using rev_ind; intros OK LEN.
    - exists (sarray_create A). split; [reflexivity|]. split; [apply inv_create|]. constructor.
    - rewrite app_length in LEN; cbn [length] in LEN.
      apply Forall_app in OK. destruct OK as [OK1 OK2]. inversion OK2; subst.
      destruct IH as [s [R [I K]]]; auto; [lia|].
      unfold run_adds in *. rewrite fold_left_app, R. cbn [fold_left bind].
      pose proof (kept_length _ _ K) as KL. rewrite !map_length in KL.
      destruct (add_spec s e) as [s' [err [EA [I' C]]]]; auto; [unfold sa_count; lia|].
      rewrite EA. cbn [bind fst]. exists s'. split; auto. split; auto.
      rewrite map_app. cbn [map].
      destruct C as [[_ [MF ->]]|[_ [MF ->]]].
      + rewrite map_app; cbn [map]. constructor; auto.
      + constructor; auto.
  Qed.
End Generic.

(** ** The instances *)
Lemma u32_cmp_num a b : range_ok (2 ^ 32) a -> range_ok (2 ^ 32) b -> u32_range_cmp a b = zcmp a b.
Proof.
  destruct a as [l1 h1], b as [l2 h2]. unfold range_ok; cbn [fst snd]. intros A B.
  change (2 ^ 32) with 4294967296 in *.
  unfold u32_range_cmp, zcmp.
  repeat match goal with |- (if ?c then _ else _) = (if ?c then _ else _) => destruct c; auto end.
  assert (E1 : (negb (l2 =? 0) && (h1 =? wrap32 (l2 - 1))) = (h1 + 1 =? l2)).
  { destruct (l2 =? 0) eqn:Z0; cbn [negb andb]; [lia|]. rewrite wrap32_id by (unfold is_u32; lia). lia. }
  assert (E2 : (negb (l1 =? 0) && (h2 =? wrap32 (l1 - 1))) = (h2 + 1 =? l1)).
  { destruct (l1 =? 0) eqn:Z0; cbn [negb andb]; [lia|]. rewrite wrap32_id by (unfold is_u32; lia). lia. }
  rewrite E1, E2. reflexivity.
Qed.

Lemma memcmp_be a : forall b, length a = length b -> Forall is_byte a -> Forall is_byte b ->
  memcmp a b = match be a ?= be b with Lt => -1 | Eq => 0 | Gt => 1 end.
Proof.
  induction a as [|x a IH]; intros [|y b] L A B; cbn [length] in L; try lia.
  - reflexivity.
  - inversion A; inversion B; subst. cbn [memcmp]. rewrite !be_cons.
    replace (length b) with (length a) by lia.
    pose proof (be_bound a ltac:(assumption)) as BA. pose proof (be_bound b ltac:(assumption)) as BB.
    replace (length b) with (length a) in BB by lia.
    set (p := 256 ^ Z.of_nat (length a)) in *.
    destruct (x =? y) eqn:E.
    + assert (x = y) by lia; subst y. rewrite IH by (auto; lia).
      destruct (be a ?= be b) eqn:C; symmetry.
      * apply Z.compare_eq in C. rewrite C, Z.compare_refl. reflexivity.
      * rewrite Z.compare_lt_iff in C. replace (_ ?= _) with Lt; auto. symmetry; apply Z.compare_lt_iff; lia.
      * rewrite Z.compare_gt_iff in C. replace (_ ?= _) with Gt; auto. symmetry; apply Z.compare_gt_iff; lia.
    + destruct (x <? y) eqn:E2.
      * replace (_ ?= _) with Lt; auto. symmetry; apply Z.compare_lt_iff.
        assert (x * p + p <= y * p) by (apply Z.le_trans with ((x + 1) * p); [lia|apply Z.mul_le_mono_nonneg_r; lia]). lia.
      * replace (_ ?= _) with Gt; auto. symmetry; apply Z.compare_gt_iff.
        assert (y * p + p <= x * p) by (apply Z.le_trans with ((y + 1) * p); [lia|apply Z.mul_le_mono_nonneg_r; lia]). lia.
Qed.
Lemma addr_equals_be a b : addr6_ok a -> addr6_ok b -> addr_equals a b = (be a =? be b).
Proof.
  intros [L1 A] [L2 B]. unfold addr_equals, addr_cmp. rewrite memcmp_be by (auto; lia).
  destruct (be a ?= be b) eqn:C;
    rewrite ?Z.compare_eq_iff, ?Z.compare_lt_iff, ?Z.compare_gt_iff in C; lia.
Qed.
Lemma addr_le_be a b : addr6_ok a -> addr6_ok b -> addr_le a b = (be a <=? be b).
Proof.
  intros [L1 A] [L2 B]. unfold addr_le, addr_cmp. rewrite memcmp_be by (auto; lia).
  destruct (be a ?= be b) eqn:C;
    rewrite ?Z.compare_eq_iff, ?Z.compare_lt_iff, ?Z.compare_gt_iff in C; lia.
Qed.
Lemma addr_lt_be a b : addr6_ok a -> addr6_ok b -> addr_lt a b = (be a <? be b).
Proof.
  intros [L1 A] [L2 B]. unfold addr_lt, addr_cmp. rewrite memcmp_be by (auto; lia).
  destruct (be a ?= be b) eqn:C;
    rewrite ?Z.compare_eq_iff, ?Z.compare_lt_iff, ?Z.compare_gt_iff in C; lia.
Qed.

Lemma upd_app {A} (l m : list A) x y : upd (l ++ x :: m) (length l) y = l ++ y :: m.
Proof. induction l as [|a l IH]; cbn; [reflexivity|f_equal; exact IH]. Qed.

(** The loop increments the first [i] bytes as one number. *)
Lemma increment_spec l : forall m, Forall is_byte l -> Forall is_byte m ->
  match increment (length l) (l ++ m) with
  | Some a1 => exists l', a1 = l' ++ m /\ length l' = length l /\ Forall is_byte l' /\ be l' = be l + 1
  | None => be l + 1 = 256 ^ Z.of_nat (length l)
  end.
Proof.
  induction l as [|x l IH] using rev_ind; intros m OKl OKm.
  - cbn. reflexivity.
  - apply Forall_app in OKl. destruct OKl as [OKl OKx]. inversion OKx; subst. clear OKx.
    rewrite app_length, <- app_assoc. cbn [length app]. rewrite Nat.add_1_r. cbn [increment].
    rewrite app_nth2, Nat.sub_diag by lia. cbn [nth].
    unfold is_byte in *.
    destruct (x =? 255) eqn:E; cbn [negb].
    + assert (x = 255) by lia; subst x. rewrite upd_app.
      assert (OK0 : Forall is_byte (0 :: m)) by (constructor; [unfold is_byte; lia|auto]).
      specialize (IH (0 :: m) OKl OK0).
      destruct (increment (length l) (l ++ 0 :: m)) as [a1|].
      * destruct IH as [l' [-> [L [B V]]]]. exists (l' ++ [0]).
        rewrite <- app_assoc. split; [reflexivity|]. rewrite app_length; cbn [length].
        split; [lia|]. split; [apply Forall_app; split; auto; constructor; [unfold is_byte; lia|auto]|].
        rewrite !be_snoc, V. lia.
      * rewrite be_snoc. replace (Z.of_nat (S (length l))) with (Z.of_nat (length l) + 1) by lia.
        rewrite Z.pow_add_r by lia. change (256 ^ 1) with 256. lia.
    + rewrite upd_app. exists (l ++ [x + 1]). rewrite <- app_assoc. split; [reflexivity|].
      rewrite app_length; cbn [length]. split; [lia|].
      split; [apply Forall_app; split; auto; constructor; [unfold is_byte; lia|auto]|].
      rewrite !be_snoc. lia.
Qed.

Lemma addr_is_successor_be a b : addr6_ok a -> addr6_ok b -> addr_is_successor a b = (be a + 1 =? be b).
Proof.
  intros [L1 A] [L2 B]. unfold addr_is_successor.
  pose proof (increment_spec a [] A (Forall_nil _)) as S. rewrite app_nil_r in S. rewrite L1 in S.
  destruct (increment 16 a) as [a1|].
  - destruct S as [l' [-> [L [OK V]]]]. rewrite app_nil_r.
    rewrite memcmp_be by (auto; lia). rewrite V.
    destruct (be a + 1 ?= be b) eqn:C;
      rewrite ?Z.compare_eq_iff, ?Z.compare_lt_iff, ?Z.compare_gt_iff in C; lia.
  - pose proof (be_bound b B) as BB. rewrite L2 in BB. lia.
Qed.

Lemma r6_cmp_num a b : range6_ok a -> range6_ok b -> r6_cmp a b = zcmp (num6 a) (num6 b).
Proof.
  destruct a as [l1 h1], b as [l2 h2]. unfold range6_ok, num6; cbn [fst snd].
  intros [A1 [A2 A3]] [B1 [B2 B3]]. unfold r6_cmp, zcmp.
  rewrite !addr_equals_be, !addr_le_be, !addr_lt_be, !addr_is_successor_be by assumption.
  reflexivity.
Qed.

Lemma range_ok_num a : range_ok (2 ^ 32) a -> 0 <= fst a <= snd a.
Proof. unfold range_ok; lia. Qed.
Lemma range6_ok_num a : range6_ok a -> 0 <= fst (num6 a) <= snd (num6 a).
Proof.
  unfold range6_ok, num6; cbn [fst snd]. intros [[L A] [_ O]].
  pose proof (be_bound _ A). lia.
Qed.

Lemma pton_range addr len : prefix_ok 32 addr len ->
  pton (addr, len) = prefix_range 32 addr len /\ range_ok (2 ^ 32) (prefix_range 32 addr len).
Proof.
  intros [L [A M]]. unfold pton, prefix_range, range_ok; cbn [fst snd].
  rewrite u32_suffix_mask_spec by auto. rewrite lor_mask by (auto; lia).
  split; [f_equal; lia|].
  pose proof (Z.pow_pos_nonneg 2 (32 - len) ltac:(lia) ltac:(lia)) as P.
  assert (D : addr = 2 ^ (32 - len) * (addr / 2 ^ (32 - len))) by (apply Z_div_exact_full_2; lia).
  assert (S : 2 ^ 32 = 2 ^ (32 - (32 - len)) * 2 ^ (32 - len)) by (apply pow_split; lia).
  set (p := 2 ^ (32 - len)) in *. set (q := addr / p) in *. set (w := 2 ^ (32 - (32 - len))) in *.
  assert (q < w) by (apply Z.mul_lt_mono_pos_r with p; lia).
  assert (q * p + p <= w * p) by (apply Z.le_trans with ((q + 1) * p); [lia|apply Z.mul_le_mono_nonneg_r; lia]).
  lia.
Qed.

Lemma ptor_range addr len : addr6_ok addr -> prefix_ok 128 (be addr) len ->
  range6_ok (ptor (addr, len)) /\ num6 (ptor (addr, len)) = prefix_range 128 (be addr) len.
Proof.
  intros [LA OA] [L [A M]]. unfold ptor, range6_ok, num6, prefix_range; cbn [fst snd].
  pose proof (suffix_mask6_be len addr L LA OA) as SB.
  destruct SB as [SB3 [SB1 SB2]]. rewrite SB3.
  rewrite lor_mask by (auto; lia).
  pose proof (Z.pow_pos_nonneg 2 (128 - len) ltac:(lia) ltac:(lia)) as P.
  unfold addr6_ok. repeat split; auto; try lia.
Qed.
