(** Proofs about certificate resources. *)
From Verif Require Import Base BaseLemmas PduWireSpec PduWireProofs Address AddressSpec AddressProofs
  SArray SArraySpec SArrayProofs Asn1 Resources ResourcesSpec.

(** ** Integers *)
Lemma shift_or v x : 0 <= v < 2 ^ 56 -> is_byte x ->
  Z.lor (Z.shiftl v 8 mod 18446744073709551616) x = v * 256 + x.
Proof.
  intros V X. unfold is_byte in X.
  change 18446744073709551616 with (2 ^ 64). rewrite Z.mod_small.
  2:{ rewrite Z.shiftl_mul_pow2 by lia. change (2 ^ 64) with (2 ^ 56 * 2 ^ 8). change (2 ^ 8) with 256. lia. }
  rewrite lor_shift_add by lia. reflexivity.
Qed.
Lemma fold_be b : (length b <= 8)%nat -> Forall is_byte b -> forall pre, Forall is_byte pre ->
  (length pre + length b <= 8)%nat ->
  fold_left (fun value x => Z.lor (Z.shiftl value 8 mod 18446744073709551616) x) b (be pre) = be (pre ++ b).
Proof.
  induction b as [|x b IH]; intros L F pre P LL; cbn [fold_left length] in *.
  - rewrite app_nil_r. reflexivity.
  - inversion F; subst.
    assert (B : be pre * 256 + x = be (pre ++ [x])) by (rewrite be_snoc; lia).
    rewrite shift_or; auto.
    + rewrite B. rewrite IH; auto; try lia.
      * rewrite <- app_assoc. reflexivity.
      * apply Forall_app; auto.
      * rewrite app_length; cbn [length]; lia.
    + pose proof (be_bound pre P) as BP.
      assert (256 ^ Z.of_nat (length pre) <= 256 ^ 7) by (apply Z.pow_le_mono_r; lia).
      change (256 ^ 7) with (2 ^ 56) in *. lia.
Qed.
Lemma skip_extra_spec b : Forall is_byte b ->
  match skip_extra b with
  | Some b' => be b' = be b /\ Forall is_byte b' /\ (length b' <= 8)%nat /\ be b < 2 ^ 64
  | None => 2 ^ 64 <= be b
  end.
Proof.
  induction b as [|x b IH]; intros F; cbn [skip_extra].
  - cbn. repeat split; auto; lia.
  - inversion F; subst. destruct (8 <? Z.of_nat (length (x :: b))) eqn:E.
    + cbn [length] in E. unfold is_byte in *. destruct (x =? 0) eqn:X; cbn [negb].
      * assert (x = 0) by lia; subst x. specialize (IH ltac:(assumption)).
        rewrite be_cons. replace (0 * 256 ^ Z.of_nat (length b) + be b) with (be b) by lia. exact IH.
      * rewrite be_cons. pose proof (be_bound b ltac:(assumption)).
        assert (256 ^ 8 <= 256 ^ Z.of_nat (length b)) by (apply Z.pow_le_mono_r; lia).
        change (256 ^ 8) with (2 ^ 64) in *.
        assert (1 * 256 ^ Z.of_nat (length b) <= x * 256 ^ Z.of_nat (length b)) by (apply Z.mul_le_mono_nonneg_r; lia).
        lia.
    + cbn [length] in E. repeat split; auto; [cbn [length]; lia|].
      pose proof (be_bound (x :: b) F) as B. cbn [length] in B.
      assert (256 ^ Z.of_nat (S (length b)) <= 256 ^ 8) by (apply Z.pow_le_mono_r; lia).
      change (256 ^ 8) with (2 ^ 64) in *. lia.
Qed.
Lemma integer_ulong b : Forall is_byte b ->
  asn_INTEGER2ulong b = if be b <? 2 ^ 64 then Some (be b) else None.
Proof.
  intros F. unfold asn_INTEGER2ulong, asn_INTEGER2umax. pose proof (skip_extra_spec b F) as S.
  destruct (skip_extra b) as [b'|].
  - destruct S as [E [F' [L LT]]]. replace (be b <? 2 ^ 64) with true by lia.
    change 0 with (be []). rewrite (fold_be b' L F' []); auto. cbn [app]. congruence.
  - replace (be b <? 2 ^ 64) with false by lia. reflexivity.
Qed.
Lemma ASId2u32_spec b : Forall is_byte b ->
  ASId2u32 b = if be b <? 2 ^ 32 then Ok (be b) else Err EINVAL.
Proof.
  intros F. unfold ASId2u32. rewrite integer_ulong by auto. unfold UINT_MAX.
  pose proof (be_bound b F).
  change (2 ^ 64) with 18446744073709551616. change (2 ^ 32) with 4294967296.
  destruct (be b <? 18446744073709551616) eqn:E.
  - destruct (4294967295 <? be b) eqn:E2; destruct (be b <? 4294967296) eqn:E3; auto; lia.
  - replace (be b <? 4294967296) with false by lia. reflexivity.
Qed.
Lemma integer_value_nonneg b : Forall is_byte b -> 0 <= integer_value b -> integer_value b = be b.
Proof.
  intros F. unfold integer_value. destruct b as [|x b]; [reflexivity|].
  destruct (x <? 128) eqn:E; auto. pose proof (be_bound _ F). lia.
Qed.

(** ** One family of resources *)
Definition rmap {A B} (f : A -> B) (r : res A) : res B :=
  match r with Ok a => Ok (f a) | Err e => Err e | UB => UB end.

Section Family.
  Context {A : Type} (cmp : A -> A -> sacmp) (num : A -> Z * Z) (ok : A -> Prop).
  Hypothesis cmp_num : forall a b, ok a -> ok b -> cmp a b = zcmp (num a) (num b).
  Hypothesis ok_num : forall a, ok a -> 0 <= fst (num a) <= snd (num a).
  Let invA := inv num ok.

  Definition gstep pol parent (cells : list (sarray A)) (mine : ptr) (d : res A) :=
    add_item (sarray_add cmp) (sarray_contains cmp) pol parent cells mine d.

  Lemma add_item_map {E} (add : sarray A -> E -> res (sarray A * Z)) contains (elem : E -> A) pol parent cells mine d :
    (forall s e, add s e = sarray_add cmp s (elem e)) ->
    (forall s e, contains s e = sarray_contains cmp s (elem e)) ->
    add_item add contains pol parent cells mine d = gstep pol parent cells mine (rmap elem d).
  Proof.
    intros Ha Hc. unfold gstep, add_item. destruct (match parent with Some pp => ptr_eqb mine pp | None => false end); auto.
    destruct d as [e| |]; cbn [rmap]; auto.
    destruct parent as [pp|]; cbn [bind].
    - destruct (cell cells pp) as [s| |]; cbn [bind]; auto. rewrite Hc.
      destruct (sarray_contains cmp s (elem e)) as [b| |]; cbn [bind]; auto.
      destruct b; cbn [negb]; auto. destruct mine; cbn [negb].
      + destruct (nth_error cells n); auto. rewrite Ha. auto.
      + destruct (nth_error (cells ++ [sarray_create A]) (length cells)); auto. rewrite Ha; auto.
    - cbn [negb]. destruct mine.
      + destruct (nth_error cells n); auto. rewrite Ha. auto.
      + destruct (nth_error (cells ++ [sarray_create A]) (length cells)); auto. rewrite Ha; auto.
  Qed.
  Lemma gstep_err pol parent cells mine e : gstep pol parent cells mine (Err e) = Ok (cells, mine, E_INVAL).
  Proof. unfold gstep, add_item. destruct (match parent with Some pp => ptr_eqb mine pp | None => false end); auto. Qed.

  Lemma item_loop_map {I} (step : list (sarray A) -> ptr -> I -> _) (dec : I -> res A) pol parent :
    (forall cells mine it, step cells mine it = gstep pol parent cells mine (dec it)) ->
    forall items cells mine, item_loop step cells mine items = item_loop (gstep pol parent) cells mine (map dec items).
  Proof.
    intros H. induction items as [|it items IH]; intros cells mine; cbn [item_loop map]; auto.
    rewrite H. destruct (gstep pol parent cells mine (dec it)) as [[[c m] e]| |]; cbn [bind]; auto.
    destruct (negb (e =? 0)); auto.
  Qed.

  (** Is a claim covered by the parent? *)
  Definition owned (old : list (sarray A)) (parent : option ptr) (r : Z * Z) : Prop :=
    match parent with
    | None => True
    | Some pp => inside (content num old pp) r
    end.
  Definition ownedb (old : list (sarray A)) (parent : option ptr) (r : Z * Z) : bool :=
    match parent with
    | None => true
    | Some pp => existsb (fun r' => (fst r' <=? fst r) && (snd r <=? snd r')) (content num old pp)
    end.
  Definition ptr_ok (cells : list (sarray A)) (p : ptr) : Prop :=
    match p with None => True | Some i => (i < length cells)%nat end.

  Lemma content_gaps old p : Forall invA old -> sorted_with_gaps (content num old p).
  Proof.
    intros F. destruct p as [i|]; cbn [content]; [|exact I].
    destruct (nth_error old i) as [s|] eqn:E; [|exact I].
    rewrite Forall_forall in F. destruct (F s (nth_error_In _ _ E)) as [_ [G _]]. exact G.
  Qed.
  Lemma ownedb_spec old parent r : Forall invA old -> fst r <= snd r ->
    (ownedb old parent r = true <-> owned old parent r).
  Proof.
    intros F V. destruct parent as [pp|]; cbn [owned ownedb]; [|tauto].
    rewrite existsb_exists. split.
    - intros [r' [IN B]] x X. exists r'. split; auto. lia.
    - intros SUB. destruct (subset_one _ _ (content_gaps old pp F) V SUB) as [r' [IN B]].
      exists r'. split; auto. lia.
  Qed.
  Lemma content_app old s p : ptr_ok old p -> content num (old ++ [s]) p = content num old p.
  Proof.
    destruct p as [i|]; cbn [content ptr_ok]; auto. intros L. rewrite nth_error_app1 by lia. reflexivity.
  Qed.

  (** The array being built, beside the old cells. *)
  Definition own_state (old cells : list (sarray A)) (mine : ptr) : Prop :=
    (mine = None /\ cells = old) \/
    (exists s, mine = Some (length old) /\ cells = old ++ [s] /\ invA s).

  Lemma upd_last (l : list (sarray A)) x y : upd (l ++ [x]) (length l) y = l ++ [y].
  Proof. apply upd_app. Qed.
  Lemma nth_last (l : list (sarray A)) x : nth_error (l ++ [x]) (length l) = Some x.
  Proof. rewrite nth_error_app2, Nat.sub_diag by lia. reflexivity. Qed.

  Lemma contains_parent old cells mine pp e : own_state old cells mine ->
    Forall invA old -> Forall (fun s => sa_count s < 2 ^ 31) old -> ptr_ok old pp -> ok e ->
    exists b, bind (cell cells pp) (fun s => sarray_contains cmp s e) = Ok b /\
      (b = true <-> owned old (Some pp) (num e)) /\ b = ownedb old (Some pp) (num e).
  Proof.
    intros OS F C P OKe. pose proof (ok_num _ OKe) as Ne.
    assert (H : exists b, bind (cell cells pp) (fun s => sarray_contains cmp s e) = Ok b /\
      (b = true <-> owned old (Some pp) (num e))).
    { destruct pp as [i|]; cbn [cell ptr_ok] in *.
      - assert (E : nth_error cells i = nth_error old i).
        { destruct OS as [[_ ->]|[s [_ [-> _]]]]; auto. apply nth_error_app1; auto. }
        rewrite E. destruct (nth_error old i) as [s|] eqn:N; [|apply nth_error_None in N; lia].
        cbn [bind]. rewrite Forall_forall in F, C.
        destruct (contains_spec cmp num ok cmp_num ok_num s e (F s (nth_error_In _ _ N)) OKe
                   (C s (nth_error_In _ _ N))) as [b [EB B]].
        exists b. split; auto. cbn [owned content]. rewrite N. exact B.
      - cbn [bind]. exists false. split; auto. split; [discriminate|]. cbn [owned content].
        intros SUB. destruct (SUB (fst (num e))) as [r [[] _]]. lia. }
    destruct H as [b [E B]]. exists b. split; auto. split; auto.
    pose proof (ownedb_spec old (Some pp) (num e) F ltac:(lia)) as OB.
    destruct b, (ownedb old (Some pp) (num e)); auto.
    - symmetry. apply OB. apply B. reflexivity.
    - apply B. apply OB. reflexivity.
  Qed.

  Lemma gstep_spec old pol parent cells mine e :
    own_state old cells mine -> Forall invA old -> Forall (fun s => sa_count s < 2 ^ 31) old ->
    match parent with Some pp => ptr_ok old pp | None => True end -> ok e ->
    Z.of_nat (length (content num cells mine)) + 1 < 2 ^ 31 ->
    exists cells' mine' err, gstep pol parent cells mine (Ok e) = Ok (cells', mine', err) /\
      own_state old cells' mine' /\ (mine <> None -> mine' <> None) /\
      (Z.of_nat (length (content num cells' mine')) <= Z.of_nat (length (content num cells mine)) + 1) /\
      ((err = 0 /\ ~ (mine = None /\ parent = Some None) /\
        (pol = RFC6484 -> owned old parent (num e)) /\
        (owned old parent (num e) -> may_follow (content num cells mine) (num e)) /\
        content num cells' mine' = content num cells mine ++ filter (ownedb old parent) [num e]) \/
       (err <> 0 /\
        ((mine = None /\ parent = Some None) \/ (pol = RFC6484 /\ ~ owned old parent (num e)) \/
         (owned old parent (num e) /\ ~ may_follow (content num cells mine) (num e))))).
  Proof.
    intros OS F C P OKe CNT. unfold gstep, add_item.
    destruct (match parent with Some pp => ptr_eqb mine pp | None => false end) eqn:PE.
    { exists cells, mine, E_INVAL. split; auto. split; auto. split; auto. split; [lia|]. right.
      split; [unfold E_INVAL; lia|]. left.
      destruct parent as [pp|]; [|discriminate]. destruct mine as [i|], pp as [j|]; try discriminate; auto.
      cbn [ptr_eqb] in PE. apply Nat.eqb_eq in PE. subst j. cbn [ptr_ok] in P.
      destruct OS as [[X _]|[s [X _]]]; [discriminate|]. inversion X. lia. }
    assert (NB : ~ (mine = None /\ parent = Some None)).
    { intros [-> ->]. discriminate. }
    assert (OWN : exists b, match parent with None => Ok true
                            | Some pp => bind (cell cells pp) (fun s => sarray_contains cmp s e) end = Ok b /\
                  (b = true <-> owned old parent (num e)) /\ b = ownedb old parent (num e)).
    { destruct parent as [pp|].
      - apply (contains_parent old cells mine); auto.
      - exists true. cbn [owned ownedb]. tauto. }
    destruct OWN as [b [-> [B BB]]]. cbn [bind].
    destruct b; cbn [negb].
    2:{ exists cells, mine, (match pol with RFC6484 => E_INVAL | RFC8360 => 0 end).
        split; auto. split; auto. split; auto. split; [lia|].
        assert (NO : ~ owned old parent (num e)) by (intros X; apply B in X; discriminate).
        destruct pol.
        - right. split; [unfold E_INVAL; lia|]. right; left. auto.
        - left. split; auto. split; auto. split; [discriminate|]. split; [tauto|].
          cbn [filter]. rewrite <- BB. rewrite app_nil_r. reflexivity. }
    assert (YES : owned old parent (num e)) by tauto.
    assert (GO : exists s0, match mine with
                            | None => (cells ++ [sarray_create A], length cells)
                            | Some i => (cells, i)
                            end = (old ++ [s0], length old) /\ invA s0 /\
                 map num (sa_elems s0) = content num cells mine).
    { destruct OS as [[-> ->]|[s [-> [-> Is]]]].
      - exists (sarray_create A). split; auto. split; [apply inv_create|]. reflexivity.
      - exists s. split; auto. split; auto. cbn [content]. rewrite nth_last. reflexivity. }
    destruct GO as [s0 [-> [I0 C0]]]. rewrite nth_last.
    destruct (add_spec cmp num ok cmp_num ok_num s0 e I0 OKe) as [s' [err [EA [I' CA]]]].
    { unfold sa_count. rewrite <- C0, map_length in CNT. lia. }
    rewrite EA. cbn [bind]. rewrite upd_last.
    exists (old ++ [s']), (Some (length old)), err. split; auto.
    split; [right; exists s'; auto|]. split; [discriminate|].
    assert (CC : content num (old ++ [s']) (Some (length old)) = map num (sa_elems s')).
    { cbn [content]. rewrite nth_last. reflexivity. }
    rewrite CC. rewrite C0 in CA.
    destruct CA as [[-> [MF ES]]|[NEG [MF ->]]].
    - rewrite ES, map_app, C0. split; [rewrite app_length; cbn [map length]; lia|].
      left. split; auto. split; auto. split; auto. split; auto.
      cbn [filter map]. rewrite <- BB. reflexivity.
    - rewrite C0. split; [lia|]. right. split; [lia|]. right; right. auto.
  Qed.

  (** The whole list. *)
  Definition good (d : res A) : Prop := match d with Ok a => ok a | Err _ => True | UB => False end.

  Lemma gloop_spec old pol parent ds : forall cells mine,
    own_state old cells mine -> Forall invA old -> Forall (fun s => sa_count s < 2 ^ 31) old ->
    match parent with Some pp => ptr_ok old pp | None => True end -> Forall good ds ->
    Z.of_nat (length (content num cells mine)) + Z.of_nat (length ds) < 2 ^ 31 ->
    exists cells' mine' err, item_loop (gstep pol parent) cells mine ds = Ok (cells', mine', err) /\
      own_state old cells' mine' /\
      Z.of_nat (length (content num cells' mine')) < 2 ^ 31 /\
      (err = 0 <-> exists els, ds = map Ok els /\
        (ds = [] \/ ~ (mine = None /\ parent = Some None)) /\
        (pol = RFC6484 -> Forall (fun e => owned old parent (num e)) els) /\
        (sorted_with_gaps (content num cells mine ++ filter (ownedb old parent) (map num els)))) /\
      (err = 0 -> exists els, ds = map Ok els /\
        content num cells' mine' = content num cells mine ++ filter (ownedb old parent) (map num els)).
  Proof.
    induction ds as [|d ds IH]; intros cells mine OS F C P G CNT.
    - exists cells, mine, 0. cbn [item_loop]. split; auto. split; auto.
      split; [cbn [length] in CNT; lia|]. split.
      + split; auto. intros _. exists []. split; auto. split; auto. split; auto.
        cbn [map filter]. rewrite app_nil_r.
        assert (FI : Forall invA cells).
        { destruct OS as [[_ ->]|[s [_ [-> I]]]]; auto. apply Forall_app; auto. }
        apply content_gaps; auto.
      + intros _. exists []. cbn [map filter]. rewrite app_nil_r. auto.
    - cbn [item_loop]. inversion G as [|? ? G1 G2]; subst. destruct d as [e|ec|]; [| |destruct G1].
      2:{ rewrite gstep_err. cbn [bind]. exists cells, mine, E_INVAL. split; auto. split; auto.
          cbn [length] in CNT. split; [lia|]. split; [|unfold E_INVAL; lia].
          split; [unfold E_INVAL; lia|]. intros [els [X _]]. destruct els; discriminate. }
      cbn [good] in G1. cbn [length] in CNT.
      destruct (gstep_spec old pol parent cells mine e OS F C P G1 ltac:(lia))
        as [cells1 [mine1 [err1 [-> [OS1 [MN [LEN1 CASES]]]]]]].
      cbn [bind]. pose proof (ok_num _ G1) as Ne. destruct CASES as [[-> [NB [POL [MF CE]]]]|[NZ WHY]].
      + cbn [negb Z.eqb].
        destruct (IH cells1 mine1 OS1 F C P G2 ltac:(lia)) as [cells' [mine' [err [-> [OS' [LEN' [IFF CON]]]]]]].
        exists cells', mine', err. split; auto. split; auto. split; auto.
        assert (MM : ~ (mine1 = None /\ parent = Some None)).
        { intros [-> PN]. apply NB. split; auto. destruct mine; auto. exfalso. apply MN; discriminate || auto. }
        assert (APP : forall els, content num cells mine ++ filter (ownedb old parent) (map num (e :: els)) =
                  content num cells1 mine1 ++ filter (ownedb old parent) (map num els)).
        { intros els. rewrite CE, <- app_assoc. cbn [map filter].
          destruct (ownedb old parent (num e)); reflexivity. }
        split.
        * rewrite IFF. split.
          -- intros [els [-> [_ [POL' S]]]]. exists (e :: els). split; auto. split; auto.
             split; [intros X; constructor; auto|]. rewrite APP. exact S.
          -- intros [els [EQ [_ [POL' S]]]]. destruct els as [|e' els]; [discriminate|].
             cbn [map] in EQ. inversion EQ; subst e' ds. exists els. split; auto. split; auto.
             split; [intros X; specialize (POL' X); inversion POL'; auto|]. rewrite <- APP. exact S.
        * intros Z0. destruct (CON Z0) as [els [-> EC]]. exists (e :: els). split; auto.
          rewrite APP. exact EC.
      + replace (err1 =? 0) with false by lia. cbn [negb].
        exists cells1, mine1, err1. split; auto. split; auto. split; [lia|]. split; [|lia].
        split; [lia|]. intros [els [EQ [NB [POL S]]]]. exfalso. destruct els as [|e' els]; [discriminate|].
        cbn [map] in EQ. inversion EQ; subst e' ds. clear EQ.
        destruct WHY as [W|[[W1 W2]|[W1 W2]]].
        * destruct NB as [NB|NB]; [discriminate|tauto].
        * specialize (POL W1). inversion POL; subst. auto.
        * apply W2. cbn [map filter] in S.
          rewrite (proj2 (ownedb_spec old parent (num e) F ltac:(lia)) W1) in S.
          intros r' IN. destruct (In_nth_error _ _ IN) as [i Hi].
          assert (L : (i < length (content num cells mine))%nat) by (apply nth_error_Some; congruence).
          apply (sorted_nth _ S i (length (content num cells mine)) r' (num e) L).
          -- rewrite nth_error_app1; auto.
          -- rewrite nth_error_app2, Nat.sub_diag by lia. reflexivity.
  Qed.

  (** What certificate processing does to one family: nothing, share the
      parent's pointer, or build a new array inside the parent's. *)
  Definition fam_state (old : list (sarray A)) (parent : option ptr) (cells : list (sarray A)) (mine : ptr) : Prop :=
    (mine = None /\ cells = old) \/
    (exists i, parent = Some (Some i) /\ mine = Some i /\ cells = old) \/
    (exists s, mine = Some (length old) /\ cells = old ++ [s] /\ invA s /\ sa_count s < 2 ^ 31).

  Lemma fam_state_ext old parent cells mine : fam_state old parent cells mine ->
    match parent with Some pp => ptr_ok old pp | None => True end ->
    Forall invA old -> Forall (fun s => sa_count s < 2 ^ 31) old ->
    Forall invA cells /\ Forall (fun s => sa_count s < 2 ^ 31) cells /\ ptr_ok cells mine /\
    (exists new, cells = old ++ new).
  Proof.
    intros [[-> ->]|[[i [-> [-> ->]]]|[s [-> [-> [I C]]]]]] P F FC.
    - repeat split; auto. exists []. rewrite app_nil_r; auto.
    - repeat split; auto. exists []. rewrite app_nil_r; auto.
    - split; [apply Forall_app; auto|]. split; [apply Forall_app; auto|].
      split; [cbn [ptr_ok]; rewrite app_length; cbn; lia|]. exists [s]; auto.
  Qed.

  Lemma own_fam old parent cells mine : own_state old cells mine ->
    Z.of_nat (length (content num cells mine)) < 2 ^ 31 -> fam_state old parent cells mine.
  Proof.
    intros [[-> ->]|[s [-> [-> I]]]] C; [left; auto|right; right].
    exists s. split; auto. split; auto. split; auto. cbn [content] in C. rewrite nth_last, map_length in C. exact C.
  Qed.
End Family.
