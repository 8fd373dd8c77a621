From Verif Require Import Base BaseLemmas DArray DArraySpec.

Section P.
  Context {D : Type}.
  Implicit Types (a : darray D) (ds : list D).

  Definition window (lifetime k : Z) : Z := Z.min k lifetime.

  (** The ring after [ds] additions. *)
  Record Inv (lifetime : Z) a ds : Prop := {
    inv_alloc : Z.of_nat (length (da_slots a)) = lifetime;
    inv_len : da_len a = Z.min (Z.of_nat (length ds)) lifetime;
    inv_last : da_last a = if (length ds =? 0)%nat then UINT_MAX
                           else (Z.of_nat (length ds) - 1) mod lifetime;
    inv_slot : forall i, Z.of_nat (length ds) - da_len a <= i < Z.of_nat (length ds) ->
      exists d, nth_error ds (Z.to_nat i) = Some d /\
        nth_error (da_slots a) (Z.to_nat (i mod lifetime)) = Some (Some d)
  }.

  Lemma Inv_create lifetime : 0 <= lifetime -> Inv lifetime (darray_create lifetime) [].
  Proof.
    intros H. constructor; cbn.
    - rewrite repeat_length. lia.
    - lia.
    - reflexivity.
    - intros i Hi. lia.
  Qed.

  Lemma slot_set_ok (l : list (option D)) i d :
    0 <= i < Z.of_nat (length l) -> slot_set l i d = Ok (upd l (Z.to_nat i) (Some d)).
  Proof.
    intros H. unfold slot_set.
    destruct (Z.ltb_spec i 0); [lia|].
    destruct (Z.leb_spec (Z.of_nat (length l)) i); [lia|]. reflexivity.
  Qed.

  Lemma slot_get_some (l : list (option D)) i s :
    0 <= i -> nth_error l (Z.to_nat i) = Some s -> slot_get l i = Ok s.
  Proof.
    intros H E. unfold slot_get. rewrite E. destruct (Z.ltb_spec i 0); [lia|]. reflexivity.
  Qed.

  Lemma mod_unique x y L : 0 < L -> x mod L = y mod L -> Z.abs (x - y) < L -> x = y.
  Proof.
    intros HL E HA.
    pose proof (Z.div_mod x L ltac:(lia)) as D1. pose proof (Z.div_mod y L ltac:(lia)) as D2.
    rewrite E in D1.
    assert (x / L = y / L) by nia. congruence.
  Qed.

  Lemma Inv_add lifetime a ds d :
    1 <= lifetime < 2147483648 -> Inv lifetime a ds ->
    exists a', darray_add lifetime a d = Ok a' /\ Inv lifetime a' (ds ++ [d]).
  Proof.
    intros HL [HA HN HLa HS]. unfold darray_add.
    set (k := Z.of_nat (length ds)) in *.
    assert (Hk : Z.of_nat (length (ds ++ [d])) = k + 1).
    { rewrite app_length. cbn. lia. }
    assert (HkN : (length (ds ++ [d]) =? 0)%nat = false).
    { rewrite app_length. cbn. apply Nat.eqb_neq. lia. }
    assert (Hlast : nth_error (ds ++ [d]) (Z.to_nat k) = Some d).
    { unfold k. rewrite Nat2Z.id, nth_error_app2 by lia.
      rewrite Nat.sub_diag. reflexivity. }
    assert (Hold : forall i, 0 <= i < k ->
              nth_error (ds ++ [d]) (Z.to_nat i) = nth_error ds (Z.to_nat i)).
    { intros i Hi. rewrite nth_error_app1 by lia. reflexivity. }
    destruct (Z.ltb_spec (da_len a) lifetime) as [Hlt|Hge].
    - (* not full *)
      assert (E : da_len a = k) by lia. rewrite E in *.
      rewrite slot_set_ok by lia.
      eexists; split; [reflexivity|]. constructor; cbn.
      + rewrite upd_length. exact HA.
      + rewrite Hk, wrap32_id by (unfold is_u32; lia). lia.
      + rewrite HkN, Hk. rewrite Z.mod_small; lia.
      + rewrite Hk, wrap32_id by (unfold is_u32; lia).
        intros i Hi. rewrite (Z.mod_small i) by lia.
        destruct (Z.eq_dec i k) as [->|Hne].
        * exists d. split; [exact Hlast|]. apply upd_same. lia.
        * destruct (HS i ltac:(lia)) as (d' & H1 & H2).
          exists d'. rewrite Hold by lia. split; [exact H1|].
          rewrite upd_other by lia. rewrite (Z.mod_small i) in H2 by lia. exact H2.
    - (* full *)
      assert (E : da_len a = lifetime) by lia. rewrite E in *.
      assert (Hkl : lifetime <= k) by lia.
      destruct (Nat.eqb_spec (length ds) 0) as [Hz|Hnz]; [lia|].
      assert (Hfirst : (if da_last a =? wrap32 (lifetime - 1) then 0
                        else wrap32 (da_last a + 1)) = k mod lifetime).
      { rewrite HLa. rewrite wrap32_id by (unfold is_u32; lia).
        assert (0 <= (k-1) mod lifetime < lifetime) by (apply Z.mod_pos_bound; lia).
        destruct (Z.eqb_spec ((k - 1) mod lifetime) (lifetime - 1)) as [E1|E1].
        - pose proof (Z.div_mod (k-1) lifetime ltac:(lia)) as DM. rewrite E1 in DM.
          replace k with (0 + ((k - 1) / lifetime + 1) * lifetime) by lia.
          rewrite Z.mod_add by lia. reflexivity.
        - rewrite wrap32_id by (unfold is_u32; lia).
          pose proof (Z.div_mod (k-1) lifetime ltac:(lia)) as DM.
          apply Z.mod_unique with ((k-1)/lifetime); lia. }
      rewrite Hfirst.
      assert (Hm : 0 <= k mod lifetime < lifetime) by (apply Z.mod_pos_bound; lia).
      assert (Hev : (k - lifetime) mod lifetime = k mod lifetime).
      { replace (k - lifetime) with (k + (-1) * lifetime) by lia.
        apply Z.mod_add; lia. }
      destruct (HS (k - lifetime) ltac:(lia)) as (dold & _ & Hs0).
      rewrite Hev in Hs0.
      rewrite (slot_get_some (da_slots a) (k mod lifetime) (Some dold) (proj1 Hm) Hs0).
      rewrite slot_set_ok by lia.
      eexists; split; [reflexivity|]. constructor; cbn.
      + rewrite upd_length. exact HA.
      + rewrite Hk. lia.
      + rewrite HkN, Hk. f_equal. lia.
      + rewrite Hk. intros i Hi.
        destruct (Z.eq_dec i k) as [->|Hne].
        * exists d. split; [exact Hlast|]. apply upd_same. lia.
        * destruct (HS i ltac:(lia)) as (d' & H1 & H2).
          exists d'. rewrite Hold by lia. split; [exact H1|].
          rewrite upd_other; [exact H2|].
          intros Heq. apply Hne.
          assert (0 <= i mod lifetime < lifetime) by (apply Z.mod_pos_bound; lia).
          apply mod_unique with lifetime; lia.
  Qed.

  Lemma Inv_adds lifetime a ds ds' :
    1 <= lifetime < 2147483648 -> Inv lifetime a ds ->
    exists a', darray_adds lifetime a ds' = Ok a' /\ Inv lifetime a' (ds ++ ds').
  Proof.
    intros HL. revert a ds; induction ds' as [|d t IH]; intros a ds HI; cbn.
    - exists a. rewrite app_nil_r. auto.
    - destruct (Inv_add lifetime a ds d HL HI) as (a1 & E1 & HI1).
      rewrite E1. cbn. destruct (IH a1 _ HI1) as (a2 & E2 & HI2).
      exists a2. split; [exact E2|]. rewrite <- app_assoc in HI2. exact HI2.
  Qed.

  Lemma skipn_nth_cons ds m d :
    nth_error ds m = Some d -> skipn m ds = d :: skipn (S m) ds.
  Proof.
    revert m; induction ds as [|x t IH]; destruct m; cbn; intros H;
      try discriminate; [congruence|]. apply IH; exact H.
  Qed.

  (** The loop, started on the window position of history index [k - n]. *)
  Lemma since_loop_ok lifetime a ds n i :
    1 <= lifetime < 2147483648 -> Inv lifetime a ds ->
    let k := Z.of_nat (length ds) in
    Z.of_nat n <= da_len a ->
    0 <= i -> i + Z.of_nat n <= 2 * da_len a ->
    (if da_len a <=? i then i - da_len a else i) =
       (k - Z.of_nat n) mod lifetime \/ n = O ->
    (da_len a < lifetime -> i + Z.of_nat n <= da_len a) ->
    since_loop (da_slots a) (da_len a) i (i + Z.of_nat n) n
    = Ok (last_n n ds).
  Proof.
    intros HL HI k. destruct HI as [HA HN HLa HS]. fold k in HN, HS.
    revert i; induction n as [|n IH]; intros i Hn Hi0 Hi2 Hj Hfull.
    - cbn. destruct (Z.ltb_spec i (i + 0)); [lia|]. unfold last_n.
      rewrite Nat.sub_0_r, skipn_all. reflexivity.
    - cbn [since_loop].
      destruct (Z.ltb_spec i (i + Z.of_nat (S n))); [|lia].
      destruct Hj as [Hj|Hj]; [|discriminate].
      rewrite Hj.
      destruct (HS (k - Z.of_nat (S n)) ltac:(lia)) as (d & H1 & H2).
      assert (Hmb : 0 <= (k - Z.of_nat (S n)) mod lifetime < lifetime)
        by (apply Z.mod_pos_bound; lia).
      rewrite (slot_get_some _ _ _ (proj1 Hmb) H2).
      rewrite wrap32_id by (unfold is_u32; lia).
      replace (i + Z.of_nat (S n)) with (i + 1 + Z.of_nat n) by lia.
      rewrite IH; try lia.
      + f_equal. unfold last_n.
        assert (length ds - S n = Z.to_nat (k - Z.of_nat (S n)))%nat as E1 by lia.
        rewrite E1. rewrite (skipn_nth_cons _ _ _ H1). f_equal. f_equal. lia.
      + destruct n as [|n']; [right; reflexivity|left].
        replace (k - Z.of_nat (S n')) with ((k - Z.of_nat (S (S n'))) + 1) by lia.
        set (q := k - Z.of_nat (S (S n'))) in *.
        pose proof (Z.div_mod q lifetime ltac:(lia)) as DM.
        destruct (Z.ltb_spec (da_len a) lifetime) as [Hpart|Hfl].
        * assert (da_len a = k) by lia.
          assert (q mod lifetime = q) by (apply Z.mod_small; lia).
          rewrite (Z.mod_small (q+1)) by lia.
          destruct (Z.leb_spec (da_len a) i); destruct (Z.leb_spec (da_len a) (i+1)); lia.
        * assert (EL : da_len a = lifetime) by lia. rewrite EL in *.
          destruct (Z.leb_spec lifetime i) as [C1|C1].
          -- destruct (Z.leb_spec lifetime (i+1)); [|lia].
             apply Z.mod_unique with (q / lifetime); lia.
          -- destruct (Z.leb_spec lifetime (i+1)) as [C2|C2].
             ++ apply Z.mod_unique with (q / lifetime + 1); lia.
             ++ apply Z.mod_unique with (q / lifetime); lia.
  Qed.

  Lemma foreach_since_ok lifetime a ds n :
    1 <= lifetime < 2147483648 -> Inv lifetime a ds ->
    0 <= n <= Z.min (Z.of_nat (length ds)) lifetime ->
    darray_foreach_since a n = Ok (last_n (Z.to_nat n) ds).
  Proof.
    intros HL HI Hn. pose proof HI as [HA HN HLa HS].
    unfold darray_foreach_since.
    destruct (Z.eqb_spec n 0) as [->|Hn0].
    { unfold last_n. rewrite Nat.sub_0_r, skipn_all. reflexivity. }
    destruct (Z.ltb_spec (da_len a) n); [lia|].
    set (k := Z.of_nat (length ds)) in *.
    destruct (Nat.eqb_spec (length ds) 0) as [Hz|Hnz]; [lia|].
    assert (Hb : 0 <= (k-1) mod lifetime < lifetime) by (apply Z.mod_pos_bound; lia).
    assert (Hrange : (k - 1) mod lifetime < da_len a).
    { destruct (Z.ltb_spec k lifetime).
      - rewrite Z.mod_small by lia. lia.
      - lia. }
    set (last := (k-1) mod lifetime) in *.
    assert (Hi : (if da_len a <? wrap32 (da_last a - n + 1)
                  then wrap32 (wrap32 (da_last a - n + 1) + da_len a)
                  else wrap32 (da_last a - n + 1))
                 = if n <=? last + 1 then last + 1 - n else last + 1 - n + da_len a).
    { rewrite HLa. destruct (Z.leb_spec n (last + 1)).
      - rewrite (wrap32_id (last - n + 1)) by (unfold is_u32; lia).
        destruct (Z.ltb_spec (da_len a) (last - n + 1)); lia.
      - assert (Ew : wrap32 (last - n + 1) = last - n + 1 + 4294967296).
        { unfold wrap32. lia. }
        rewrite Ew. destruct (Z.ltb_spec (da_len a) (last - n + 1 + 4294967296)); [|lia].
        unfold wrap32. lia. }
    rewrite Hi. clear Hi.
    set (i := if n <=? last + 1 then last + 1 - n else last + 1 - n + da_len a).
    assert (Hi0 : 0 <= i /\ i + n <= 2 * da_len a) by
      (unfold i; destruct (Z.leb_spec n (last + 1)); lia).
    rewrite (wrap32_id (n + i)) by (unfold is_u32; lia).
    replace (n + i) with (i + Z.of_nat (Z.to_nat n)) by lia.
    pose proof (Z.div_mod (k-1) lifetime ltac:(lia)) as DM. fold last in DM.
    apply (since_loop_ok lifetime); auto; try lia.
    - left. rewrite Z2Nat.id by lia.
      destruct (Z.ltb_spec k lifetime) as [Hp|Hf].
      + assert (da_len a = k) by lia.
        assert (last = k - 1) by (unfold last; apply Z.mod_small; lia).
        rewrite (Z.mod_small (k - n)) by lia. unfold i.
        destruct (Z.leb_spec n (last + 1)); [|lia].
        destruct (Z.leb_spec (da_len a) (last + 1 - n)); lia.
      + assert (EL : da_len a = lifetime) by lia. rewrite EL in *.
        unfold i. destruct (Z.leb_spec n (last + 1)).
        * destruct (Z.leb_spec lifetime (last + 1 - n)); [lia|].
          apply Z.mod_unique with ((k-1)/lifetime); lia.
        * rewrite EL. destruct (Z.leb_spec lifetime (last + 1 - n + lifetime)); [lia|].
          generalize dependent ((k-1)/lifetime). intros Q DM.
          apply Z.mod_unique with (Q - 1); [lia|].
          replace (lifetime * (Q - 1)) with (lifetime * Q - lifetime) by ring. lia.
    - intros Hp. assert (da_len a = k) by lia.
      assert (last = k - 1) by (unfold last; apply Z.mod_small; lia).
      unfold i. destruct (Z.leb_spec n (last + 1)); lia.
  Qed.

  Lemma foreach_since_refused lifetime a ds n :
    Inv lifetime a ds -> Z.min (Z.of_nat (length ds)) lifetime < n -> 0 <= lifetime ->
    darray_foreach_since a n = Err EINVAL.
  Proof.
    intros [HA HN HLa HS] Hn H0. unfold darray_foreach_since.
    destruct (Z.eqb_spec n 0); [lia|].
    destruct (Z.ltb_spec (da_len a) n); [reflexivity|lia].
  Qed.

  Lemma darray_window_lem lifetime ds :
    1 <= lifetime < 2147483648 ->
    exists a, darray_adds lifetime (darray_create lifetime) ds = Ok a /\
      da_len a = Z.min (Z.of_nat (length ds)) lifetime /\
      (forall n, 0 <= n <= da_len a ->
         darray_foreach_since a n = Ok (last_n (Z.to_nat n) ds)) /\
      (forall n, da_len a < n -> darray_foreach_since a n = Err EINVAL).
  Proof.
    intros HL.
    destruct (Inv_adds lifetime _ [] ds HL (Inv_create lifetime ltac:(lia)))
      as (a & E & HI). cbn in HI.
    exists a. split; [exact E|]. pose proof (inv_len _ _ _ HI) as HN.
    repeat split; auto.
    - intros n Hn. eapply foreach_since_ok; eauto. lia.
    - intros n Hn. eapply foreach_since_refused; eauto; lia.
  Qed.
End P.
