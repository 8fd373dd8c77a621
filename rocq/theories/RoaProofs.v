(** Proofs about ROAs. *)
From Verif Require Import Base BaseLemmas Types HashSet DbTable VrpsSpec VrpsProofs PduWireSpec PduWireProofs Address AddressSpec
  AddressProofs SArray SArraySpec SArrayProofs Asn1 Resources ResourcesSpec ResourcesProofs ResourcesProofs2
  ResourcesProofs3 ResourcesProofs4 Roa RoaSpec.

Lemma ulong_nat i : natural i ->
  asn_INTEGER2ulong i = if integer_value i <? 2 ^ 64 then Some (integer_value i) else None.
Proof. intros [F NN]. rewrite (integer_ulong i F), (integer_value_nonneg i F NN). reflexivity. Qed.

Definition vmax (len : Z) (m : option (list Z)) : Z := match m with Some m => integer_value m | None => len end.
Lemma max_length_spec bound len m : 0 <= len <= bound -> bound < 2 ^ 64 ->
  match m with Some m => natural m | None => True end ->
  match max_length_of bound len m with
  | Some x => x = vmax len m /\ len <= x <= bound
  | None => ~ (len <= vmax len m <= bound)
  end.
Proof.
  intros L B N. unfold max_length_of, vmax. destruct m as [m|]; [|lia].
  rewrite (ulong_nat m N). destruct (integer_value m <? 2 ^ 64) eqn:E; [|lia].
  destruct (bound <? integer_value m) eqn:E1; [lia|]. destruct (integer_value m <? len) eqn:E2; lia.
Qed.

(** Queries on well-formed heaps. *)
Lemma prefix_members W a l x : prefix_ok W a l ->
  (in_prefix W a l x <-> fst (prefix_range W a l) <= x <= snd (prefix_range W a l)).
Proof.
  intros (P1 & P2 & P3). rewrite in_prefix_range by auto. unfold prefix_range; cbn [fst snd].
  pose proof (Z.pow_pos_nonneg 2 (W - l) ltac:(lia) ltac:(lia)) as P.
  assert (D : a = 2 ^ (W - l) * (a / 2 ^ (W - l))) by (apply Z_div_exact_full_2; lia).
  rewrite (Z.mul_comm (a / _)), <- D. tauto.
Qed.
Lemma contains_gen {A} (cmp : A -> A -> sacmp) num (ok : A -> Prop)
  (cmp_num : forall a b, ok a -> ok b -> cmp a b = zcmp (num a) (num b))
  (ok_num : forall a, ok a -> 0 <= fst (num a) <= snd (num a)) cells p e :
  Forall (inv num ok) cells -> Forall small cells -> ptr_ok cells p -> ok e ->
  exists b, bind (cell cells p) (fun s => sarray_contains cmp s e) = Ok b /\
    (b = true <-> inside (content num cells p) (num e)).
Proof.
  intros F S P OK. destruct p as [i|]; cbn [cell content ptr_ok] in *.
  - destruct (nth_error cells i) as [s|] eqn:N; [|apply nth_error_None in N; lia]. cbn [bind].
    rewrite Forall_forall in F, S.
    destruct (contains_spec cmp num ok cmp_num ok_num s e (F s (nth_error_In _ _ N)) OK (S s (nth_error_In _ _ N)))
      as [b [E C]].
    exists b. split; [exact E|]. exact C.
  - exists false. split; [reflexivity|]. split; [discriminate|]. intros H.
    pose proof (ok_num e OK). destruct (H (fst (num e)) ltac:(lia)) as [r' [[] _]].
Qed.
Lemma contains4_spec h r a l : heap_ok h -> res_ok h r -> prefix_ok 32 a l ->
  exists b, resources_contains_ipv4 h r (a, l) = Ok b /\
    (b = true <-> forall x, in_prefix 32 a l x -> covered (holds4 h r) x).
Proof.
  intros HO RO P. unfold resources_contains_ipv4, res4_contains_prefix. destruct (pton_range a l P) as [EQ RNG].
  destruct (contains_gen r4_cmp (fun x => x) (range_ok (2 ^ 32)) u32_cmp_num range_ok_num (h4 h) (r_ip4s r)
             (pton (a, l)) (ok_h4 _ HO) (sm_h4 _ HO) (ok_p4 _ _ RO) ltac:(rewrite EQ; exact RNG)) as [b [E C]].
  exists b. split; [rewrite <- E; destruct (cell _ _) as [[]| |]; reflexivity|]. rewrite C, EQ. unfold inside, holds4.
  split; intros H x X; apply H; apply (prefix_members 32 a l x P); auto.
Qed.
Lemma contains6_spec h r a l : heap_ok h -> res_ok h r -> addr6_ok a -> prefix_ok 128 (be a) l ->
  exists b, resources_contains_ipv6 h r (a, l) = Ok b /\
    (b = true <-> forall x, in_prefix 128 (be a) l x -> covered (holds6 h r) x).
Proof.
  intros HO RO AO P. unfold resources_contains_ipv6, res6_contains_prefix. destruct (ptor_range a l AO P) as [RNG EQ].
  destruct (contains_gen r6_cmp num6 range6_ok r6_cmp_num range6_ok_num (h6 h) (r_ip6s r)
             (ptor (a, l)) (ok_h6 _ HO) (sm_h6 _ HO) (ok_p6 _ _ RO) RNG) as [b [E C]].
  exists b. split; [rewrite <- E; destruct (cell _ _) as [[]| |]; reflexivity|]. rewrite C, EQ. unfold inside, holds6.
  split; intros H x X; apply H; apply (prefix_members 128 (be a) l x P); auto.
Qed.

Section Ee.
  Variables (h : heap) (ee : resources).
  Hypothesis HO : heap_ok h.
  Hypothesis RO : res_ok h ee.
  Notation ok_for := (allowed (holds4 h ee) (holds6 h ee)).

  Lemma announces_fun asn fam a v w : announces asn fam a v -> announces asn fam a w -> v = w.
  Proof.
    intros (A1 & A2 & A3 & A4 & _) (B1 & B2 & B3 & B4 & _).
    destruct (denotes_fun _ _ _ _ _ _ A1 B1) as [E1 E2].
    destruct v, w; cbn in A2, A3, A4, B2, B3, B4, E1, E2. subst. reflexivity.
  Qed.
  Definition fam_num (fam : family) : Z := match fam with AF_INET => 1 | AF_INET6 => 2 end.

  Lemma addr_spec db asn fam a : roa_addr_ok a ->
    exists db' e, handle_roa_addr h ee db asn (fam_num fam) a = Ok (db', e) /\
      ((e = 0 /\ exists v, announces asn fam a v /\ ok_for v /\ db' = add_roa db v) \/
       (e <> 0 /\ db' = db /\ ~ exists v, announces asn fam a v /\ ok_for v)).
  Proof.
    intros [BO MO]. unfold handle_roa_addr.
    destruct fam; cbn [fam_num Z.eqb Pos.eqb].
    - unfold handle_roa_v4. pose proof (prefix4_decode_spec _ BO) as D.
      destruct (prefix4_decode (ra_address a)) as [[addr len]|e|]; [| |destruct D].
      2:{ exists db, E_INVAL. split; auto. right. split; [discriminate|]. split; auto.
          intros [v [[X _] _]]. destruct D as [_ D]. exact (D _ _ X). }
      pose proof (denotes_prefix_ok _ _ _ _ BO D) as P. pose proof P as [PL _].
      pose proof (max_length_spec 32 len (ra_max a) PL ltac:(lia) MO) as M.
      destruct (max_length_of 32 len (ra_max a)) as [mx|].
      + destruct M as [M1 M2].
        destruct (contains4_spec h ee addr len HO RO P) as [b [EB CB]]. rewrite EB. cbn [bind].
        destruct b; cbn [negb].
        * eexists _, 0. split; [reflexivity|]. left. split; auto. eexists. split; [|split; [|reflexivity]].
          -- unfold announces; cbn [v_addr v_len v_fam v_asn v_max width]. split; auto.
          -- unfold allowed; cbn [v_addr v_len v_fam v_asn v_max width]. apply CB; auto.
        * exists db, E_INVAL. split; auto. right. split; [discriminate|]. split; auto.
          intros [v [(A1 & A2 & A3 & A4 & _) OK]]. cbn [width] in *.
          destruct (denotes_fun _ _ _ _ _ _ D A1) as [E1 E2].
          assert (X : false = true); [|discriminate]. apply CB. unfold allowed in OK.
          rewrite A2, E1, E2 in OK. exact OK.
      + exists db, E_INVAL. split; auto. right. split; [discriminate|]. split; auto.
        intros [v [(A1 & A2 & A3 & A4 & A5) OK]]. cbn [width] in *.
        destruct (denotes_fun _ _ _ _ _ _ D A1) as [E1 E2]. subst addr len. apply M. unfold vmax. lia.
    - unfold handle_roa_v6. pose proof (prefix6_decode_spec _ BO) as D.
      destruct (prefix6_decode (ra_address a)) as [[addr len]|e|]; [| |destruct D].
      2:{ exists db, E_INVAL. split; auto. right. split; [discriminate|]. split; auto.
          intros [v [[X _] _]]. destruct D as [_ D]. exact (D _ _ X). }
      destruct D as [D AO].
      pose proof (denotes_prefix_ok _ _ _ _ BO D) as P. pose proof P as [PL _].
      pose proof (max_length_spec 128 len (ra_max a) PL ltac:(lia) MO) as M.
      destruct (max_length_of 128 len (ra_max a)) as [mx|].
      + destruct M as [M1 M2].
        destruct (contains6_spec h ee addr len HO RO AO P) as [b [EB CB]]. rewrite EB. cbn [bind].
        destruct b; cbn [negb].
        * eexists _, 0. split; [reflexivity|]. left. split; auto. eexists. split; [|split; [|reflexivity]].
          -- unfold announces; cbn [v_addr v_len v_fam v_asn v_max width]. split; auto.
          -- unfold allowed; cbn [v_addr v_len v_fam v_asn v_max width]. apply CB; auto.
        * exists db, E_INVAL. split; auto. right. split; [discriminate|]. split; auto.
          intros [v [(A1 & A2 & A3 & A4 & _) OK]]. cbn [width] in *.
          destruct (denotes_fun _ _ _ _ _ _ D A1) as [E1 E2].
          assert (X : false = true); [|discriminate]. apply CB. unfold allowed in OK.
          rewrite A2, E1, E2 in OK. exact OK.
      + exists db, E_INVAL. split; auto. right. split; [discriminate|]. split; auto.
        intros [v [(A1 & A2 & A3 & A4 & A5) OK]]. cbn [width] in *.
        destruct (denotes_fun _ _ _ _ _ _ D A1) as [E1 E2]. subst len. apply M. unfold vmax. lia.
  Qed.

  Definition emit (db : db_table) (vs : list vrp) : db_table := fold_left add_roa vs db.
  Lemma emit_app db a b : emit db (a ++ b) = emit (emit db a) b.
  Proof. apply fold_left_app. Qed.

  (** One block. *)
  Lemma addr_loop_spec asn fam l : Forall roa_addr_ok l -> forall db,
    exists vs e, addr_loop h ee db asn (fam_num fam) l = Ok (emit db vs, e) /\
      (forall v, In v vs -> ok_for v /\ exists a, In a l /\ announces asn fam a v) /\
      (e = 0 <-> forall a, In a l -> exists v, announces asn fam a v /\ ok_for v) /\
      (e = 0 -> forall v a, In a l -> announces asn fam a v -> In v vs).
  Proof.
    induction 1 as [|a l OK F IH]; intros db; cbn [addr_loop].
    - exists [], 0. split; [reflexivity|]. split; [intros v []|]. split; [|intros _ v a []].
      split; auto. intros _ a [].
    - destruct (addr_spec db asn fam a OK) as (db1 & e1 & -> & C). cbn [bind].
      destruct C as [(-> & v & A & O & ->)|(NE & -> & N)].
      + change (negb (0 =? 0)) with false. cbv iota.
        destruct (IH (add_roa db v)) as (vs & e & E & I1 & I2 & I3).
        exists (v :: vs), e. split; [exact E|]. split; [|split].
        * intros w [<-|IN]; [split; auto; exists a; split; auto; left; auto|].
          destruct (I1 w IN) as (Q1 & b & Q2 & Q3). split; auto. exists b. split; auto. right; auto.
        * rewrite I2. split; intros H b; [intros [<-|IN]; eauto|]. intros IN; apply H; right; auto.
        * intros Z0 w b [<-|IN] X; [left; apply (announces_fun asn fam a); auto|right; eauto].
      + exists [], e1. destruct (e1 =? 0) eqn:E; [lia|]. cbn [negb]. split; [reflexivity|].
        split; [intros v []|]. split; [|lia]. split; [lia|]. intros H. destruct N. apply H. left; auto.
  Qed.

  Definition block_says (asn : Z) (ob : option roa_block) (P : family -> roa_addr -> Prop) : Prop :=
    exists b fam addrs, ob = Some b /\ rb_family b = afi fam /\ rb_addresses b = Some addrs /\
      forall a, In a addrs -> P fam a.
  Definition from_block (asn : Z) (ob : option roa_block) (v : vrp) : Prop :=
    exists b addrs a, ob = Some b /\ rb_family b = afi (v_fam v) /\ rb_addresses b = Some addrs /\
      In a addrs /\ announces asn (v_fam v) a v.

  Lemma afi_cases f0 f1 : (f0 = 0 /\ (f1 = 1 \/ f1 = 2)) <-> exists fam, [f0; f1] = afi fam.
  Proof.
    split.
    - intros [-> [-> | ->]]; [exists AF_INET|exists AF_INET6]; reflexivity.
    - intros [[] E]; inversion E; auto.
  Qed.
  Lemma afi_inj f g : afi f = afi g -> f = g.
  Proof. destruct f, g; auto; discriminate. Qed.

  Lemma block_loop_spec asn l :
    (forall b addrs, In (Some b) l -> rb_addresses b = Some addrs -> Forall roa_addr_ok addrs) -> forall db,
    exists vs e, roa_block_loop h ee db asn l = Ok (emit db vs, e) /\
      (forall v, In v vs -> ok_for v /\ exists ob, In ob l /\ from_block asn ob v) /\
      (e = 0 <-> forall ob, In ob l -> block_says asn ob (fun fam a => exists v, announces asn fam a v /\ ok_for v)) /\
      (e = 0 -> forall v ob, In ob l -> from_block asn ob v -> In v vs).
  Proof.
    induction l as [|ob l IH]; intros OK db; cbn [roa_block_loop].
    { exists [], 0. split; [reflexivity|]. split; [intros v []|]. split; [split; [intros _ ob []|auto]|intros _ v ob []]. }
    assert (FAIL : ~ block_says asn ob (fun fam a => exists v, announces asn fam a v /\ ok_for v) ->
      exists vs e, Ok (db, E_INVAL) = Ok (emit db vs, e) /\
      (forall v, In v vs -> ok_for v /\ exists ob', In ob' (ob :: l) /\ from_block asn ob' v) /\
      (e = 0 <-> forall ob', In ob' (ob :: l) -> block_says asn ob' (fun fam a => exists v, announces asn fam a v /\ ok_for v)) /\
      (e = 0 -> forall v ob', In ob' (ob :: l) -> from_block asn ob' v -> In v vs)).
    { intros N. exists [], E_INVAL. split; [reflexivity|]. split; [intros v []|]. split; [|discriminate].
      split; [discriminate|]. intros H. destruct N. apply H. left; auto. }
    destruct ob as [b|]; [|apply FAIL; intros (b & _ & _ & X & _); discriminate].
    destruct (rb_family b) as [|f0 [|f1 [|f2 fl]]] eqn:EF;
      try (apply FAIL; intros (b' & fam & ? & X & Y & _); inversion X; subst b'; rewrite EF in Y; destruct fam; discriminate).
    destruct (f0 =? 0) eqn:E0; cbn [negb].
    2:{ apply FAIL. intros (b' & fam & ? & X & Y & _). inversion X; subst b'. rewrite EF in Y.
        destruct fam; inversion Y; lia. }
    destruct (negb (f1 =? 1) && negb (f1 =? 2)) eqn:E1.
    { apply FAIL. intros (b' & fam & ? & X & Y & _). inversion X; subst b'. rewrite EF in Y.
      destruct fam; inversion Y; subst; discriminate. }
    assert (FAM : exists fam, [f0; f1] = afi fam /\ f1 = fam_num fam).
    { assert (f0 = 0) by lia; subst f0. destruct (f1 =? 1) eqn:X.
      - exists AF_INET. assert (f1 = 1) by lia; subst; auto.
      - exists AF_INET6. assert (f1 = 2) by (destruct (f1 =? 2) eqn:Y; [lia|discriminate]). subst; auto. }
    destruct FAM as (fam & FA & FN).
    destruct (rb_addresses b) as [addrs|] eqn:EA.
    2:{ apply FAIL. intros (b' & fam' & ? & X & Y & Z & _). inversion X; subst b'. rewrite EA in Z. discriminate. }
    subst f1. destruct (addr_loop_spec asn fam addrs (OK b addrs (or_introl eq_refl) EA) db) as (vs1 & e1 & -> & A1 & A2 & A3).
    cbn [bind]. destruct (e1 =? 0) eqn:EZ; cbn [negb].
    - assert (e1 = 0) by lia; subst e1.
      destruct (IH (fun b' ad IN => OK b' ad (or_intror IN)) (emit db vs1)) as (vs2 & e & -> & B1 & B2 & B3).
      exists (vs1 ++ vs2), e. rewrite emit_app. split; auto. split; [|split].
      + intros v IN. apply in_app_or in IN. destruct IN as [IN|IN].
        * destruct (A1 v IN) as (Q1 & a & Q2 & Q3). split; auto. exists (Some b). split; [left; auto|].
          exists b, addrs, a. pose proof Q3 as (_ & Q4 & _). rewrite Q4. rewrite EF. auto 10.
        * destruct (B1 v IN) as (Q1 & ob & Q2 & Q3). split; auto. exists ob. split; [right; auto|auto].
      + rewrite B2. split.
        * intros H ob [<-|IN]; [|auto]. exists b, fam, addrs. rewrite EF. split; auto. split; auto. split; auto.
          apply A2; auto.
        * intros H ob IN. apply H. right; auto.
      + intros Z0 v ob [<-|IN] FB; apply in_or_app; [left|right; eauto].
        destruct FB as (b' & ad & a & X & Y & Z & W1 & W2). inversion X; subst b'.
        rewrite EA in Z. inversion Z; subst ad. rewrite EF, FA in Y. apply afi_inj in Y. subst fam. eapply A3; eauto.
    - exists vs1, e1. split; auto. split; [|split; [|lia]].
      + intros v IN. destruct (A1 v IN) as (Q1 & a & Q2 & Q3). split; auto. exists (Some b). split; [left; auto|].
        exists b, addrs, a. pose proof Q3 as (_ & Q4 & _). rewrite Q4. rewrite EF. auto 10.
      + split; [lia|]. intros H. destruct (H (Some b) (or_introl eq_refl)) as (b' & fam' & ad & X & Y & Z & W).
        inversion X; subst b'. rewrite EA in Z. inversion Z; subst ad. rewrite EF, FA in Y. apply afi_inj in Y. subst fam'.
        apply A2 in W. lia.
  Qed.

  Lemma handle_roa_spec db r : roa_ok r ->
    exists vs e, handle_roa h ee db r = Ok (emit db vs, e) /\
      (forall v, In v vs -> ok_for v /\ roa_vrp r v /\ integer_value (roa_asid r) < 2 ^ 32) /\
      (e = 0 <-> roa_valid (holds4 h ee) (holds6 h ee) r) /\
      (e = 0 -> forall v, roa_vrp r v -> In v vs).
  Proof.
    intros (NA & NV & BO). unfold handle_roa. cbv zeta.
    assert (FAIL : ~ roa_valid (holds4 h ee) (holds6 h ee) r ->
      exists vs e, Ok (db, E_INVAL) = Ok (emit db vs, e) /\
      (forall v, In v vs -> ok_for v /\ roa_vrp r v /\ integer_value (roa_asid r) < 2 ^ 32) /\
      (e = 0 <-> roa_valid (holds4 h ee) (holds6 h ee) r) /\
      (e = 0 -> forall v, roa_vrp r v -> In v vs)).
    { intros N. exists [], E_INVAL. split; [reflexivity|]. split; [intros v []|]. split; [|discriminate].
      split; [discriminate|tauto]. }
    set (vok := match roa_version r with None => true | Some v => _ end).
    assert (VOK : vok = true <-> match roa_version r with None => True | Some v => integer_value v = 0 end).
    { unfold vok. destruct (roa_version r) as [v|]; [|tauto]. rewrite (ulong_nat v NV).
      destruct (integer_value v <? 2 ^ 64) eqn:E; [rewrite Z.eqb_eq; tauto|]. split; [discriminate|lia]. }
    destruct vok; cbn [negb].
    2:{ apply FAIL. intros (V & _). apply VOK in V. discriminate. }
    rewrite (ulong_nat _ NA). destruct (integer_value (roa_asid r) <? 2 ^ 64) eqn:E64.
    2:{ apply FAIL. intros (_ & V & _). lia. }
    unfold UINT_MAX. destruct (4294967295 <? integer_value (roa_asid r)) eqn:EU.
    { apply FAIL. intros (_ & V & _). change (2 ^ 32) with 4294967296 in V. lia. }
    destruct (roa_blocks r) as [bl|] eqn:EB.
    2:{ apply FAIL. intros (_ & _ & bl & X & _). rewrite EB in X. discriminate. }
    destruct (block_loop_spec (integer_value (roa_asid r)) bl (fun b ad IN EA => BO bl b ad eq_refl IN EA) db)
      as (vs & e & -> & A1 & A2 & A3).
    assert (LT : integer_value (roa_asid r) < 2 ^ 32) by (change (2 ^ 32) with 4294967296; lia).
    exists vs, e. split; auto. split; [|split].
    - intros v IN. destruct (A1 v IN) as (Q1 & ob & Q2 & b & ad & a & -> & Q3). split; auto. split; auto.
      exists bl, b, ad, a. tauto.
    - rewrite A2. unfold roa_valid. rewrite EB. split.
      + intros H. split; [apply VOK; auto|]. split; auto. exists bl. split; auto.
      + intros (_ & _ & bl' & X & H). inversion X; subst bl'. exact H.
    - intros Z0 v (bl' & b & ad & a & X & Y & Z & W & U & T). rewrite EB in X. inversion X; subst bl'.
      apply (A3 Z0 v (Some b) Y). exists b, ad, a. auto.
  Qed.
End Ee.

Lemma emit_In db vs v : roas_of (emit db vs) v <-> roas_of db v \/ In v vs.
Proof.
  revert db. induction vs as [|w vs IH]; intros db; cbn [emit fold_left]; [cbn; tauto|].
  change (fold_left add_roa vs (add_roa db w)) with (emit (add_roa db w) vs). rewrite IH.
  unfold roas_of at 1, add_roa; cbn [t_roas]. rewrite (hs_add_In _ vrp_equals_eq). cbn [In].
  unfold roas_of. intuition.
Qed.
Lemma emit_rks db vs : t_rks (emit db vs) = t_rks db.
Proof. revert db. induction vs as [|w vs IH]; intros db; cbn [emit fold_left]; auto. unfold emit in IH. rewrite IH. reflexivity. Qed.
