(** Lemmas about object identifiers. *)
From Verif Require Import Base BaseLemmas PduWireProofs Ber BerSpec BerProofs BerProofs2 Oid OidSpec.

Notation length := List.length.

Lemma step32 acc c : 0 <= c < 128 -> Z.lor (wrap32 (Z.shiftl acc 7)) c = wrap32 (acc * 128 + c).
Proof.
  intros Hc. unfold wrap32. rewrite Z.shiftl_mul_pow2 by lia. change (2 ^ 7) with 128.
  assert (E : (acc * 128) mod 4294967296 = (acc mod 33554432) * 128).
  { change 4294967296 with (33554432 * 128). rewrite Z.mul_mod_distr_r by lia. reflexivity. }
  rewrite E. rewrite <- (Z.shiftl_mul_pow2 _ 7) by lia. rewrite lor_shift_add by (change (2 ^ 7) with 128; lia).
  change (2 ^ 7) with 128.
  pose proof (Z.mod_pos_bound acc 33554432 ltac:(lia)).
  apply Z.mod_unique with (q := acc / 33554432); [lia|].
  pose proof (Z.div_mod acc 33554432 ltac:(lia)). lia.
Qed.

Lemma wrap_fold cs : forall acc, wrap32 (fold_left (fun v b => v * 128 + b) cs (wrap32 acc)) = wrap32 (fold_left (fun v b => v * 128 + b) cs acc).
Proof.
  induction cs as [|c cs IH]; intros acc; cbn [fold_left].
  - unfold wrap32. apply Z.mod_mod. lia.
  - rewrite <- (IH (wrap32 acc * 128 + c)), <- (IH (acc * 128 + c)).
    f_equal. f_equal. unfold wrap32.
    rewrite (Z.add_mod (acc mod 4294967296 * 128)), (Z.add_mod (acc * 128)) by lia.
    rewrite Z.mul_mod_idemp_l by lia. reflexivity.
Qed.

Lemma loop_complete cont : forall last rest acc n, Forall (fun c => 0 <= c < 128) cont -> 0 <= last < 128 ->
  single_arc_loop (map (fun c => 128 + c) cont ++ last :: rest) acc n
  = Ok (wrap32 (fold_left (fun v b => v * 128 + b) (cont ++ [last]) acc), (n + length cont + 1)%nat).
Proof.
  induction cont as [|c cont IH]; intros last rest acc n Hc Hl; cbn [map app single_arc_loop length fold_left].
  - cbn zeta. rewrite land127 by (unfold is_byte; lia). destruct (Z.ltb_spec last 128); [|lia].
    rewrite land128 by (unfold is_byte; lia). destruct (Z.ltb_spec last 128); [|lia].
    rewrite step32 by lia. pose proof (wrap32_range (acc * 128 + last)) as W. unfold is_u32 in W. unfold UINT_MAX.
    destruct (Z.leb_spec (wrap32 (acc * 128 + last)) 4294967295); [|lia]. do 2 f_equal. lia.
  - inversion Hc as [|? ? Hc1 Hc2]; subst. cbn zeta.
    rewrite land127 by (unfold is_byte; lia). destruct (Z.ltb_spec (128 + c) 128); [lia|].
    rewrite land128 by (unfold is_byte; lia). destruct (Z.ltb_spec (128 + c) 128); [lia|].
    replace (128 + c - 128) with c by lia. rewrite step32 by lia. rewrite IH by assumption.
    rewrite wrap_fold. do 2 f_equal. lia.
Qed.

Lemma loop_sound b : forall acc n v m, bytes b -> single_arc_loop b acc n = Ok (v, m) ->
  exists cont last rest, b = map (fun c => 128 + c) cont ++ last :: rest /\
    Forall (fun c => 0 <= c < 128) cont /\ 0 <= last < 128 /\ m = (n + length cont + 1)%nat /\
    v = wrap32 (fold_left (fun v b => v * 128 + b) (cont ++ [last]) acc).
Proof.
  induction b as [|x b IH]; intros acc n v m Hb; cbn [single_arc_loop]; [discriminate|].
  inversion Hb as [|? ? Hb1 Hb2]; subst. cbn zeta.
  rewrite land128 by assumption. rewrite land127 by assumption. unfold is_byte in Hb1.
  destruct (Z.ltb_spec x 128).
  - rewrite step32 by lia. destruct (wrap32 (acc * 128 + x) <=? UINT_MAX); [|discriminate].
    intros E. injection E as <- <-. exists [], x, b. cbn [map app length fold_left]. repeat split; try lia. constructor.
  - rewrite step32 by lia. intros E. apply IH in E; [|assumption].
    destruct E as (cont & last & rest & -> & Hc & Hl & -> & ->).
    exists ((x - 128) :: cont), last, rest. cbn [map app length fold_left].
    split; [f_equal; lia|]. split; [constructor; [lia|assumption]|]. split; [assumption|]. split; [lia|].
    rewrite wrap_fold. reflexivity.
Qed.

Lemma single_not_ub b acc n : single_arc_loop b acc n <> UB.
Proof.
  revert acc n. induction b as [|x b IH]; intros acc n; cbn [single_arc_loop]; [discriminate|]. cbn zeta.
  destruct (_ =? 0); [destruct (_ <=? _); discriminate|apply IH].
Qed.

Lemma subid_facts b v : subid b v -> bytes b /\ (1 <= length b)%nat.
Proof.
  intros [cont last Hc Hl]. split; [|rewrite app_length; cbn [length]; lia].
  apply Forall_app. split; [|repeat constructor; unfold is_byte; lia].
  apply Forall_forall. intros x Hx. apply in_map_iff in Hx. destruct Hx as [y [<- Hy]].
  apply (proj1 (Forall_forall _ _) Hc) in Hy. unfold is_byte; lia.
Qed.

Lemma single_complete b v rest : subid b v -> OBJECT_IDENTIFIER_get_single_arc (b ++ rest) = Ok (Some (wrap32 v, length b)).
Proof.
  intros H. pose proof (subid_facts b v H) as [_ H1]. unfold OBJECT_IDENTIFIER_get_single_arc.
  destruct H as [cont last Hc Hl]. rewrite <- app_assoc. cbn [app].
  destruct (map (fun c => 128 + c) cont ++ last :: rest) eqn:E; [destruct cont; discriminate|]. rewrite <- E.
  rewrite loop_complete by assumption. unfold base128. rewrite app_length, map_length. reflexivity.
Qed.
Lemma single_sound b v n : bytes b -> OBJECT_IDENTIFIER_get_single_arc b = Ok (Some (v, n)) ->
  exists b1 b2 v0, b = b1 ++ b2 /\ subid b1 v0 /\ n = length b1 /\ v = wrap32 v0.
Proof.
  intros Hb. unfold OBJECT_IDENTIFIER_get_single_arc. destruct b as [|x b]; [discriminate|].
  destruct (single_arc_loop (x :: b) 0 0) as [[v' m]| |] eqn:E; try discriminate. intros G; injection G as -> ->.
  apply loop_sound in E; [|assumption]. destruct E as (cont & last & rest & E & Hc & Hl & -> & ->).
  exists (map (fun c => 128 + c) cont ++ [last]), rest, (base128 (cont ++ [last])).
  split; [rewrite E, <- app_assoc; reflexivity|]. split; [constructor; assumption|].
  split; [rewrite app_length, map_length; cbn [length]; lia|reflexivity].
Qed.
Lemma single_none b : OBJECT_IDENTIFIER_get_single_arc b = Ok None <-> b = [].
Proof.
  unfold OBJECT_IDENTIFIER_get_single_arc. destruct b; [tauto|]. destruct (single_arc_loop _ 0 0); split; discriminate.
Qed.
Lemma get_single_not_ub b : OBJECT_IDENTIFIER_get_single_arc b <> UB.
Proof.
  unfold OBJECT_IDENTIFIER_get_single_arc. destruct b; [discriminate|].
  destruct (single_arc_loop (z :: b) 0 0) eqn:E; try discriminate. exfalso. exact (single_not_ub _ _ _ E).
Qed.

Lemma subids_facts b vs : subids b vs -> bytes b.
Proof. induction 1; [constructor|]. apply Forall_app. split; [apply (subid_facts _ _ H)|assumption]. Qed.

Lemma arcs_complete b vs : subids b vs -> forall fuel, (length b <= fuel)%nat -> arcs_loop fuel b = Ok (map wrap32 vs).
Proof.
  induction 1 as [|b bs v vs Hs Hss IH]; intros fuel Hf.
  - destruct fuel; reflexivity.
  - pose proof (subid_facts _ _ Hs) as [_ H1]. rewrite app_length in Hf. destruct fuel as [|fuel]; [lia|].
    cbn [arcs_loop map]. rewrite (single_complete b v bs Hs), skipn_app_exact, IH by lia. reflexivity.
Qed.
Lemma arcs_sound fuel : forall b arcs, bytes b -> (length b <= fuel)%nat -> arcs_loop fuel b = Ok arcs ->
  exists vs, subids b vs /\ arcs = map wrap32 vs.
Proof.
  induction fuel as [|fuel IH]; intros b arcs Hb Hf; cbn [arcs_loop].
  - destruct b; [|cbn [length] in Hf; lia]. intros E; injection E as <-. exists []. split; [constructor|reflexivity].
  - destruct (OBJECT_IDENTIFIER_get_single_arc b) as [[[arc rd]|]| |] eqn:E; try discriminate.
    + destruct (arcs_loop fuel (skipn rd b)) as [arcs'| |] eqn:E2; try discriminate. intros G; injection G as <-.
      apply single_sound in E; [|assumption]. destruct E as (b1 & b2 & v0 & -> & Hs & -> & ->).
      rewrite skipn_app_exact in E2. pose proof (subid_facts _ _ Hs) as [_ H1]. rewrite app_length in Hf.
      apply IH in E2; [|apply Forall_app in Hb; apply Hb|lia]. destruct E2 as (vs & Hss & ->).
      exists (v0 :: vs). split; [constructor; assumption|reflexivity].
    + intros G; injection G as <-. apply single_none in E. subst b. exists []. split; [constructor|reflexivity].
Qed.
Lemma arcs_not_ub fuel : forall b, arcs_loop fuel b <> UB.
Proof.
  induction fuel as [|fuel IH]; intros b; cbn [arcs_loop]; [discriminate|].
  destruct (OBJECT_IDENTIFIER_get_single_arc b) as [[[arc rd]|]| |] eqn:E; try discriminate.
  - specialize (IH (skipn rd b)). destruct (arcs_loop fuel (skipn rd b)); [discriminate|discriminate|contradiction].
  - exfalso. exact (get_single_not_ub _ E).
Qed.

(** The arcs the program works with: each subidentifier modulo 2^32. *)
Definition arcs32 (v : Z) (vs : list Z) : list Z := first_arcs (wrap32 v) ++ map wrap32 vs.

Lemma first_split v rd : (if 80 <=? v then (2, v - 80, rd) else if 40 <=? v then (1, v - 40, rd) else (0, v, rd) : Z * Z * nat)
  = (nth 0 (first_arcs v) 0, nth 1 (first_arcs v) 0, rd).
Proof. unfold first_arcs. destruct (80 <=? v); [reflexivity|]. destruct (40 <=? v); reflexivity. Qed.
Lemma first_two v : first_arcs v = [nth 0 (first_arcs v) 0; nth 1 (first_arcs v) 0].
Proof. unfold first_arcs. destruct (80 <=? v); [reflexivity|]. destruct (40 <=? v); reflexivity. Qed.

Lemma get_arcs_complete b v vs slots : subids b (v :: vs) ->
  OBJECT_IDENTIFIER_get_arcs b slots = Ok (length (arcs32 v vs), firstn slots (arcs32 v vs)).
Proof.
  intros H. inversion H as [|b1 bs v' vs' Hs Hss]; subst.
  unfold OBJECT_IDENTIFIER_get_arcs, OBJECT_IDENTIFIER_get_first_arcs.
  rewrite (single_complete b1 v bs Hs). rewrite first_split, skipn_app_exact.
  rewrite (arcs_complete bs vs Hss) by (rewrite app_length; lia). cbn zeta.
  unfold arcs32. rewrite (first_two (wrap32 v)). reflexivity.
Qed.
Lemma get_arcs_sound b slots r : bytes b -> OBJECT_IDENTIFIER_get_arcs b slots = Ok r ->
  exists v vs, subids b (v :: vs).
Proof.
  intros Hb. unfold OBJECT_IDENTIFIER_get_arcs, OBJECT_IDENTIFIER_get_first_arcs.
  destruct (OBJECT_IDENTIFIER_get_single_arc b) as [[[arc rd]|]| |] eqn:E; try discriminate.
  rewrite first_split. apply single_sound in E; [|assumption]. destruct E as (b1 & b2 & v0 & -> & Hs & -> & ->).
  rewrite skipn_app_exact. destruct (arcs_loop (length (b1 ++ b2)) b2) as [arcs| |] eqn:E2; try discriminate.
  intros _. apply arcs_sound in E2; [|apply Forall_app in Hb; apply Hb|rewrite app_length; lia].
  destruct E2 as (vs & Hss & _). exists v0, vs. constructor; assumption.
Qed.
Lemma get_arcs_not_ub b slots : OBJECT_IDENTIFIER_get_arcs b slots <> UB.
Proof.
  unfold OBJECT_IDENTIFIER_get_arcs, OBJECT_IDENTIFIER_get_first_arcs.
  destruct (OBJECT_IDENTIFIER_get_single_arc b) as [[[arc rd]|]| |] eqn:E; try discriminate.
  - rewrite first_split. destruct (arcs_loop (length b) (skipn rd b)) eqn:E2; try discriminate.
    intros _. exact (arcs_not_ub _ _ E2).
  - intros _. exact (get_single_not_ub _ E).
Qed.

Lemma oid2arcs_complete b v vs : subids b (v :: vs) ->
  oid2arcs b = Ok {| oa_arcs := arcs32 v vs; oa_count := length (arcs32 v vs) |}.
Proof.
  intros H. unfold oid2arcs. rewrite (get_arcs_complete b v vs MAX_ARCS H).
  destruct (Nat.ltb_spec MAX_ARCS (length (arcs32 v vs))).
  - rewrite (get_arcs_complete b v vs _ H), Nat.eqb_refl, firstn_all. reflexivity.
  - rewrite firstn_all2 by assumption. reflexivity.
Qed.
Lemma oid2arcs_cases b : bytes b ->
  (exists v vs, subids b (v :: vs)) \/ (exists e, oid2arcs b = Err e).
Proof.
  intros Hb. unfold oid2arcs. destruct (OBJECT_IDENTIFIER_get_arcs b MAX_ARCS) as [r|e|] eqn:E.
  - left. exact (get_arcs_sound b _ _ Hb E).
  - right. eauto.
  - exfalso. exact (get_arcs_not_ub _ _ E).
Qed.

Lemma arcs_equal_loop_spec a b n : (n <= length a)%nat -> (n <= length b)%nat ->
  exists r, arcs_equal_loop a b n = Ok r /\ (r = true <-> firstn n a = firstn n b).
Proof.
  induction n as [|n IH]; intros Ha Hb; cbn [arcs_equal_loop].
  - exists true. split; [reflexivity|]. split; reflexivity.
  - destruct (nth_error a n) as [x|] eqn:Ex; [|apply nth_error_None in Ex; lia].
    destruct (nth_error b n) as [y|] eqn:Ey; [|apply nth_error_None in Ey; lia].
    assert (Fa : firstn (S n) a = firstn n a ++ [x]).
    { clear - Ex. revert a Ex. induction n as [|n IH]; intros a Ex; (destruct a; [discriminate|]); cbn in *; [congruence|].
      rewrite <- IH by assumption. reflexivity. }
    assert (Fb : firstn (S n) b = firstn n b ++ [y]).
    { clear - Ey. revert b Ey. induction n as [|n IH]; intros b Ey; (destruct b; [discriminate|]); cbn in *; [congruence|].
      rewrite <- IH by assumption. reflexivity. }
    rewrite Fa, Fb. destruct (IH ltac:(lia) ltac:(lia)) as [r [Er Hr]].
    destruct (Z.eqb_spec x y) as [->|Hne].
    + exists r. split; [exact Er|]. rewrite Hr. split; [intros ->; reflexivity|intros E; apply app_inv_tail in E; exact E].
    + exists false. split; [reflexivity|]. split; [discriminate|]. intros E. apply app_inj_tail in E. destruct E; contradiction.
Qed.
Lemma arcs_equal_spec a b : exists r, arcs_equal a (length a) b (length b) = Ok r /\ (r = true <-> a = b).
Proof.
  unfold arcs_equal. destruct (Nat.eqb_spec (length a) (length b)) as [E|E].
  - destruct (arcs_equal_loop_spec a b (length a) ltac:(lia) ltac:(lia)) as [r [Er Hr]]. exists r. split; [exact Er|].
    rewrite Hr, firstn_all, E, firstn_all. reflexivity.
  - exists false. split; [reflexivity|]. split; [discriminate|]. intros ->. contradiction.
Qed.

Lemma is_oid_complete b v vs oid : subids b (v :: vs) ->
  exists r, is_oid b oid = Ok r /\ (r = true <-> arcs32 v vs = oid).
Proof.
  intros H. unfold is_oid. rewrite (oid2arcs_complete b v vs H). cbn [oa_arcs oa_count]. apply arcs_equal_spec.
Qed.
Lemma is_oid_true b oid : bytes b -> is_oid b oid = Ok true -> exists v vs, subids b (v :: vs) /\ arcs32 v vs = oid.
Proof.
  intros Hb E. destruct (oid2arcs_cases b Hb) as [(v & vs & H)|[e He]].
  - exists v, vs. split; [exact H|]. destruct (is_oid_complete b v vs oid H) as [r [Er Hr]].
    apply Hr. congruence.
  - unfold is_oid in E. rewrite He in E. discriminate.
Qed.
Lemma is_oid_not_ub b oid : bytes b -> is_oid b oid <> UB.
Proof.
  intros Hb. destruct (oid2arcs_cases b Hb) as [(v & vs & H)|[e He]].
  - destruct (is_oid_complete b v vs oid H) as [r [Er _]]. rewrite Er. discriminate.
  - unfold is_oid. rewrite He. discriminate.
Qed.

Lemma oid_equal_spec a b : oid_equal a b = true <-> a = b.
Proof.
  unfold oid_equal. rewrite andb_true_iff, Nat.eqb_eq, (list_eqb_spec Z.eqb Z.eqb_eq). split; [tauto|].
  intros ->. auto.
Qed.

(** ** Decimal text *)
Lemma number_app a b : forall v, fold_left (fun v d => v * 10 + (d - 48)) (a ++ b) v
  = fold_left (fun v d => v * 10 + (d - 48)) b (fold_left (fun v d => v * 10 + (d - 48)) a v).
Proof. intros v. apply fold_left_app. Qed.

(** The digits that a run of the loop puts in front. *)
Lemma udec_loop_front fuel : forall n acc, udec_loop fuel n acc = udec_loop fuel n [] ++ acc.
Proof.
  induction fuel as [|fuel IH]; intros n acc; cbn [udec_loop]; [reflexivity|]. cbn zeta.
  destruct (n / 10 =? 0); [reflexivity|]. rewrite IH. rewrite (IH (n / 10) [48 + n mod 10]). rewrite <- app_assoc. reflexivity.
Qed.

Lemma udec_loop_spec fuel : forall n, 0 <= n < 10 ^ Z.of_nat fuel -> (0 < fuel)%nat -> numeral (udec_loop fuel n []) n.
Proof.
  induction fuel as [|fuel IH]; intros n Hn Hf; [lia|]. cbn [udec_loop]. cbn zeta.
  pose proof (Z.mod_pos_bound n 10 ltac:(lia)). pose proof (Z.div_mod n 10 ltac:(lia)).
  destruct (Z.eqb_spec (n / 10) 0) as [E|E].
  - split; [discriminate|]. split; [repeat constructor; lia|]. split; [unfold number; cbn [fold_left]; lia|]. cbn [hd]. intros E2.
    f_equal. lia.
  - rewrite udec_loop_front.
    rewrite Nat2Z.inj_succ, Z.pow_succ_r in Hn by lia.
    assert (0 <= n / 10 < 10 ^ Z.of_nat fuel) by (split; [lia|apply Z.div_lt_upper_bound; lia]).
    destruct fuel as [|fuel].
    { change (10 ^ Z.of_nat 0) with 1 in *. lia. }
    destruct (IH (n / 10) ltac:(assumption) ltac:(lia)) as (I1 & I2 & I3 & I4).
    set (ds := udec_loop (S fuel) (n / 10) []) in *.
    split; [destruct ds; discriminate|]. split; [apply Forall_app; split; [exact I2|repeat constructor; lia]|].
    split.
    + unfold number in *. rewrite number_app. rewrite I3. cbn [fold_left]. lia.
    + intros Hh. exfalso. destruct ds as [|d ds]; [contradiction|]. cbn [app hd] in Hh.
      specialize (I4 Hh). injection I4 as -> ->. unfold number in I3. cbn in I3. lia.
Qed.

Lemma udec_spec n : is_u32 n -> numeral (udec n) n.
Proof. intros H. apply udec_loop_spec; [change (10 ^ Z.of_nat 20) with 100000000000000000000; unfold is_u32 in H; lia|lia]. Qed.

(** ** Dotted text *)
Definition tail_text (arcs : list Z) : list Z := concat (map (fun a => 46 :: udec a) arcs).

Lemma dump_complete b vs : subids b vs -> forall fuel buf, (length b <= fuel)%nat -> (length buf + 1 <= 64)%nat ->
  dump_loop fuel b buf = if (length buf + length (tail_text (map wrap32 vs)) + 1 <=? 64)%nat
                         then Some (buf ++ tail_text (map wrap32 vs)) else None.
Proof.
  induction 1 as [|b bs v vs Hs Hss IH]; intros fuel buf Hf Hbuf.
  - unfold tail_text. cbn [map concat length]. rewrite Nat.add_0_r, app_nil_r.
    destruct (Nat.leb_spec (length buf + 1) 64); [|lia]. destruct fuel; reflexivity.
  - pose proof (subid_facts _ _ Hs) as [_ H1]. rewrite app_length in Hf. destruct fuel as [|fuel]; [lia|].
    cbn [dump_loop]. rewrite (single_complete b v bs Hs), skipn_app_exact.
    unfold tail_text. cbn [map concat]. fold (tail_text (map wrap32 vs)).
    set (piece := 46 :: udec (wrap32 v)). unfold bytes2str, OID_STR_MAXLEN.
    rewrite app_length.
    destruct (Nat.ltb_spec 64 (length buf + length piece + 1)).
    + destruct (Nat.leb_spec (length buf + (length piece + length (tail_text (map wrap32 vs))) + 1) 64); [lia|reflexivity].
    + rewrite IH by (try rewrite app_length; lia). rewrite app_length, <- app_assoc.
      replace (length buf + length piece + length (tail_text (map wrap32 vs)) + 1)%nat
        with (length buf + (length piece + length (tail_text (map wrap32 vs))) + 1)%nat by lia. reflexivity.
Qed.

Lemma dump_sound fuel : forall b buf s, bytes b -> (length b <= fuel)%nat -> dump_loop fuel b buf = Some s -> exists vs, subids b vs.
Proof.
  induction fuel as [|fuel IH]; intros b buf s Hb Hf; cbn [dump_loop].
  - destruct b; [|cbn [length] in Hf; lia]. intros _. exists []. constructor.
  - destruct (OBJECT_IDENTIFIER_get_single_arc b) as [[[arc rd]|]| |] eqn:E; try discriminate.
    + destruct (bytes2str buf (46 :: udec arc)) as [buf'|]; [|discriminate]. intros G.
      apply single_sound in E; [|assumption]. destruct E as (b1 & b2 & v0 & -> & Hs & -> & ->).
      rewrite skipn_app_exact in G. pose proof (subid_facts _ _ Hs) as [_ H1]. rewrite app_length in Hf.
      apply IH in G; [|apply Forall_app in Hb; apply Hb|lia]. destruct G as [vs Hss]. exists (v0 :: vs). constructor; assumption.
    + intros _. apply single_none in E. subst b. exists []. constructor.
Qed.

Definition text_of (arcs : list Z) : list Z :=
  match arcs with [] => [] | a :: rest => udec a ++ tail_text rest end.

Lemma text_dotted arcs : arcs <> [] -> Forall is_u32 arcs -> dotted (text_of arcs) arcs.
Proof.
  induction arcs as [|a arcs IH]; intros Hne Hall; [contradiction|]. inversion Hall as [|? ? H1 H2]; subst.
  destruct arcs as [|a2 arcs]; cbn [text_of].
  - unfold tail_text. cbn [map concat]. rewrite app_nil_r. constructor. apply udec_spec; assumption.
  - unfold tail_text. cbn [map concat app]. apply dotted_more; [apply udec_spec; assumption|].
    apply IH; [discriminate|assumption].
Qed.

Lemma literal_complete b v vs : subids b (v :: vs) ->
  OBJECT_IDENTIFIER_to_literal b =
    if (length (text_of (arcs32 v vs)) <=? 63)%nat then Some (text_of (arcs32 v vs)) else None.
Proof.
  intros H. inversion H as [|b1 bs v' vs' Hs Hss]; subst.
  unfold OBJECT_IDENTIFIER_to_literal, OBJECT_IDENTIFIER_get_first_arcs.
  rewrite (single_complete b1 v bs Hs). rewrite first_split, skipn_app_exact.
  set (a0 := nth 0 (first_arcs (wrap32 v)) 0). set (a1 := nth 1 (first_arcs (wrap32 v)) 0).
  assert (Et : text_of (arcs32 v vs) = (udec a0 ++ 46 :: udec a1) ++ tail_text (map wrap32 vs)).
  { unfold arcs32. rewrite (first_two (wrap32 v)). fold a0 a1. cbn [app text_of].
    unfold tail_text at 1. cbn [map concat]. rewrite <- app_assoc. reflexivity. }
  rewrite Et. set (hd2 := udec a0 ++ 46 :: udec a1). unfold bytes2str, OID_STR_MAXLEN.
  change (length (@nil Z) + length hd2 + 1)%nat with (length hd2 + 1)%nat. cbn [app].
  assert (Q : length (hd2 ++ tail_text (map wrap32 vs)) = (length hd2 + length (tail_text (map wrap32 vs)))%nat) by apply app_length.
  rewrite Q.
  destruct (Nat.ltb_spec 64 (length hd2 + 1)).
  - destruct (Nat.leb_spec (length hd2 + length (tail_text (map wrap32 vs))) 63); [lia|reflexivity].
  - rewrite (dump_complete bs vs Hss) by (try rewrite app_length; lia).
    destruct (Nat.leb_spec (length hd2 + length (tail_text (map wrap32 vs)) + 1) 64),
             (Nat.leb_spec (length hd2 + length (tail_text (map wrap32 vs))) 63); try lia; reflexivity.
Qed.

Lemma literal_sound b s : bytes b -> OBJECT_IDENTIFIER_to_literal b = Some s -> exists v vs, subids b (v :: vs).
Proof.
  intros Hb. unfold OBJECT_IDENTIFIER_to_literal, OBJECT_IDENTIFIER_get_first_arcs.
  destruct (OBJECT_IDENTIFIER_get_single_arc b) as [[[arc rd]|]| |] eqn:E; try discriminate.
  rewrite first_split. apply single_sound in E; [|assumption]. destruct E as (b1 & b2 & v0 & -> & Hs & -> & ->).
  rewrite skipn_app_exact. destruct (bytes2str [] _) as [buf|]; [|discriminate]. intros G.
  apply dump_sound in G; [|apply Forall_app in Hb; apply Hb|rewrite app_length; lia].
  destruct G as [vs Hss]. exists v0, vs. constructor; assumption.
Qed.

Lemma arcs32_u32 v vs : Forall is_u32 (arcs32 v vs).
Proof.
  unfold arcs32. apply Forall_app. split.
  - pose proof (wrap32_range v) as W. unfold is_u32 in *. unfold first_arcs.
    destruct (Z.leb_spec 80 (wrap32 v)); [|destruct (Z.leb_spec 40 (wrap32 v))];
      (constructor; [unfold is_u32; lia|constructor; [unfold is_u32; lia|constructor]]).
  - apply Forall_forall. intros x Hx. apply in_map_iff in Hx. destruct Hx as [y [<- _]]. apply wrap32_range.
Qed.
