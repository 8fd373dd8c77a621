From Verif Require Import Base BaseLemmas Types HashSet DArray DArraySpec
  DArrayProofs DbTable Serial Vrps VrpsSpec.

(** ** Equality tests decide equality. *)
Lemma family_eqb_eq a b : family_eqb a b = true <-> a = b.
Proof. destruct a, b; cbn; split; congruence. Qed.

Lemma vrp_equals_eq a b : vrp_equals a b = true <-> a = b.
Proof.
  unfold vrp_equals. destruct a as [a1 a2 a3 a4 a5], b as [b1 b2 b3 b4 b5]; cbn.
  destruct (family_eqb a5 b5) eqn:F; cbn.
  2:{ split; [discriminate|]. intros E; inversion E; subst.
      assert (family_eqb b5 b5 = true) by (apply family_eqb_eq; reflexivity). congruence. }
  apply family_eqb_eq in F; subst.
  destruct (Z.eqb_spec a1 b1); cbn; [|split; [discriminate|congruence]].
  destruct (Z.eqb_spec a3 b3); cbn; [|split; [discriminate|congruence]].
  destruct (Z.eqb_spec a4 b4); cbn; [|split; [discriminate|congruence]].
  rewrite Z.eqb_eq. split; [intros; subst; reflexivity|congruence].
Qed.

Lemma rk_equals_eq a b : rk_equals a b = true <-> a = b.
Proof.
  unfold rk_equals. destruct a as [a1 a2 a3], b as [b1 b2 b3]; cbn.
  rewrite !andb_true_iff, Z.eqb_eq, !(list_eqb_spec Z.eqb Z_eqb_spec_iff).
  split; [intros [[-> ->] ->]; reflexivity|]. intros E; inversion E; auto.
Qed.

Lemma eqb_dec {A} (eqb : A -> A -> bool) (H : forall x y, eqb x y = true <-> x = y)
  (x y : A) : {x = y} + {x <> y}.
Proof.
  destruct (eqb x y) eqn:E; [left; apply H; exact E|right].
  intros ->. assert (eqb y y = true) by (apply H; reflexivity). congruence.
Qed.

(** ** Hash sets. *)
Section HS.
  Context {A : Type} (eqb : A -> A -> bool) (H : forall x y, eqb x y = true <-> x = y).

  Lemma hs_mem_In x l : hs_mem eqb x l = true <-> In x l.
  Proof.
    unfold hs_mem. rewrite existsb_exists. split.
    - intros (y & Hy & E). apply H in E. subst. exact Hy.
    - intros Hx. exists x. split; [exact Hx|]. apply H. reflexivity.
  Qed.

  Lemma hs_mem_false x l : hs_mem eqb x l = false <-> ~ In x l.
  Proof. rewrite <- hs_mem_In. destruct (hs_mem eqb x l); split; congruence. Qed.

  Lemma hs_del_In x y l : In y (hs_del eqb x l) <-> In y l /\ y <> x.
  Proof.
    unfold hs_del. rewrite filter_In, negb_true_iff. split; intros [H1 H2]; split; auto.
    - intros ->. assert (eqb x x = true) by (apply H; reflexivity). congruence.
    - destruct (eqb x y) eqn:E; [|reflexivity]. apply H in E. congruence.
  Qed.

  Lemma hs_add_In x y l : In y (hs_add eqb l x) <-> In y l \/ y = x.
  Proof.
    unfold hs_add. rewrite in_app_iff, hs_del_In. cbn.
    destruct (eqb_dec eqb H y x) as [->|Hn]; intuition congruence.
  Qed.

  Lemma hs_del_NoDup x l : NoDup l -> NoDup (hs_del eqb x l).
  Proof. apply NoDup_filter. Qed.

  Lemma hs_add_NoDup x l : NoDup l -> NoDup (hs_add eqb l x).
  Proof.
    intros HN. unfold hs_add. apply NoDup_app_intro.
    - apply hs_del_NoDup. exact HN.
    - constructor; [intros []|constructor].
    - intros y Hy [->|[]]. apply hs_del_In in Hy. tauto.
  Qed.

  Lemma hs_diff_In x l1 l2 : In x (hs_diff eqb l1 l2) <-> In x l1 /\ ~ In x l2.
  Proof.
    unfold hs_diff. rewrite filter_In, negb_true_iff, hs_mem_false. tauto.
  Qed.
End HS.

(** ** Strict client runs. *)
Section Client.
  Context {A : Type}.
  Implicit Types (S : A -> Prop) (L : list (flag * A)).

  Lemma client_run_ext L S1 S2 S' :
    (forall x, S1 x <-> S2 x) -> client_run L S1 S' -> client_run L S2 S'.
  Proof.
    intros E R. revert S2 E. induction R as [S S' E'|x evs S S' Hx R IH|x evs S S' Hx R IH];
      intros S2 E.
    - constructor. intros y. rewrite <- E. apply E'.
    - constructor; [rewrite <- E; exact Hx|]. apply IH. intros y. rewrite (E y). tauto.
    - constructor; [rewrite <- E; exact Hx|]. apply IH. intros y. rewrite (E y). tauto.
  Qed.

  Lemma client_run_ext_r L S S1 S2 :
    (forall x, S1 x <-> S2 x) -> client_run L S S1 -> client_run L S S2.
  Proof.
    intros E R. revert S2 E. induction R as [S S' E'|x evs S S' Hx R IH|x evs S S' Hx R IH];
      intros S2 E.
    - constructor. intros y. rewrite (E' y). apply E.
    - constructor; auto.
    - constructor; auto.
  Qed.

  Lemma client_run_app L1 L2 S S1 S2 :
    client_run L1 S S1 -> client_run L2 S1 S2 -> client_run (L1 ++ L2) S S2.
  Proof.
    intros R. revert S2. induction R as [S S' E'|x evs S S' Hx R IH|x evs S S' Hx R IH];
      intros S2 R2; cbn.
    - eapply client_run_ext; [|exact R2]. intros y. symmetry. apply E'.
    - constructor; auto.
    - constructor; auto.
  Qed.

  (** Events about pairwise different records, each consistent with the
      starting set, are accepted in any order. *)
  Lemma client_run_disjoint L S :
    NoDup (map snd L) ->
    (forall x, In (ANNOUNCEMENT, x) L -> ~ S x) ->
    (forall x, In (WITHDRAWAL, x) L -> S x) ->
    client_run L S (fun y => In (ANNOUNCEMENT, y) L \/ (S y /\ ~ In (WITHDRAWAL, y) L)).
  Proof.
    revert S; induction L as [|[f x] t IH]; cbn; intros S HN HA HW.
    - constructor. intros y. tauto.
    - inversion HN as [|x' l' Hx HN']; subst.
      assert (Hxt : forall g, ~ In (g, x) t).
      { intros g Hin. apply Hx. apply in_map_iff. exists (g, x). auto. }
      destruct f.
      + constructor; [apply HW; left; reflexivity|].
        eapply client_run_ext_r; [|apply IH; [exact HN'| |]].
        * cbn. intros y. split.
          -- intros [HA1|[[HS Hne] HW1]]; [left; right; exact HA1|right].
             split; [exact HS|]. intros [E|E]; [congruence|tauto].
          -- intros [[E|HA1]|[HS HW1]]; [discriminate|left; exact HA1|].
             right. split; [split; [exact HS|]|tauto].
             intros ->. apply HW1. left. reflexivity.
        * intros y Hy [HS _]. eapply HA; [right; exact Hy|exact HS].
        * intros y Hy. split; [apply HW; right; exact Hy|].
          intros ->. exact (Hxt _ Hy).
      + constructor; [apply HA; left; reflexivity|].
        eapply client_run_ext_r; [|apply IH; [exact HN'| |]].
        * cbn. intros y. split.
          -- intros [HA1|[[HS| ->] HW1]]; [left; right; exact HA1| |left; left; reflexivity].
             right. split; [exact HS|]. intros [E|E]; [discriminate|tauto].
          -- intros [[E|HA1]|[HS HW1]].
             ++ inversion E; subst. right. split; [right; reflexivity|apply Hxt].
             ++ left; exact HA1.
             ++ right. split; [left; exact HS|tauto].
        * intros y Hy [HS| ->]; [|exact (Hxt _ Hy)].
          eapply HA; [right; exact Hy|exact HS].
        * intros y Hy. left. apply HW. right. exact Hy.
  Qed.

  (** ** The cancellation filter. *)
  Context (eqb : A -> A -> bool) (Heqb : forall x y, eqb x y = true <-> x = y).

  Definition FInv L (S0 S : A -> Prop) : Prop :=
    NoDup (map snd L) /\
    forall x, (In (ANNOUNCEMENT, x) L <-> S x /\ ~ S0 x) /\
              (In (WITHDRAWAL, x) L <-> ~ S x /\ S0 x).

  Lemma remove_opposite_none f x L :
    remove_opposite eqb f x L = None ->
    forall f', f' <> f -> ~ In (f', x) L.
  Proof.
    induction L as [|[g y] t IH]; cbn; intros E f' Hf; [tauto|].
    destruct (eqb x y && negb (flag_eqb f g)) eqn:C; [discriminate|].
    destruct (remove_opposite eqb f x t) eqn:R; [discriminate|].
    intros [Ei|Hin]; [|exact (IH eq_refl f' Hf Hin)].
    inversion Ei; subst.
    assert (eqb x x = true) as Ex by (apply Heqb; reflexivity).
    rewrite Ex in C. destruct f, f'; cbn in C; congruence.
  Qed.

  Lemma remove_opposite_some f x L L' :
    remove_opposite eqb f x L = Some L' ->
    exists f' l1 l2, f' <> f /\ L = l1 ++ (f', x) :: l2 /\ L' = l1 ++ l2.
  Proof.
    revert L'; induction L as [|[g y] t IH]; cbn; intros L' E; [discriminate|].
    destruct (eqb x y && negb (flag_eqb f g)) eqn:C.
    - inversion E; subst. apply andb_true_iff in C. destruct C as [C1 C2].
      apply Heqb in C1. subst y. exists g, [], L'. repeat split.
      destruct f, g; cbn in C2; congruence.
    - destruct (remove_opposite eqb f x t) as [t'|] eqn:R; [|discriminate].
      inversion E; subst. destruct (IH t' eq_refl) as (f' & l1 & l2 & H1 & H2 & H3).
      exists f', ((g, y) :: l1), l2. subst. auto.
  Qed.

  Definition opp (f : flag) : flag :=
    match f with ANNOUNCEMENT => WITHDRAWAL | WITHDRAWAL => ANNOUNCEMENT end.

  Lemma neq_opp f f' : f' <> f -> f' = opp f.
  Proof. destruct f, f'; cbn; congruence. Qed.

  Lemma FInv_step f x L S0 S :
    (forall x, S0 x \/ ~ S0 x) ->
    FInv L S0 S ->
    match f with ANNOUNCEMENT => ~ S x | WITHDRAWAL => S x end ->
    FInv (ovrd_remove eqb L (f, x)) S0
      (match f with ANNOUNCEMENT => fun y => S y \/ y = x
                  | WITHDRAWAL => fun y => S y /\ y <> x end).
  Proof.
    intros D0 [HN HI] Hx. unfold ovrd_remove; cbn.
    destruct (remove_opposite eqb f x L) as [L'|] eqn:R.
    - destruct (remove_opposite_some _ _ _ _ R) as (f' & l1 & l2 & Hf & HL & HL').
      apply neq_opp in Hf. subst f' L L'.
      rewrite map_app in HN. cbn in HN.
      assert (HNx := NoDup_remove_2 _ _ _ HN). apply NoDup_remove_1 in HN.
      rewrite <- map_app in HN, HNx.
      assert (Hxt : forall g, ~ In (g, x) (l1 ++ l2)).
      { intros g Hin. apply HNx. apply in_map_iff. exists (g, x). auto. }
      assert (Hin : forall g y, In (g, y) (l1 ++ (opp f, x) :: l2) <->
                 In (g, y) (l1 ++ l2) \/ (g = opp f /\ y = x)).
      { intros g y. rewrite !in_app_iff. cbn. split; [intros [?|[E|?]]|intros [[?|?]|[? ?]]];
          subst; try tauto; try (inversion E; subst; tauto); auto. }
      split; [exact HN|]. intros y.
      destruct (HI y) as [HA HW]. destruct (HI x) as [HAx HWx].
      rewrite Hin in HA, HW, HAx, HWx.
      destruct (eqb_dec eqb Heqb y x) as [->|Hne].
      + pose proof (Hxt ANNOUNCEMENT) as X1. pose proof (Hxt WITHDRAWAL) as X2.
        destruct f; cbn in *; split; split; try tauto; try (intros C; exfalso); tauto.
      + destruct f; cbn in *; rewrite <- ?HA, <- ?HW in *;
          split; split; intuition congruence.
    - pose proof (remove_opposite_none _ _ _ R (opp f) ltac:(destruct f; discriminate)) as HO.
      destruct (HI x) as [HAx HWx].
      assert (Hnone : forall g, ~ In (g, x) L).
      { intros g. destruct f, g; cbn in *; tauto. }
      split.
      + cbn. constructor; [|exact HN]. intros Hin. apply in_map_iff in Hin.
        destruct Hin as ([g y] & Hy & Hin). cbn in Hy. subst y. exact (Hnone g Hin).
      + intros y. destruct (HI y) as [HA HW]. cbn.
        destruct (eqb_dec eqb Heqb y x) as [->|Hne].
        * pose proof (Hnone ANNOUNCEMENT) as X1. pose proof (Hnone WITHDRAWAL) as X2.
          destruct f; cbn in *.
          -- split; split.
             ++ intros [E|E]; [discriminate|tauto].
             ++ tauto.
             ++ intros _. destruct (D0 x); tauto.
             ++ intros _. left; reflexivity.
          -- split; split.
             ++ intros _. tauto.
             ++ intros _. left; reflexivity.
             ++ intros [E|E]; [discriminate|tauto].
             ++ tauto.
        * assert (N1 : forall g, (f, x) <> (g, y)) by (intros g E; congruence).
          destruct f; rewrite ?HA, ?HW; split; split; intros C;
            try (destruct C as [C|C]; [exfalso; eapply N1; exact C|]);
            try right; intuition congruence.
  Qed.

  Lemma FInv_run E S S' :
    client_run E S S' -> forall L S0, (forall x, S0 x \/ ~ S0 x) -> FInv L S0 S ->
    FInv (fold_left (ovrd_remove eqb) E L) S0 S'.
  Proof.
    induction 1 as [S S' E'|x evs S S' Hx R IH|x evs S S' Hx R IH]; cbn; intros L S0 D0 HI.
    - destruct HI as [HN HI]. split; [exact HN|]. intros x.
      rewrite <- (E' x). apply HI.
    - apply IH; [exact D0|]. apply (FInv_step ANNOUNCEMENT x L S0 S D0 HI Hx).
    - apply IH; [exact D0|]. apply (FInv_step WITHDRAWAL x L S0 S D0 HI Hx).
  Qed.

  (** A stream acceptable from [S0] to [S] stays so after cancellation. *)
  Lemma filter_correct E S0 S :
    (forall x, S0 x \/ ~ S0 x) -> (forall x, S x \/ ~ S x) ->
    client_run E S0 S ->
    client_run (fold_left (ovrd_remove eqb) E []) S0 S /\
    NoDup (map snd (fold_left (ovrd_remove eqb) E [])).
  Proof.
    intros D0 D1 R.
    assert (HI : FInv (fold_left (ovrd_remove eqb) E []) S0 S).
    { eapply FInv_run; [exact R|exact D0|]. split; [constructor|]. intros x. cbn. tauto. }
    destruct HI as [HN HI]. split; [|exact HN].
    eapply client_run_ext_r; [|apply client_run_disjoint; [exact HN| |]].
    - intros x. cbn. destruct (HI x) as [HA HW]. rewrite HA, HW.
      destruct (D0 x), (D1 x); tauto.
    - intros x Hx. apply HI in Hx. tauto.
    - intros x Hx. apply HI in Hx. tauto.
  Qed.
End Client.

(** ** compute_deltas. *)
Definition fam4 (v : vrp) : bool := family_eqb (v_fam v) AF_INET.
Definition fam6 (v : vrp) : bool := family_eqb (v_fam v) AF_INET6.

Lemma add_roa_deltas_ann l1 l2 d :
  add_roa_deltas l1 l2 d ANNOUNCEMENT =
  {| d4_adds := d4_adds d ++ filter fam4 (hs_diff vrp_equals l1 l2);
     d4_removes := d4_removes d;
     d6_adds := d6_adds d ++ filter fam6 (hs_diff vrp_equals l1 l2);
     d6_removes := d6_removes d; dk_adds := dk_adds d; dk_removes := dk_removes d |}.
Proof.
  unfold add_roa_deltas, hs_diff. revert d; induction l1 as [|v t IH]; intros d; cbn.
  - rewrite !app_nil_r. destruct d; reflexivity.
  - rewrite IH. destruct (hs_mem vrp_equals v l2); cbn; [reflexivity|].
    unfold fam4 at 2, fam6 at 2. unfold deltas_add_roa.
    destruct (v_fam v); cbn; rewrite <- ?app_assoc; reflexivity.
Qed.

Lemma add_roa_deltas_wd l1 l2 d :
  add_roa_deltas l1 l2 d WITHDRAWAL =
  {| d4_adds := d4_adds d;
     d4_removes := d4_removes d ++ filter fam4 (hs_diff vrp_equals l1 l2);
     d6_adds := d6_adds d;
     d6_removes := d6_removes d ++ filter fam6 (hs_diff vrp_equals l1 l2);
     dk_adds := dk_adds d; dk_removes := dk_removes d |}.
Proof.
  unfold add_roa_deltas, hs_diff. revert d; induction l1 as [|v t IH]; intros d; cbn.
  - rewrite !app_nil_r. destruct d; reflexivity.
  - rewrite IH. destruct (hs_mem vrp_equals v l2); cbn; [reflexivity|].
    unfold fam4 at 2, fam6 at 2. unfold deltas_add_roa.
    destruct (v_fam v); cbn; rewrite <- ?app_assoc; reflexivity.
Qed.

Lemma add_rk_deltas_ann l1 l2 d :
  add_router_key_deltas l1 l2 d ANNOUNCEMENT =
  {| d4_adds := d4_adds d; d4_removes := d4_removes d; d6_adds := d6_adds d;
     d6_removes := d6_removes d;
     dk_adds := dk_adds d ++ hs_diff rk_equals l1 l2; dk_removes := dk_removes d |}.
Proof.
  unfold add_router_key_deltas, hs_diff. revert d; induction l1 as [|v t IH]; intros d; cbn.
  - rewrite !app_nil_r. destruct d; reflexivity.
  - rewrite IH. destruct (hs_mem rk_equals v l2); cbn; [reflexivity|].
    rewrite <- ?app_assoc; reflexivity.
Qed.

Lemma add_rk_deltas_wd l1 l2 d :
  add_router_key_deltas l1 l2 d WITHDRAWAL =
  {| d4_adds := d4_adds d; d4_removes := d4_removes d; d6_adds := d6_adds d;
     d6_removes := d6_removes d; dk_adds := dk_adds d;
     dk_removes := dk_removes d ++ hs_diff rk_equals l1 l2 |}.
Proof.
  unfold add_router_key_deltas, hs_diff. revert d; induction l1 as [|v t IH]; intros d; cbn.
  - rewrite !app_nil_r. destruct d; reflexivity.
  - rewrite IH. destruct (hs_mem rk_equals v l2); cbn; [reflexivity|].
    rewrite <- ?app_assoc; reflexivity.
Qed.

Definition the_deltas (old new : db_table) : deltas :=
  {| d4_adds := filter fam4 (hs_diff vrp_equals (t_roas new) (t_roas old));
     d4_removes := filter fam4 (hs_diff vrp_equals (t_roas old) (t_roas new));
     d6_adds := filter fam6 (hs_diff vrp_equals (t_roas new) (t_roas old));
     d6_removes := filter fam6 (hs_diff vrp_equals (t_roas old) (t_roas new));
     dk_adds := hs_diff rk_equals (t_rks new) (t_rks old);
     dk_removes := hs_diff rk_equals (t_rks old) (t_rks new) |}.

Lemma compute_deltas_eq old new :
  compute_deltas old new =
  if deltas_is_empty (the_deltas old new) then None else Some (the_deltas old new).
Proof.
  unfold compute_deltas.
  rewrite add_roa_deltas_ann, add_roa_deltas_wd, add_rk_deltas_ann, add_rk_deltas_wd.
  reflexivity.
Qed.

Lemma fam_split v : fam4 v = negb (fam6 v).
Proof. unfold fam4, fam6. destruct (v_fam v); reflexivity. Qed.

Lemma in_tag {A} f (l : list A) g x : In (g, x) (tag f l) <-> g = f /\ In x l.
Proof.
  unfold tag. rewrite in_map_iff. split.
  - intros (y & E & Hy). inversion E; subst. auto.
  - intros [-> Hx]. exists x. auto.
Qed.

Lemma map_snd_tag {A} f (l : list A) : map snd (tag f l) = l.
Proof. unfold tag. rewrite map_map. cbn. apply map_id. Qed.

Lemma the_deltas_vrps_In old new f v :
  In (f, v) (deltas_vrps (the_deltas old new)) <->
  match f with
  | ANNOUNCEMENT => roas_of new v /\ ~ roas_of old v
  | WITHDRAWAL => roas_of old v /\ ~ roas_of new v
  end.
Proof.
  unfold deltas_vrps, the_deltas, roas_of; cbn [d4_adds d4_removes d6_adds d6_removes].
  rewrite !in_app_iff, !in_tag, !filter_In.
  rewrite !(hs_diff_In vrp_equals vrp_equals_eq).
  assert (D : fam4 v = true \/ fam6 v = true)
    by (rewrite fam_split; destruct (fam6 v); auto).
  destruct f; split; intros Hx.
  - repeat (destruct Hx as [Hx|Hx]); destruct Hx as [E Hx]; try discriminate E; tauto.
  - destruct D; tauto.
  - repeat (destruct Hx as [Hx|Hx]); destruct Hx as [E Hx]; try discriminate E; tauto.
  - destruct D; tauto.
Qed.

Lemma the_deltas_rks_In old new f k :
  In (f, k) (deltas_rks (the_deltas old new)) <->
  match f with
  | ANNOUNCEMENT => rks_of new k /\ ~ rks_of old k
  | WITHDRAWAL => rks_of old k /\ ~ rks_of new k
  end.
Proof.
  unfold deltas_rks, the_deltas, rks_of; cbn [dk_adds dk_removes].
  rewrite !in_app_iff, !in_tag, !(hs_diff_In rk_equals rk_equals_eq).
  destruct f; split; intros Hx; try tauto;
    destruct Hx as [Hx|Hx]; destruct Hx as [E Hx]; try discriminate E; tauto.
Qed.

Lemma NoDup_app_iff' {A} (l1 l2 : list A) :
  NoDup l1 -> NoDup l2 -> (forall x, In x l1 -> ~ In x l2) -> NoDup (l1 ++ l2).
Proof. intros HA HB HD. apply NoDup_app_intro; [exact HA|exact HB|exact HD]. Qed.

Lemma the_deltas_vrps_NoDup old new : table_ok old -> table_ok new ->
  NoDup (map snd (deltas_vrps (the_deltas old new))).
Proof.
  intros [HO _] [HN _]. unfold deltas_vrps, the_deltas; cbn [d4_adds d4_removes d6_adds d6_removes].
  rewrite !map_app, !map_snd_tag.
  assert (N1 : NoDup (hs_diff vrp_equals (t_roas new) (t_roas old))) by (apply NoDup_filter; auto).
  assert (N2 : NoDup (hs_diff vrp_equals (t_roas old) (t_roas new))) by (apply NoDup_filter; auto).
  repeat (apply NoDup_app_iff'; [apply NoDup_filter; assumption| |]);
    try (apply NoDup_filter; assumption);
    intros x; rewrite ?in_app_iff, ?filter_In, ?(hs_diff_In vrp_equals vrp_equals_eq);
    pose proof (fam_split x) as FS; destruct (fam6 x), (fam4 x); cbn in FS; try discriminate FS; intuition congruence.
Qed.

Lemma the_deltas_rks_NoDup old new : table_ok old -> table_ok new ->
  NoDup (map snd (deltas_rks (the_deltas old new))).
Proof.
  intros [_ HO] [_ HN]. unfold deltas_rks, the_deltas; cbn [dk_adds dk_removes].
  rewrite !map_app, !map_snd_tag.
  apply NoDup_app_iff'; try (apply NoDup_filter; assumption).
  intros x. rewrite !(hs_diff_In rk_equals rk_equals_eq). tauto.
Qed.

Lemma roas_dec t v : roas_of t v \/ ~ roas_of t v.
Proof.
  unfold roas_of. destruct (in_dec (eqb_dec vrp_equals vrp_equals_eq) v (t_roas t)); auto.
Qed.
Lemma rks_dec t k : rks_of t k \/ ~ rks_of t k.
Proof.
  unfold rks_of. destruct (in_dec (eqb_dec rk_equals rk_equals_eq) k (t_rks t)); auto.
Qed.

Lemma the_deltas_vrps_run old new : table_ok old -> table_ok new ->
  client_run (deltas_vrps (the_deltas old new)) (roas_of old) (roas_of new).
Proof.
  intros HO HN. eapply client_run_ext_r; [|apply client_run_disjoint].
  - intros v. cbv beta. rewrite !the_deltas_vrps_In.
    destruct (roas_dec old v), (roas_dec new v); tauto.
  - apply the_deltas_vrps_NoDup; auto.
  - intros v Hv. apply the_deltas_vrps_In in Hv. tauto.
  - intros v Hv. apply the_deltas_vrps_In in Hv. tauto.
Qed.

Lemma the_deltas_rks_run old new : table_ok old -> table_ok new ->
  client_run (deltas_rks (the_deltas old new)) (rks_of old) (rks_of new).
Proof.
  intros HO HN. eapply client_run_ext_r; [|apply client_run_disjoint].
  - intros v. cbv beta. rewrite !the_deltas_rks_In.
    destruct (rks_dec old v), (rks_dec new v); tauto.
  - apply the_deltas_rks_NoDup; auto.
  - intros v Hv. apply the_deltas_rks_In in Hv. tauto.
  - intros v Hv. apply the_deltas_rks_In in Hv. tauto.
Qed.

Lemma deltas_is_empty_spec d :
  deltas_is_empty d = true <-> deltas_vrps d = [] /\ deltas_rks d = [].
Proof.
  destruct d as [a b c e f g]. unfold deltas_vrps, deltas_rks; cbn.
  destruct a, b, c, e, f, g; cbn; split; try discriminate; auto;
    intros [H1 H2]; discriminate.
Qed.

Lemma compute_deltas_none old new :
  compute_deltas old new = None <-> same_data old new.
Proof.
  rewrite compute_deltas_eq.
  destruct (deltas_is_empty (the_deltas old new)) eqn:E.
  - split; [intros _|reflexivity]. apply deltas_is_empty_spec in E. destruct E as [E1 E2].
    split.
    + intros v. pose proof (the_deltas_vrps_In old new ANNOUNCEMENT v) as HA.
      pose proof (the_deltas_vrps_In old new WITHDRAWAL v) as HW.
      rewrite E1 in HA, HW. cbn in HA, HW.
      destruct (roas_dec old v), (roas_dec new v); tauto.
    + intros v. pose proof (the_deltas_rks_In old new ANNOUNCEMENT v) as HA.
      pose proof (the_deltas_rks_In old new WITHDRAWAL v) as HW.
      rewrite E2 in HA, HW. cbn in HA, HW.
      destruct (rks_dec old v), (rks_dec new v); tauto.
  - split; [discriminate|]. intros [S1 S2]. exfalso.
    assert (deltas_is_empty (the_deltas old new) = true); [|congruence].
    apply deltas_is_empty_spec. split.
    + destruct (deltas_vrps (the_deltas old new)) as [|[f v] t] eqn:E1; [reflexivity|exfalso].
      assert (Hin : In (f, v) (deltas_vrps (the_deltas old new))) by (rewrite E1; left; reflexivity).
      apply the_deltas_vrps_In in Hin. specialize (S1 v). destruct f; tauto.
    + destruct (deltas_rks (the_deltas old new)) as [|[f v] t] eqn:E1; [reflexivity|exfalso].
      assert (Hin : In (f, v) (deltas_rks (the_deltas old new))) by (rewrite E1; left; reflexivity).
      apply the_deltas_rks_In in Hin. specialize (S2 v). destruct f; tauto.
Qed.

Lemma compute_deltas_some old new d :
  compute_deltas old new = Some d -> d = the_deltas old new.
Proof.
  rewrite compute_deltas_eq. destruct (deltas_is_empty _); congruence.
Qed.

(** ** Reachable tables are duplicate-free. *)
Lemma table_ok_create : table_ok db_table_create.
Proof. split; constructor. Qed.
Lemma table_ok_add_roa t v : table_ok t -> table_ok (add_roa t v).
Proof. intros [H1 H2]. split; [apply (hs_add_NoDup _ vrp_equals_eq); exact H1|exact H2]. Qed.
Lemma table_ok_add_rk t v : table_ok t -> table_ok (add_router_key t v).
Proof. intros [H1 H2]. split; [exact H1|apply (hs_add_NoDup _ rk_equals_eq); exact H2]. Qed.
Lemma table_ok_del_roa t v : table_ok t -> table_ok (db_table_remove_roa t v).
Proof. intros [H1 H2]. split; [apply hs_del_NoDup; exact H1|exact H2]. Qed.
Lemma table_ok_del_rk t v : table_ok t -> table_ok (db_table_remove_router_key t v).
Proof. intros [H1 H2]. split; [exact H1|apply hs_del_NoDup; exact H2]. Qed.
Lemma table_ok_join t1 t2 : table_ok t1 -> table_ok (db_table_join t1 t2).
Proof.
  intros H. unfold db_table_join.
  assert (H' : table_ok (fold_left add_roa (t_roas t2) t1)).
  { revert t1 H; induction (t_roas t2) as [|v l IH]; intros t1 H; cbn; auto.
    apply IH, table_ok_add_roa, H. }
  revert H'. generalize (fold_left add_roa (t_roas t2) t1). clear.
  induction (t_rks t2) as [|v l IH]; intros t H; cbn; auto.
  apply IH, table_ok_add_rk, H.
Qed.

(** ** The history invariant. *)
Record VInv (lifetime : Z) (s : state) (h : list db_table) (ds : list deltas) : Prop := {
  vi_ring : Inv lifetime (s_deltas s) ds;
  vi_len : length ds = pred (length h);
  vi_base : s_base s = nth_error h (pred (length h));
  vi_serial : s_serial s = wrap32 (Z.of_nat (length h));
  vi_ok : Forall table_ok h;
  vi_chain : forall i a b, nth_error h i = Some a -> nth_error h (S i) = Some b ->
    nth_error ds i = Some (the_deltas a b);
}.

Lemma VInv_init lifetime now : 0 <= lifetime -> VInv lifetime (vrps_init lifetime now) [] [].
Proof.
  intros HL. constructor; cbn; auto.
  - apply Inv_create; exact HL.
  - intros i a b Ha. destruct i; discriminate.
Qed.

Lemma nth_error_snoc {A} (l : list A) x : nth_error (l ++ [x]) (length l) = Some x.
Proof. rewrite nth_error_app2, Nat.sub_diag by lia. reflexivity. Qed.

Lemma update_spec lifetime s h ds c :
  1 <= lifetime < 2147483648 -> VInv lifetime s h ds -> cycle_ok c ->
  exists o h' ds', vrps_update lifetime s c = Ok o /\
    VInv lifetime (u_state o) h' ds' /\
    (forall cs hf, publishes h' cs hf -> publishes h (c :: cs) hf) /\
    ((h' = h /\ u_state o = s /\ u_changed o = false) \/
     (exists t, c = Validated t /\ h' = h ++ [t] /\ u_changed o = true /\
        s_base (u_state o) = Some t /\
        s_serial (u_state o) = wrap32 (s_serial s + 1))).
Proof.
  intros HL HI Hc. pose proof HI as [HR HD HB HS HO HC].
  destruct c as [| e |t]; cbn.
  - eexists _, h, ds. split; [reflexivity|]. cbn.
    split; [exact HI|]. split; [intros; constructor; assumption|left; auto].
  - eexists _, h, ds. split; [reflexivity|]. cbn.
    split; [exact HI|]. split; [intros; constructor; assumption|left; auto].
  - destruct (s_base s) as [p|] eqn:EB.
    + symmetry in HB.
      assert (Hne : h <> []) by (destruct h; [discriminate|discriminate]).
      destruct (exists_last Hne) as (h0 & p' & Eh).
      assert (p' = p).
      { subst h. rewrite app_length in HB. cbn in HB.
        replace (pred (length h0 + 1)) with (length h0) in HB by lia.
        rewrite nth_error_snoc in HB. congruence. }
      subst p'. cbn in Hc.
      destruct (compute_deltas p t) as [d|] eqn:ED.
      * pose proof (compute_deltas_some _ _ _ ED) as Ed.
        destruct (Inv_add lifetime (s_deltas s) ds d HL HR) as (da & Eadd & HR').
        rewrite Eadd. eexists _, (h ++ [t]), (ds ++ [d]). split; [reflexivity|]. cbn.
        assert (Hlen : length h = S (length h0)) by (subst h; rewrite app_length; cbn; lia).
        split; [|split].
        -- constructor; cbn [s_deltas s_base s_serial].
           ++ exact HR'.
           ++ rewrite !app_length. cbn. lia.
           ++ rewrite app_length. cbn.
              replace (pred (length h + 1)) with (length h) by lia.
              rewrite nth_error_snoc. reflexivity.
           ++ rewrite HS, app_length. cbn. unfold wrap32.
              rewrite Zplus_mod_idemp_l. f_equal. lia.
           ++ apply Forall_app. split; [exact HO|]. repeat constructor; apply Hc.
           ++ intros i a b Ha Hb.
              assert (i < length (h ++ [t]) /\ S i < length (h ++ [t]))%nat as [Hi1 Hi2].
              { split; apply nth_error_Some; congruence. }
              rewrite app_length in Hi1, Hi2. cbn in Hi1, Hi2.
              rewrite nth_error_app1 in Ha by lia.
              destruct (Nat.eq_dec (S i) (length h)) as [El|Nl].
              ** rewrite El, nth_error_snoc in Hb. inversion Hb; subst b.
                 assert (a = p).
                 { subst h. assert (i = length h0) as -> by lia.
                   rewrite nth_error_snoc in Ha. congruence. }
                 subst a. rewrite <- Ed.
                 assert (i = length ds) as -> by lia. apply nth_error_snoc.
              ** rewrite nth_error_app1 in Hb by lia.
                 rewrite nth_error_app1 by lia. apply HC; assumption.
        -- intros cs hf Hp. rewrite Eh in *. constructor 6.
           ++ intros C. apply compute_deltas_none in C. congruence.
           ++ rewrite app_assoc. exact Hp.
        -- right. exists t. auto.
      * eexists _, h, ds. split; [reflexivity|]. cbn.
        split; [exact HI|]. split; [|left; auto].
        intros cs hf Hp. rewrite Eh in *. constructor 5; [|exact Hp].
        apply compute_deltas_none. exact ED.
    + assert (h = []) as Eh0.
      { destruct h as [|x l]; [reflexivity|exfalso]. symmetry in HB.
        apply nth_error_None in HB. cbn in HB. lia. }
      subst h. cbn in HD. assert (ds = []) by (destruct ds; [reflexivity|discriminate]). subst ds.
      eexists _, [t], []. split; [reflexivity|]. cbn.
      split; [|split].
      * constructor; cbn; auto.
        -- rewrite HS. reflexivity.
        -- intros i a b _ Hb. destruct i; discriminate.
      * intros cs hf Hp. constructor. exact Hp.
      * right. exists t. auto.
Qed.

Lemma run_spec lifetime cs s h ds :
  1 <= lifetime < 2147483648 -> VInv lifetime s h ds -> Forall cycle_ok cs ->
  exists s' h' ds', vrps_run lifetime s cs = Ok s' /\ VInv lifetime s' h' ds' /\
    publishes h cs h'.
Proof.
  intros HL. revert s h ds; induction cs as [|c t IH]; intros s h ds HI Hc; cbn.
  - exists s, h, ds. repeat split; auto; try apply HI. constructor.
  - inversion Hc as [|c' t' Hc1 Hc2]; subst.
    destruct (update_spec lifetime s h ds c HL HI Hc1) as (o & h1 & ds1 & E & HI1 & HP & _).
    rewrite E. cbn. destruct (IH _ _ _ HI1 Hc2) as (s' & h' & ds' & E' & HI' & HP').
    exists s', h', ds'. auto.
Qed.

(** ** Streams. *)
Lemma chain_run_v ds n h i a b :
  (forall i a b, nth_error h i = Some a -> nth_error h (S i) = Some b ->
     nth_error ds i = Some (the_deltas a b)) ->
  Forall table_ok h -> length ds = pred (length h) ->
  nth_error h i = Some a -> nth_error h (i + n) = Some b -> (i + n = pred (length h))%nat ->
  client_run (flat_map deltas_vrps (last_n n ds)) (roas_of a) (roas_of b) /\
  client_run (flat_map deltas_rks (last_n n ds)) (rks_of a) (rks_of b).
Proof.
  intros HC HO HD. revert i a; induction n as [|n IH]; intros i a Ha Hb Hn.
  - unfold last_n. rewrite Nat.sub_0_r, skipn_all. cbn.
    rewrite Nat.add_0_r in Hb. rewrite Ha in Hb. inversion Hb; subst.
    split; constructor; tauto.
  - assert (Hlt : (S i < length h)%nat) by lia.
    destruct (nth_error h (S i)) as [m|] eqn:Em; [|apply nth_error_None in Em; lia].
    pose proof (HC _ _ _ Ha Em) as Hd.
    unfold last_n. replace (length ds - S n)%nat with i by lia.
    rewrite (skipn_nth_cons _ _ _ Hd). cbn [flat_map].
    assert (Eskip : skipn (S i) ds = last_n n ds) by (unfold last_n; f_equal; lia).
    rewrite Eskip.
    assert (HA : table_ok a) by (eapply Forall_forall; [exact HO|eapply nth_error_In; eauto]).
    assert (HM : table_ok m) by (eapply Forall_forall; [exact HO|eapply nth_error_In; eauto]).
    destruct (IH (S i) m Em ltac:(replace (S i + n)%nat with (i + S n)%nat by lia; exact Hb)
               ltac:(lia)) as [R1 R2].
    split; eapply client_run_app; eauto using the_deltas_vrps_run, the_deltas_rks_run.
Qed.

Lemma run_cb_rec_l (l : list (flag * vrp)) (a : list (flag * vrp) * list (flag * router_key)) :
  run_cb (fun a v => ((fst a ++ [v], snd a), 0)) a l = ((fst a ++ l, snd a), 0).
Proof.
  revert a; induction l as [|x t IH]; intros [a1 a2]; cbn.
  - rewrite app_nil_r. reflexivity.
  - rewrite IH. cbn. rewrite <- app_assoc. reflexivity.
Qed.
Lemma run_cb_rec_r (l : list (flag * router_key)) (a : list (flag * vrp) * list (flag * router_key)) :
  run_cb (fun a k => ((fst a, snd a ++ [k]), 0)) a l = ((fst a, snd a ++ l), 0).
Proof.
  revert a; induction l as [|x t IH]; intros [a1 a2]; cbn.
  - rewrite app_nil_r. reflexivity.
  - rewrite IH. cbn. rewrite <- app_assoc. reflexivity.
Qed.

(** The window test: for a client [n] serials behind. *)
Lemma window_test serial len n :
  is_u32 serial -> 0 <= len < 2147483648 -> 0 < n <= len ->
  let from := wrap32 (serial - n) in
  from <> serial /\
  serial_lt from (wrap32 (serial - len)) = false /\
  serial_lt serial from = false /\ wrap32 (serial - from) = n.
Proof.
  unfold is_u32, serial_lt, wrap32. intros Hs Hl Hn. cbn.
  repeat split; try lia;
  match goal with |- context [if ?x =? ?y then _ else _] => destruct (Z.eqb_spec x y) end; lia.
Qed.

Lemma streams_in_window lifetime s h ds i a b :
  1 <= lifetime < 2147483648 -> VInv lifetime s h ds ->
  nth_error h i = Some a -> nth_error h (pred (length h)) = Some b ->
  Z.of_nat (length h) - Z.of_nat (S i) <= lifetime ->
  exists vs ks,
    delta_streams s (wrap32 (Z.of_nat (S i))) = Ok (vs, ks, SinceOk (s_serial s)) /\
    client_run vs (roas_of a) (roas_of b) /\ NoDup (map snd vs) /\
    client_run ks (rks_of a) (rks_of b) /\ NoDup (map snd ks).
Proof.
  intros HL HI Ha Hb Hw. destruct HI as [HR HD HB HS HO HC].
  assert (Hi : (i < length h)%nat) by (apply nth_error_Some; congruence).
  set (n := (length h - S i)%nat).
  assert (Hin : (i + n = pred (length h))%nat) by lia.
  destruct (chain_run_v ds n h i a b HC HO HD Ha ltac:(rewrite Hin; exact Hb) Hin) as [R1 R2].
  destruct (filter_correct vrp_equals vrp_equals_eq _ _ _ (roas_dec a) (roas_dec b) R1) as [F1 N1].
  destruct (filter_correct rk_equals rk_equals_eq _ _ _ (rks_dec a) (rks_dec b) R2) as [F2 N2].
  unfold delta_streams, vrps_foreach_delta_since. rewrite HB, Hb.
  assert (Hsu : is_u32 (s_serial s)) by (rewrite HS; apply wrap32_range).
  pose proof (inv_len _ _ _ HR) as Hlen.
  assert (Hfrom : wrap32 (Z.of_nat (S i)) = wrap32 (s_serial s - Z.of_nat n)).
  { rewrite HS. unfold wrap32. rewrite Zminus_mod_idemp_l. f_equal. lia. }
  destruct (Nat.eq_dec n 0) as [En|Nn].
  - rewrite Hfrom. rewrite En. cbn [Z.of_nat]. rewrite Z.sub_0_r, wrap32_id by exact Hsu.
    rewrite Z.eqb_refl. exists [], []. split; [reflexivity|].
    rewrite En in R1, R2. unfold last_n in R1, R2.
    rewrite Nat.sub_0_r, skipn_all in R1, R2. cbn in R1, R2.
    cbn. repeat split; auto; constructor.
  - destruct (window_test (s_serial s) (da_len (s_deltas s)) (Z.of_nat n) Hsu
                ltac:(lia) ltac:(lia)) as (W1 & W2 & W3 & W4).
    rewrite Hfrom. destruct (Z.eqb_spec (wrap32 (s_serial s - Z.of_nat n)) (s_serial s)); [contradiction|].
    rewrite W2, W3, W4.
    rewrite (foreach_since_ok lifetime (s_deltas s) ds (Z.of_nat n) HL HR) by lia.
    rewrite Nat2Z.id, run_cb_rec_l. cbn [fst snd]. rewrite run_cb_rec_r. cbn [fst snd app].
    eexists _, _. split; [reflexivity|]. auto.
Qed.

(** Refused serials. *)
Lemma window_refused serial len from :
  is_u32 serial -> is_u32 from -> 0 <= len < 2147483648 ->
  (forall n, 0 <= n <= len -> from <> wrap32 (serial - n)) ->
  ~ (len = 0 /\ from = wrap32 (serial + 2147483648)) ->
  from <> serial /\
  (serial_lt from (wrap32 (serial - len)) = true \/ serial_lt serial from = true).
Proof.
  unfold is_u32. intros Hs Hf Hl HN HC.
  assert (Hd : forall n, 0 <= n <= len -> (serial - from) mod 4294967296 <> n).
  { intros n Hn E. apply (HN n Hn). unfold wrap32. rewrite <- E. lia. }
  set (d := (serial - from) mod 4294967296) in *.
  assert (Hdl : len < d).
  { destruct (Z_lt_le_dec len d); [assumption|exfalso]. apply (Hd d); [unfold d in *; lia|reflexivity]. }
  split; [unfold d in *; intros ->; lia|].
  destruct (Z_lt_le_dec 2147483648 d) as [D1|D1].
  - right. unfold serial_lt, d in *.
    destruct (Z.eqb_spec serial from); lia.
  - left. assert (Hne : ~ (len = 0 /\ d = 2147483648)).
    { intros [-> E]. apply HC. split; [reflexivity|]. unfold wrap32, d in *. lia. }
    unfold serial_lt, wrap32, d in *.
    destruct (Z.eqb_spec from ((serial - len) mod 4294967296)); lia.
Qed.
