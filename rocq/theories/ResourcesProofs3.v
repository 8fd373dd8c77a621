(** Proofs about certificate resources, continued: what a certificate ends up
    holding. *)
From Verif Require Import Base BaseLemmas PduWireSpec PduWireProofs Address AddressSpec AddressProofs
  SArray SArraySpec SArrayProofs Asn1 Resources ResourcesSpec ResourcesProofs ResourcesProofs2.

Lemma filter_selected (P : Z * Z -> Prop) f l : (forall x, In x l -> (f x = true <-> P x)) ->
  selected P l (filter f l).
Proof.
  induction l as [|x l IH]; intros H; cbn [filter]; [constructor|].
  pose proof (H x (or_introl eq_refl)) as Hx.
  destruct (f x) eqn:E; constructor; try tauto; try (apply IH; intros; apply H; right; auto).
  intros X. apply Hx in X. discriminate.
Qed.
Lemma selected_fun P l m : selected P l m -> forall m', selected P l m' -> m' = m.
Proof.
  induction 1; intros m' S; inversion S; subst; auto; try tauto. f_equal. auto.
Qed.

(** ** Frames *)
Lemma asn_frame h r parent ids al h' r' e : handle_asn_extension h r parent ids al = Ok (h', r', e) ->
  h4 h' = h4 h /\ h6 h' = h6 h /\ r_ip4s r' = r_ip4s r /\ r_ip6s r' = r_ip6s r /\
  r_policy r' = r_policy r /\ r_force_inherit r' = r_force_inherit r.
Proof.
  unfold handle_asn_extension, resources_add_asn, inherit_asiors, add_asiors. intros H.
  destruct ids as [ids|]; [|inversion H; subst; auto 10].
  destruct (as_num ids) as [c|]; [|inversion H; subst; auto 10].
  destruct (as_rdi ids); [inversion H; subst; auto 10|].
  destruct c as [| |l]; [inversion H; subst; auto 10| |].
  - destruct al; cbn [negb] in H; [|inversion H; subst; auto 10].
    destruct parent; [|discriminate]. destruct (r_asns r); inversion H; subst; auto 10.
  - destruct (r_force_inherit r) eqn:F; [inversion H; subst; auto 10|].
    destruct l as [|a l]; [inversion H; subst; auto 10|].
    destruct (item_loop _ _ _ _) as [[[c p] e']| |]; cbn [bind] in H; inversion H; subst; auto 10.
Qed.
Lemma add_ip_frame h r parent f h' r' e : resources_add_ip h r parent f = Ok (h', r', e) ->
  ha h' = ha h /\ r_asns r' = r_asns r /\ r_policy r' = r_policy r /\ r_force_inherit r' = r_force_inherit r /\
  (get_addr_family (f_family f) = 4 -> h6 h' = h6 h /\ r_ip6s r' = r_ip6s r) /\
  (get_addr_family (f_family f) <> 4 -> h4 h' = h4 h /\ r_ip4s r' = r_ip4s r).
Proof.
  unfold resources_add_ip, inherit_aors, add_aors. cbv zeta. intros H.
  set (fam := get_addr_family (f_family f)) in *.
  destruct (fam =? -1); [inversion H; subst; auto 10|].
  destruct (f_choice f) as [| |l]; [inversion H; subst; auto 10| |].
  - destruct parent; [|discriminate].
    destruct (fam =? 4) eqn:E; [destruct (r_ip4s r) eqn:R|destruct (r_ip6s r) eqn:R];
      inversion H; subst; cbn; repeat split; auto; lia.
  - destruct (r_force_inherit r) eqn:F; [inversion H; subst; auto 10|].
    destruct l as [|a l]; [inversion H; subst; auto 10|].
    destruct (fam =? 4) eqn:E;
      (destruct (item_loop _ _ _ _) as [[[c p] e']| |]; cbn [bind] in H; inversion H; subst;
       cbn [h4 h6 ha r_ip4s r_ip6s r_asns r_policy r_force_inherit]; repeat split; auto; lia).
Qed.

Definition same_ip (h : heap) (r : resources) (h' : heap) (r' : resources) : Prop :=
  h4 h' = h4 h /\ h6 h' = h6 h /\ r_ip4s r' = r_ip4s r /\ r_ip6s r' = r_ip6s r.
Definition same_as (h : heap) (r : resources) (h' : heap) (r' : resources) : Prop :=
  ha h' = ha h /\ r_asns r' = r_asns r.
Definition same_meta (r r' : resources) : Prop :=
  r_policy r' = r_policy r /\ r_force_inherit r' = r_force_inherit r.

Lemma block_frame parent l : forall h r h' r' e, block_loop h r parent l = Ok (h', r', e) ->
  same_as h r h' r' /\ same_meta r r'.
Proof.
  induction l as [|b l IH]; intros h r h' r' e; cbn [block_loop].
  - intros H; inversion H; subst. repeat split.
  - destruct (resources_add_ip h r parent b) as [[[h1 r1] e1]| |] eqn:E; cbn [bind]; try discriminate.
    apply add_ip_frame in E. destruct E as (E1 & E2 & E3 & E4 & _).
    destruct (negb (e1 =? 0)).
    + intros H; inversion H; subst. repeat split; auto.
    + intros H. apply IH in H. unfold same_as, same_meta in *. intuition congruence.
Qed.
Lemma ip_frame h r parent bl h' r' e : handle_ip_extension h r parent bl = Ok (h', r', e) ->
  same_as h r h' r' /\ same_meta r r'.
Proof.
  unfold handle_ip_extension. intros H.
  assert (Z : Ok (h, r, E_INVAL) = Ok (h', r', e) -> same_as h r h' r' /\ same_meta r r').
  { intros X; inversion X; subst. repeat split. }
  destruct bl as [[|b1 [|b2 [|b3 l]]]|]; auto.
  - eapply block_frame; eauto.
  - destruct (negb _); auto. destruct (negb _); auto. eapply block_frame; eauto.
Qed.

(** ** Where the resources of an accepted certificate come from *)
Lemma policy_eqb_eq a b : policy_eqb a b = true -> a = b.
Proof. destruct a, b; auto; discriminate. Qed.

Lemma loop_ip parent al exts : forall h r ipf asf h' r',
  extension_loop h r parent al ipf asf exts = Ok (h', r', 0) ->
  (ipf = true -> same_ip h r h' r' /\ forall v c bl, ~ In (ExtIP v c bl) exts) /\
  (ipf = false ->
    (same_ip h r h' r' /\ forall v c bl, ~ In (ExtIP v c bl) exts) \/
    (exists bl hA rA hB rB,
       (forall v c bl', In (ExtIP v c bl') exts <-> v = r_policy r /\ c = true /\ bl' = Some bl) /\
       handle_ip_extension hA rA parent (Some bl) = Ok (hB, rB, 0) /\
       same_ip h r hA rA /\ same_meta r rA /\ same_ip hB rB h' r')).
Proof.
  induction exts as [|e exts IH]; intros h r ipf asf h' r'; cbn [extension_loop].
  - intros H. inversion H; subst. split; intros; [|left]; repeat split; auto.
  - destruct e as [v c bl|v c ids|].
    + destruct (policy_eqb v (r_policy r)) eqn:EV; cbn [negb]; [|discriminate].
      apply policy_eqb_eq in EV; subst v.
      destruct ipf; [discriminate|]. destruct c; cbn [negb]; [|discriminate].
      destruct (handle_ip_extension h r parent bl) as [[[hB rB] e]| |] eqn:EH; cbn [bind]; try discriminate.
      destruct (e =? 0) eqn:E0; cbn [negb]; [|intros X; inversion X; subst; discriminate].
      intros H. split; [discriminate|]. intros _. right.
      assert (e = 0) by lia; subst e.
      destruct (IH _ _ _ _ _ _ H) as [T _]. destruct (T eq_refl) as [T1 T2].
      destruct bl as [bl|]; [|discriminate EH].
      exists bl, h, r, hB, rB. split; [|repeat split; auto].
      intros v c bl'. split.
      * intros [X|X]; [inversion X; auto|destruct (T2 _ _ _ X)].
      * intros (-> & -> & ->). left; auto.
      * apply T1.
      * apply T1.
      * apply T1.
      * apply T1.
    + destruct (policy_eqb v (r_policy r)) eqn:EV; cbn [negb]; [|discriminate].
      destruct asf; [discriminate|]. destruct c; cbn [negb]; [|discriminate].
      destruct (handle_asn_extension h r parent ids al) as [[[hB rB] e]| |] eqn:EH; cbn [bind]; try discriminate.
      destruct (e =? 0) eqn:E0; cbn [negb]; [|intros X; inversion X; subst; discriminate].
      intros H. apply asn_frame in EH. destruct EH as (F1 & F2 & F3 & F4 & F5 & F6).
      destruct (IH _ _ _ _ _ _ H) as [T U]. unfold same_ip, same_meta in *. rewrite F1, F2, F3, F4 in *.
      split.
      * intros X. destruct (T X) as [T1 T2]. split; auto.
        intros v' c' bl' [Y|Y]; [discriminate|apply (T2 _ _ _ Y)].
      * intros X. destruct (U X) as [[T1 T2]|(bl & hA & rA & hC & rC & T1 & T2 & T3 & T4 & T5)].
        -- left. split; auto. intros v' c' bl' [Y|Y]; [discriminate|apply (T2 _ _ _ Y)].
        -- right. exists bl, hA, rA, hC, rC. rewrite F5 in T1, T4. rewrite F6 in T4.
           split; [|auto 10].
           intros v' c' bl'. rewrite <- T1. split; [intros [Y|Y]; [discriminate|auto]|right; auto].
    + intros H. destruct (IH _ _ _ _ _ _ H) as [T U]. split.
      * intros X. destruct (T X) as [T1 T2]. split; auto.
        intros v' c' bl' [Y|Y]; [discriminate|apply (T2 _ _ _ Y)].
      * intros X. destruct (U X) as [[T1 T2]|(bl & hA & rA & hC & rC & T1 & T2 & T3)].
        -- left. split; auto. intros v' c' bl' [Y|Y]; [discriminate|apply (T2 _ _ _ Y)].
        -- right. exists bl, hA, rA, hC, rC. split; [|auto 10].
           intros v' c' bl'. rewrite <- T1. split; [intros [Y|Y]; [discriminate|auto]|right; auto].
Qed.

Lemma loop_as parent al exts : forall h r ipf asf h' r',
  extension_loop h r parent al ipf asf exts = Ok (h', r', 0) ->
  (asf = true -> same_as h r h' r' /\ forall v c bl, ~ In (ExtAS v c bl) exts) /\
  (asf = false ->
    (same_as h r h' r' /\ forall v c bl, ~ In (ExtAS v c bl) exts) \/
    (exists ids hA rA hB rB,
       (forall v c bl', In (ExtAS v c bl') exts <-> v = r_policy r /\ c = true /\ bl' = Some ids) /\
       handle_asn_extension hA rA parent (Some ids) al = Ok (hB, rB, 0) /\
       same_as h r hA rA /\ same_meta r rA /\ same_as hB rB h' r')).
Proof.
  induction exts as [|e exts IH]; intros h r ipf asf h' r'; cbn [extension_loop].
  - intros H. inversion H; subst. split; intros; [|left]; repeat split; auto.
  - destruct e as [v c bl|v c ids|].
    + destruct (policy_eqb v (r_policy r)) eqn:EV; cbn [negb]; [|discriminate].
      destruct ipf; [discriminate|]. destruct c; cbn [negb]; [|discriminate].
      destruct (handle_ip_extension h r parent bl) as [[[hB rB] e]| |] eqn:EH; cbn [bind]; try discriminate.
      destruct (e =? 0) eqn:E0; cbn [negb]; [|intros X; inversion X; subst; discriminate].
      intros H. apply ip_frame in EH. destruct EH as [[F1 F2] [F3 F4]].
      destruct (IH _ _ _ _ _ _ H) as [T U]. unfold same_as, same_meta in *. rewrite F1, F2 in *.
      split.
      * intros X. destruct (T X) as [T1 T2]. split; auto.
        intros v' c' bl' [Y|Y]; [discriminate|apply (T2 _ _ _ Y)].
      * intros X. destruct (U X) as [[T1 T2]|(ids & hA & rA & hC & rC & T1 & T2 & T3 & T4 & T5)].
        -- left. split; auto. intros v' c' bl' [Y|Y]; [discriminate|apply (T2 _ _ _ Y)].
        -- right. exists ids, hA, rA, hC, rC. rewrite F3 in T1, T4. rewrite F4 in T4.
           split; [|auto 10].
           intros v' c' bl'. rewrite <- T1. split; [intros [Y|Y]; [discriminate|auto]|right; auto].
    + destruct (policy_eqb v (r_policy r)) eqn:EV; cbn [negb]; [|discriminate].
      apply policy_eqb_eq in EV; subst v.
      destruct asf; [discriminate|]. destruct c; cbn [negb]; [|discriminate].
      destruct (handle_asn_extension h r parent ids al) as [[[hB rB] e]| |] eqn:EH; cbn [bind]; try discriminate.
      destruct (e =? 0) eqn:E0; cbn [negb]; [|intros X; inversion X; subst; discriminate].
      intros H. split; [discriminate|]. intros _. right.
      assert (e = 0) by lia; subst e.
      destruct (IH _ _ _ _ _ _ H) as [T _]. destruct (T eq_refl) as [T1 T2].
      destruct ids as [ids|]; [|discriminate EH].
      exists ids, h, r, hB, rB. split; [|repeat split; auto].
      intros v c bl'. split.
      * intros [X|X]; [inversion X; auto|destruct (T2 _ _ _ X)].
      * intros (-> & -> & ->). left; auto.
      * apply T1.
      * apply T1.
    + intros H. destruct (IH _ _ _ _ _ _ H) as [T U]. split.
      * intros X. destruct (T X) as [T1 T2]. split; auto.
        intros v' c' bl' [Y|Y]; [discriminate|apply (T2 _ _ _ Y)].
      * intros X. destruct (U X) as [[T1 T2]|(bl & hA & rA & hC & rC & T1 & T2 & T3)].
        -- left. split; auto. intros v' c' bl' [Y|Y]; [discriminate|apply (T2 _ _ _ Y)].
        -- right. exists bl, hA, rA, hC, rC. split; [|auto 10].
           intros v' c' bl'. rewrite <- T1. split; [intros [Y|Y]; [discriminate|auto]|right; auto].
Qed.

Lemma family4 f : get_addr_family f = 4 <-> f = [0; 1].
Proof.
  unfold get_addr_family. destruct f as [|a [|b [|c f]]]; split; intros H; try lia; try discriminate.
  - destruct (a =? 0) eqn:E; cbn [negb] in H; [|lia]. destruct (b =? 1) eqn:E2; [|destruct (b =? 2); lia].
    f_equal; [lia|f_equal; lia].
  - inversion H; subst. reflexivity.
Qed.
Lemma family6 f : get_addr_family f = 6 <-> f = [0; 2].
Proof.
  unfold get_addr_family. destruct f as [|a [|b [|c f]]]; split; intros H; try lia; try discriminate.
  - destruct (a =? 0) eqn:E; cbn [negb] in H; [|lia]. destruct (b =? 1) eqn:E2; [lia|].
    destruct (b =? 2) eqn:E3; [|lia]. f_equal; [lia|f_equal; lia].
  - inversion H; subst. reflexivity.
Qed.

(** What one choice of a family leads to. *)
Definition grant4 (h0 : heap) (parent : option resources) (p : policy) (c : ip_choice) (held : list (Z * Z)) : Prop :=
  match c with
  | IPC_nothing => False
  | IPC_inherit => exists pa, parent = Some pa /\ held = holds4 h0 pa
  | IPC_aors l => granted claims4 p (option_map (holds4 h0) parent) l held
  end.
Definition grant6 (h0 : heap) (parent : option resources) (p : policy) (c : ip_choice) (held : list (Z * Z)) : Prop :=
  match c with
  | IPC_nothing => False
  | IPC_inherit => exists pa, parent = Some pa /\ held = holds6 h0 pa
  | IPC_aors l => granted claims6 p (option_map (holds6 h0) parent) l held
  end.
Definition grantA (h0 : heap) (parent : option resources) (p : policy) (c : as_choice) (held : list (Z * Z)) : Prop :=
  match c with
  | ASC_nothing => False
  | ASC_inherit => exists pa, parent = Some pa /\ held = holdsA h0 pa
  | ASC_iors l => Forall nonnegative l -> granted claimsA p (option_map (holdsA h0) parent) l held
  end.

(** From [list_spec] to [granted]. *)
Lemma to_granted {A I} (num : A -> Z * Z) (ok : A -> Prop) (dec : I -> res A) (claims : I -> Z * Z -> Prop)
  (ok_num : forall a, ok a -> 0 <= fst (num a) <= snd (num a))
  old parent (pcont : option (list (Z * Z))) p items els held :
  Forall (inv num ok) old ->
  (forall a, In a items -> forall e, dec a = Ok e -> ok e /\ claims a (num e)) ->
  match parent, pcont with
  | Some pp, Some m => content num old pp = m
  | None, None => True
  | _, _ => False
  end ->
  items <> [] -> map dec items = map Ok els ->
  (p = RFC6484 -> Forall (fun e => owned num old parent (num e)) els) ->
  sorted_with_gaps (filter (ownedb num old parent) (map num els)) ->
  held = filter (ownedb num old parent) (map num els) ->
  granted claims p pcont items held.
Proof.
  intros F D PC NE M OWN SG ->. split; auto. exists (map num els).
  assert (C : Forall2 claims items (map num els) /\ Forall ok els).
  { clear - D M. revert els M. induction items as [|a items IH]; intros [|e els] M; try discriminate; cbn [map].
    - split; constructor.
    - cbn [map] in M. inversion M as [[M1 M2]].
      destruct (IH (fun a0 X => D a0 (or_intror X)) els M2) as [I1 I2].
      destruct (D a (or_introl eq_refl) e M1). split; constructor; auto. }
  destruct C as [C1 C2]. split; auto. cbv zeta.
  assert (OW : forall r, match pcont with Some m => inside m r | None => True end <-> owned num old parent r).
  { intros r. destruct parent as [pp|], pcont as [m|]; try tauto. subst m. cbn [owned]. tauto. }
  split; [|split; auto].
  - intros X. apply Forall_map. eapply Forall_impl; [|exact (OWN X)]. intros e O. apply OW. exact O.
  - apply filter_selected. intros x IN. apply in_map_iff in IN. destruct IN as [e [<- IN]].
    rewrite OW. apply (ownedb_spec num ok); auto.
    rewrite Forall_forall in C2. specialize (ok_num e (C2 e IN)). lia.
Qed.

Section Grants.
  Variables (h0 : heap) (parent : option resources).
  Hypothesis H0 : heap_ok h0.
  Hypothesis P0 : parent_ok h0 parent.

  Lemma pcont4 : match option_map r_ip4s parent, option_map (holds4 h0) parent with
    | Some pp, Some m => content (fun x => x) (h4 h0) pp = m | None, None => True | _, _ => False end.
  Proof. destruct parent; cbn; auto. Qed.
  Lemma pcont6 : match option_map r_ip6s parent, option_map (holds6 h0) parent with
    | Some pp, Some m => content num6 (h6 h0) pp = m | None, None => True | _, _ => False end.
  Proof. destruct parent; cbn; auto. Qed.
  Lemma pcontA : match option_map r_asns parent, option_map (holdsA h0) parent with
    | Some pp, Some m => content (fun x => x) (ha h0) pp = m | None, None => True | _, _ => False end.
  Proof. destruct parent; cbn; auto. Qed.

  Lemma add_ip_grant4 h r f h' r' : resources_add_ip h r parent f = Ok (h', r', 0) -> family_ok f ->
    f_family f = [0; 1] -> h4 h = h4 h0 -> r_ip4s r = None ->
    grant4 h0 parent (r_policy r) (f_choice f) (holds4 h' r').
  Proof.
    intros H OK FAM EH ER. unfold resources_add_ip in H. cbv zeta in H. rewrite FAM in H.
    change (get_addr_family [0; 1]) with 4 in H. change (4 =? -1) with false in H. cbv iota in H.
    unfold family_ok in OK. destruct (f_choice f) as [| |l]; [discriminate| |]; cbn [grant4].
    - unfold inherit_aors in H. destruct parent as [pa|]; [|discriminate]. cbn [Z.eqb Pos.eqb] in H.
      rewrite ER in H. inversion H; subst. exists pa. split; auto.
      unfold holds4; cbn [r_ip4s]. rewrite EH. reflexivity.
    - unfold add_aors in H. destruct (r_force_inherit r); [discriminate|].
      destruct l as [|a l]; [discriminate|]. destruct OK as [OK LEN]. cbn [Z.eqb Pos.eqb] in H.
      rewrite EH, ER in H.
      destruct (list_spec r4_cmp (fun x => x) (range_ok (2 ^ 32)) u32_cmp_num range_ok_num
                 step_aor4 dec4 step_aor4_eq (h4 h0) (r_policy r) (option_map r_ip4s parent) (a :: l)
                 (ok_h4 _ H0) (sm_h4 _ H0) (p4 h0 parent P0) (good4 _ OK) LEN ltac:(discriminate))
        as [cells [mine [err [E [FS [INC [IFF CON]]]]]]].
      rewrite E in H. cbn [bind] in H. inversion H; subst err h' r'. clear H.
      destruct (proj1 IFF eq_refl) as [els [A1 [A2 [A3 A4]]]].
      destruct (CON eq_refl) as [els' [B1 B2]].
      assert (els' = els).
      { rewrite A1 in B1. clear - B1. revert els' B1. induction els as [|x els IH]; intros [|y els'] B; inversion B; f_equal; auto. }
      subst els'.
      eapply (to_granted (fun x => x) (range_ok (2 ^ 32)) dec4 claims4 range_ok_num (h4 h0)
                (option_map r_ip4s parent)); eauto.
      + apply H0.
      + intros a' IN e D. rewrite Forall_forall in OK. pose proof (dec4_spec a' (OK a' IN)) as S.
        rewrite D in S. destruct S as [S1 S2]. split; auto. apply S2. reflexivity.
      + apply pcont4.
      + discriminate.
  Qed.

  Lemma add_ip_grant6 h r f h' r' : resources_add_ip h r parent f = Ok (h', r', 0) -> family_ok f ->
    f_family f = [0; 2] -> h6 h = h6 h0 -> r_ip6s r = None ->
    grant6 h0 parent (r_policy r) (f_choice f) (holds6 h' r').
  Proof.
    intros H OK FAM EH ER. unfold resources_add_ip in H. cbv zeta in H. rewrite FAM in H.
    change (get_addr_family [0; 2]) with 6 in H. change (6 =? -1) with false in H. cbv iota in H.
    unfold family_ok in OK. destruct (f_choice f) as [| |l]; [discriminate| |]; cbn [grant6].
    - unfold inherit_aors in H. destruct parent as [pa|]; [|discriminate]. cbn [Z.eqb Pos.eqb] in H.
      rewrite ER in H. inversion H; subst. exists pa. split; auto.
      unfold holds6; cbn [r_ip6s]. rewrite EH. reflexivity.
    - unfold add_aors in H. destruct (r_force_inherit r); [discriminate|].
      destruct l as [|a l]; [discriminate|]. destruct OK as [OK LEN]. cbn [Z.eqb Pos.eqb] in H.
      rewrite EH, ER in H.
      destruct (list_spec r6_cmp num6 range6_ok r6_cmp_num range6_ok_num
                 step_aor6 dec6 step_aor6_eq (h6 h0) (r_policy r) (option_map r_ip6s parent) (a :: l)
                 (ok_h6 _ H0) (sm_h6 _ H0) (p6 h0 parent P0) (good6 _ OK) LEN ltac:(discriminate))
        as [cells [mine [err [E [FS [INC [IFF CON]]]]]]].
      rewrite E in H. cbn [bind] in H. inversion H; subst err h' r'. clear H.
      destruct (proj1 IFF eq_refl) as [els [A1 [A2 [A3 A4]]]].
      destruct (CON eq_refl) as [els' [B1 B2]].
      assert (els' = els).
      { rewrite A1 in B1. clear - B1. revert els' B1. induction els as [|x els IH]; intros [|y els'] B; inversion B; f_equal; auto. }
      subst els'.
      eapply (to_granted num6 range6_ok dec6 claims6 range6_ok_num (h6 h0)
                (option_map r_ip6s parent)); eauto.
      + apply H0.
      + intros a' IN e D. rewrite Forall_forall in OK. pose proof (dec6_spec a' (OK a' IN)) as S.
        rewrite D in S. destruct S as [S1 S2]. split; auto. apply S2. reflexivity.
      + apply pcont6.
      + discriminate.
  Qed.

  Lemma add_asn_grant h r ids al h' r' : handle_asn_extension h r parent (Some ids) al = Ok (h', r', 0) ->
    as_ids_ok ids -> ha h = ha h0 -> r_asns r = None ->
    exists c, as_num ids = Some c /\ grantA h0 parent (r_policy r) c (holdsA h' r').
  Proof.
    intros H OK EH ER. unfold handle_asn_extension, resources_add_asn in H.
    unfold as_ids_ok in OK. destruct (as_num ids) as [c|]; [|discriminate]. exists c. split; auto.
    destruct (as_rdi ids); [discriminate|].
    destruct c as [| |l]; [discriminate| |]; cbn [grantA].
    - destruct al; [|discriminate]. cbn [negb] in H.
      unfold inherit_asiors in H. destruct parent as [pa|]; [|discriminate].
      rewrite ER in H. inversion H; subst. exists pa. split; auto.
      unfold holdsA; cbn [r_asns]. rewrite EH. reflexivity.
    - intros NN. unfold add_asiors in H. destruct (r_force_inherit r); [discriminate|].
      destruct l as [|a l]; [discriminate|]. destruct OK as [OK LEN].
      rewrite EH, ER in H.
      destruct (list_spec asn_cmp (fun x => x) (range_ok (2 ^ 32)) u32_cmp_num range_ok_num
                 step_asior decode_asior step_asior_eq (ha h0) (r_policy r) (option_map r_asns parent) (a :: l)
                 (ok_ha _ H0) (sm_ha _ H0) (pA h0 parent P0) (goodA _ OK) LEN ltac:(discriminate))
        as [cells [mine [err [E [FS [INC [IFF CON]]]]]]].
      rewrite E in H. cbn [bind] in H. inversion H; subst err h' r'. clear H.
      destruct (proj1 IFF eq_refl) as [els [A1 [A2 [A3 A4]]]].
      destruct (CON eq_refl) as [els' [B1 B2]].
      assert (els' = els).
      { rewrite A1 in B1. clear - B1. revert els' B1. induction els as [|x els IH]; intros [|y els'] B; inversion B; f_equal; auto. }
      subst els'.
      eapply (to_granted (fun x => x) (range_ok (2 ^ 32)) decode_asior claimsA range_ok_num (ha h0)
                (option_map r_asns parent)); eauto.
      + apply H0.
      + intros a' IN e D. rewrite Forall_forall in OK. rewrite Forall_forall in NN.
        pose proof (decA_spec a' (OK a' IN) (NN a' IN)) as S.
        rewrite D in S. destruct S as [S1 S2]. split; auto. apply S2. reflexivity.
      + apply pcontA.
      + discriminate.
  Qed.

  Lemma ip_ext_grant h r bl h' r' : handle_ip_extension h r parent (Some bl) = Ok (h', r', 0) ->
    Forall family_ok bl -> h4 h = h4 h0 -> h6 h = h6 h0 -> r_ip4s r = None -> r_ip6s r = None ->
    ((forall b, In b bl -> f_family b = [0; 1] -> grant4 h0 parent (r_policy r) (f_choice b) (holds4 h' r')) /\
     ((forall b, In b bl -> f_family b <> [0; 1]) -> r_ip4s r' = None)) /\
    ((forall b, In b bl -> f_family b = [0; 2] -> grant6 h0 parent (r_policy r) (f_choice b) (holds6 h' r')) /\
     ((forall b, In b bl -> f_family b <> [0; 2]) -> r_ip6s r' = None)).
  Proof.
    intros H OK E4 E6 R4 R6. unfold handle_ip_extension in H.
    destruct bl as [|b1 [|b2 [|b3 l]]]; try discriminate.
    - cbn [block_loop] in H. inversion OK as [|? ? O1 _]; subst.
      destruct (resources_add_ip h r parent b1) as [[[h1 r1] e1]| |] eqn:E; cbn [bind] in H; try discriminate.
      destruct (e1 =? 0) eqn:Z1; cbn [negb] in H; [|inversion H; subst; discriminate].
      inversion H; subst h1 r1. assert (e1 = 0) by lia; subst e1. clear H.
      pose proof (add_ip_frame _ _ _ _ _ _ _ E) as (_ & _ & FP & _ & F4 & F6).
      split; split.
      + intros b [<-|[]] FAM. eapply add_ip_grant4; eauto.
      + intros N. destruct F6 as [F7 F8]; [|congruence].
        rewrite family4. apply N. left; auto.
      + intros b [<-|[]] FAM. eapply add_ip_grant6; eauto.
      + intros N. assert (X : get_addr_family (f_family b1) = 4).
        { unfold resources_add_ip in E. cbv zeta in E.
          assert (Y : get_addr_family (f_family b1) <> 6) by (rewrite family6; apply N; left; auto).
          unfold get_addr_family in *. destruct (f_family b1) as [|a0 [|a1 [|a2 fl]]]; try discriminate.
          destruct (negb (a0 =? 0)); [discriminate|]. destruct (a1 =? 1); auto. destruct (a1 =? 2); [lia|discriminate]. }
        destruct (F4 X) as [F7 F8]. congruence.
    - destruct (get_addr_family (f_family b1) =? 4) eqn:X1; cbn [negb] in H; [|discriminate].
      destruct (get_addr_family (f_family b2) =? 6) eqn:X2; cbn [negb] in H; [|discriminate].
      assert (Y1 : f_family b1 = [0; 1]) by (apply family4; lia).
      assert (Y2 : f_family b2 = [0; 2]) by (apply family6; lia).
      cbn [block_loop] in H. inversion OK as [|? ? O1 OK2]; subst. inversion OK2 as [|? ? O2 _]; subst.
      destruct (resources_add_ip h r parent b1) as [[[h1 r1] e1]| |] eqn:E; cbn [bind] in H; try discriminate.
      destruct (e1 =? 0) eqn:Z1; cbn [negb] in H; [|inversion H; subst; discriminate].
      assert (e1 = 0) by lia; subst e1.
      destruct (resources_add_ip h1 r1 parent b2) as [[[h2 r2] e2]| |] eqn:E'; cbn [bind] in H; try discriminate.
      destruct (e2 =? 0) eqn:Z2; cbn [negb] in H; [|inversion H; subst; discriminate].
      inversion H; subst h2 r2. assert (e2 = 0) by lia; subst e2. clear H.
      pose proof (add_ip_frame _ _ _ _ _ _ _ E) as (_ & _ & FP & _ & F4 & _).
      destruct (F4 ltac:(lia)) as [F5 F6].
      pose proof (add_ip_frame _ _ _ _ _ _ _ E') as (_ & _ & FP' & _ & _ & G6).
      destruct (G6 ltac:(lia)) as [G7 G8].
      split; split.
      + intros b [<-|[<-|[]]] FAM; [|rewrite FAM in Y2; discriminate].
        unfold holds4. rewrite G7, G8. eapply (add_ip_grant4 h r b1 h1 r1); eauto.
      + intros N. destruct (N b1); auto. left; auto.
      + intros b [<-|[<-|[]]] FAM; [rewrite FAM in Y1; discriminate|].
        rewrite <- FP. eapply (add_ip_grant6 h1 r1 b2 h' r'); eauto; congruence.
      + intros N. destruct (N b2); auto. right; left; auto.
  Qed.

  (** The whole certificate. *)
  Lemma cert_grants p f t exts h' r' :
    certificate_get_resources h0 (resources_create p f) parent t exts = Ok (h', r', 0) ->
    Forall extension_ok exts ->
    ((forall b, ip_block 1 exts b -> grant4 h0 parent p (f_choice b) (holds4 h' r')) /\
     ((forall b, ~ ip_block 1 exts b) -> holds4 h' r' = [])) /\
    ((forall b, ip_block 2 exts b -> grant6 h0 parent p (f_choice b) (holds6 h' r')) /\
     ((forall b, ~ ip_block 2 exts b) -> holds6 h' r' = [])) /\
    ((forall c, as_block exts c -> grantA h0 parent p c (holdsA h' r')) /\
     ((forall c, ~ as_block exts c) -> holdsA h' r' = [])) /\
    ((exists v c bl, In (ExtIP v c bl) exts) \/ (exists v c ids, In (ExtAS v c ids) exts)) /\
    (forall v c bl, In (ExtIP v c bl) exts -> v = p /\ c = true /\ bl <> None) /\
    (forall v c ids, In (ExtAS v c ids) exts -> v = p /\ c = true /\ ids <> None).
  Proof.
    intros H OK. unfold certificate_get_resources in H.
    assert (SOME : (exists v c bl, In (ExtIP v c bl) exts) \/ (exists v c ids, In (ExtAS v c ids) exts)).
    { clear - H. destruct exts as [|e exts]; [discriminate|].
      revert H. generalize h0, (resources_create p f).
      assert (G : forall l h r, extension_loop h r parent match t with CERTYPE_BGPSEC => false | _ => true end
                     false false l = Ok (h', r', 0) ->
        (exists v c bl, In (ExtIP v c bl) l) \/ (exists v c ids, In (ExtAS v c ids) l)).
      { induction l as [|x l IH]; intros h r H; [discriminate|]. cbn [extension_loop] in H.
        destruct x as [v c bl|v c ids|]; [left; exists v, c, bl; left; auto|right; exists v, c, ids; left; auto|].
        destruct (IH _ _ H) as [(v & c & bl & X)|(v & c & bl & X)];
          [left|right]; exists v, c, bl; right; auto. }
      intros h r. apply G. }
    destruct (loop_ip _ _ _ _ _ _ _ _ _ H) as [_ LI]. specialize (LI eq_refl).
    destruct (loop_as _ _ _ _ _ _ _ _ _ H) as [_ LA]. specialize (LA eq_refl).
    rewrite Forall_forall in OK.
    assert (PARTS : forall P Q R S T U : Prop, (P /\ Q) /\ T -> R /\ U -> S -> P /\ Q /\ R /\ S /\ T /\ U) by tauto.
    apply PARTS; auto.
    - destruct LI as [[S N]|(bl & hA & rA & hB & rB & IN & HH & (S1 & S2 & S3 & S4) & (S5 & S6) & (S7 & S8 & S9 & S10))].
      + split; [|intros v c bl X; destruct (N _ _ _ X)].
        destruct S as (_ & _ & S3 & S4). split; split.
        * intros b (v & c & bl & X & _). destruct (N _ _ _ X).
        * intros _. unfold holds4. rewrite S3. reflexivity.
        * intros b (v & c & bl & X & _). destruct (N _ _ _ X).
        * intros _. unfold holds6. rewrite S4. reflexivity.
      + split; [|intros v c bl' X; apply IN in X; destruct X as (-> & -> & ->); repeat split; auto; discriminate].
        assert (INB : In (ExtIP p true (Some bl)) exts) by (apply IN; auto).
        pose proof (OK _ INB) as OKB. cbn [extension_ok] in OKB.
        destruct (ip_ext_grant hA rA bl hB rB HH OKB S1 S2 S3 S4) as [[A1 A2] [A3 A4]].
        cbn [resources_create r_policy] in S5. rewrite S5 in A1, A3.
        split; split.
        * intros b (v & c & bl' & X & Y & Z). apply IN in X. destruct X as (_ & _ & X). inversion X; subst bl'.
          unfold holds4. rewrite S7, S9. apply A1; auto.
        * intros N. unfold holds4. rewrite S9. rewrite A2; auto.
          intros b Y Z. apply (N b). exists p, true, bl. auto.
        * intros b (v & c & bl' & X & Y & Z). apply IN in X. destruct X as (_ & _ & X). inversion X; subst bl'.
          unfold holds6. rewrite S8, S10. apply A3; auto.
        * intros N. unfold holds6. rewrite S10. rewrite A4; auto.
          intros b Y Z. apply (N b). exists p, true, bl. auto.
    - destruct LA as [[S N]|(ids & hA & rA & hB & rB & IN & HH & (S1 & S2) & (S5 & S6) & (S7 & S8))].
      + split; [|intros v c bl X; destruct (N _ _ _ X)].
        destruct S as (_ & S4). split.
        * intros b (v & c & bl & X & _). destruct (N _ _ _ X).
        * intros _. unfold holdsA. rewrite S4. reflexivity.
      + split; [|intros v c bl' X; apply IN in X; destruct X as (-> & -> & ->); repeat split; auto; discriminate].
        assert (INB : In (ExtAS p true (Some ids)) exts) by (apply IN; auto).
        pose proof (OK _ INB) as OKB. cbn [extension_ok] in OKB.
        destruct (add_asn_grant hA rA ids _ hB rB HH OKB S1 S2) as (c & A1 & A2).
        cbn [resources_create r_policy] in S5. rewrite S5 in A2.
        split.
        * intros c' (v & cr & ids' & X & Y). apply IN in X. destruct X as (_ & _ & X). inversion X; subst ids'.
          rewrite A1 in Y. inversion Y; subst c'. unfold holdsA. rewrite S7, S8. exact A2.
        * intros N. destruct (N c). exists p, true, ids. auto.
  Qed.
End Grants.
