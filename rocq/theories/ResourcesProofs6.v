(** Proofs about certificate resources, continued: exactly which certificates
    are accepted. *)
From Verif Require Import Base BaseLemmas PduWireSpec PduWireProofs Address AddressSpec AddressProofs
  SArray SArraySpec SArrayProofs Asn1 Resources ResourcesSpec ResourcesProofs ResourcesProofs2 ResourcesProofs3
  ResourcesProofs4 ResourcesAcceptSpec ResourcesProofs5.

(** Something was accepted. *)
Definition succ (x : res (heap * resources * Z)) : Prop := exists h r, x = Ok (h, r, 0).
Lemma succ_err h r e : succ (Ok (h, r, e)) <-> e = 0.
Proof. split; [intros (h' & r' & H); inversion H; auto|intros ->; exists h, r; auto]. Qed.
Lemma succ_inval h r : succ (Ok (h, r, E_INVAL)) <-> False.
Proof. rewrite succ_err. unfold E_INVAL. split; [lia|tauto]. Qed.

(** ** A list of claims *)
Lemma list_accept {A I} (cmp : A -> A -> sacmp) num (ok : A -> Prop)
  (cmp_num : forall a b, ok a -> ok b -> cmp a b = zcmp (num a) (num b))
  (ok_num : forall a, ok a -> 0 <= fst (num a) <= snd (num a))
  (step : policy -> option ptr -> list (sarray A) -> ptr -> I -> res (list (sarray A) * ptr * Z)) (dec : I -> res A)
  (STEP : forall pol parent cells mine it, step pol parent cells mine it = gstep cmp pol parent cells mine (dec it))
  (claims : I -> Z * Z -> Prop) old pol parent pcont items :
  Forall (inv num ok) old -> Forall ResourcesProofs2.small old ->
  match parent with Some pp => ptr_ok old pp /\ filled old pp | None => True end ->
  match parent, pcont with
  | Some pp, Some m => content num old pp = m
  | None, None => True
  | _, _ => False
  end ->
  (forall a, In a items -> match dec a with
     | Ok e => ok e /\ forall r, claims a r <-> r = num e
     | Err _ => forall r, ~ claims a r
     | UB => False
     end) ->
  Z.of_nat (length items) < 2 ^ 31 -> items <> [] ->
  exists cells mine err, item_loop (step pol parent) old None items = Ok (cells, mine, err) /\
    (err = 0 <-> pcont <> Some [] /\ exists held, granted claims pol pcont items held).
Proof.
  intros F SM P PC D LEN NE.
  destruct (list_spec cmp num ok cmp_num ok_num step dec STEP old pol parent items F SM) as
    (cells & mine & err & E & _ & _ & IFF & _); auto.
  { destruct parent; tauto. }
  { apply Forall_map. apply Forall_forall. intros a IN. specialize (D a IN). unfold good. destruct (dec a); tauto. }
  exists cells, mine, err. split; auto. rewrite IFF. split.
  - intros (els & A1 & A2 & A3 & A4). split.
    + intros ->. destruct parent as [pp|]; [|destruct PC]. destruct P as [_ P].
      rewrite (filled_content num old pp P PC) in A2. auto.
    + eexists. eapply (to_granted num ok dec claims ok_num old parent); eauto.
      intros a IN e DE. specialize (D a IN). rewrite DE in D. destruct D as [D1 D2]. split; auto. apply D2. reflexivity.
  - intros (PNE & held & _ & rs & C & OWN & SEL & SG). cbv zeta in *.
    assert (DEC : exists els, map dec items = map Ok els /\ rs = map num els /\ Forall ok els).
    { clear - D C. revert rs C. induction items as [|b m IH]; intros rs C; inversion C; subst.
      - exists []. repeat split; constructor.
      - destruct (IH (fun a X => D a (or_intror X)) l' H3) as (els & I1 & I2 & I3).
        specialize (D b (or_introl eq_refl)). destruct (dec b) as [e|e|] eqn:EB; [|destruct (D _ H1)|destruct D].
        destruct D as [S1 S2]. apply S2 in H1. subst y. exists (e :: els). cbn [map]. rewrite I1, I2, EB. auto. }
    destruct DEC as (els & DEC & -> & RO). exists els. split; auto.
    assert (OW : forall r, match pcont with Some m => inside m r | None => True end
                           <-> owned num old parent r).
    { intros r. destruct parent as [pp|], pcont as [m|]; try tauto. subst m. cbn [owned]. tauto. }
    split; [|split].
    + intros ->. destruct pcont as [m|]; [|destruct PC]. cbn [content] in PC. subst m. auto.
    + intros X. specialize (OWN X). rewrite Forall_map in OWN. eapply Forall_impl; [|exact OWN]. intros r Y. apply OW. exact Y.
    + rewrite <- (selected_fun _ _ _ SEL (filter (ownedb num old parent) (map num els))) in SG.
      * exact SG.
      * apply filter_selected. intros x IN. rewrite OW. apply (ownedb_spec num ok); auto.
        apply in_map_iff in IN. destruct IN as (e & <- & IN).
        rewrite Forall_forall in RO. pose proof (ok_num e (RO e IN)). lia.
Qed.

Section Accept.
  Variables (h0 : heap) (parent : option resources).
  Hypothesis H0 : heap_ok h0.
  Hypothesis P0 : parent_ok h0 parent.
  Hypothesis F0 : parent_full h0 parent.

  Let held4 := option_map (holds4 h0) parent.
  Let held6 := option_map (holds6 h0) parent.
  Let heldA := option_map (holdsA h0) parent.

  Lemma some_held (f : resources -> list (Z * Z)) : option_map f parent <> None <-> exists pa, parent = Some pa.
  Proof. destruct parent; cbn; split; try discriminate; try tauto; eauto. intros (? & ?); discriminate. Qed.

  Lemma add_ip_accept4 h r f : family_ok f -> f_family f = [0; 1] -> h4 h = h4 h0 -> r_ip4s r = None ->
    (succ (resources_add_ip h r parent f) <->
     ip_choice_acceptable claims4 (r_policy r) (r_force_inherit r) held4 (f_choice f)).
  Proof.
    intros OK FAM EH ER. unfold resources_add_ip. cbv zeta. rewrite FAM.
    change (get_addr_family [0; 1]) with 4. change (4 =? -1) with false. cbv iota.
    unfold family_ok in OK. destruct (f_choice f) as [| |l]; cbn [ip_choice_acceptable]; [apply succ_inval| |].
    - unfold held4. rewrite some_held. unfold inherit_aors. destruct parent as [pa|].
      + change (4 =? 4) with true. cbv iota. rewrite ER, succ_err. split; eauto.
      + split; [intros (? & ? & X); discriminate|intros (? & X); discriminate].
    - unfold add_aors. destruct (r_force_inherit r) eqn:FI; [rewrite succ_inval; split; [tauto|intros [X _]; discriminate]|].
      destruct l as [|a l]; [rewrite succ_inval; split; [tauto|intros (_ & _ & held & X & _); auto]|].
      destruct OK as [OK LEN]. change (4 =? 4) with true. cbv iota. rewrite EH, ER.
      destruct (list_accept r4_cmp (fun x => x) (range_ok (2 ^ 32)) u32_cmp_num range_ok_num
                 step_aor4 dec4 step_aor4_eq claims4 (h4 h0) (r_policy r) (option_map r_ip4s parent) held4 (a :: l)
                 (ok_h4 _ H0) (sm_h4 _ H0)) as (cells & mine & err & E & IFF); auto.
      + pose proof (p4 h0 parent P0). destruct parent as [pa|]; cbn [option_map parent_full] in *; [|exact Logic.I]. split; [assumption|apply F0].
      + apply (pcont4 h0 parent); assumption.
      + intros b IN. rewrite Forall_forall in OK. apply (dec4_spec b (OK b IN)).
      + discriminate.
      + rewrite E. cbn [bind]. rewrite succ_err, IFF. tauto.
  Qed.

  Lemma add_ip_accept6 h r f : family_ok f -> f_family f = [0; 2] -> h6 h = h6 h0 -> r_ip6s r = None ->
    (succ (resources_add_ip h r parent f) <->
     ip_choice_acceptable claims6 (r_policy r) (r_force_inherit r) held6 (f_choice f)).
  Proof.
    intros OK FAM EH ER. unfold resources_add_ip. cbv zeta. rewrite FAM.
    change (get_addr_family [0; 2]) with 6. change (6 =? -1) with false. cbv iota.
    unfold family_ok in OK. destruct (f_choice f) as [| |l]; cbn [ip_choice_acceptable]; [apply succ_inval| |].
    - unfold held6. rewrite some_held. unfold inherit_aors. destruct parent as [pa|].
      + change (6 =? 4) with false. cbv iota. rewrite ER, succ_err. split; eauto.
      + split; [intros (? & ? & X); discriminate|intros (? & X); discriminate].
    - unfold add_aors. destruct (r_force_inherit r) eqn:FI; [rewrite succ_inval; split; [tauto|intros [X _]; discriminate]|].
      destruct l as [|a l]; [rewrite succ_inval; split; [tauto|intros (_ & _ & held & X & _); auto]|].
      destruct OK as [OK LEN]. change (6 =? 4) with false. cbv iota. rewrite EH, ER.
      destruct (list_accept r6_cmp num6 range6_ok r6_cmp_num range6_ok_num
                 step_aor6 dec6 step_aor6_eq claims6 (h6 h0) (r_policy r) (option_map r_ip6s parent) held6 (a :: l)
                 (ok_h6 _ H0) (sm_h6 _ H0)) as (cells & mine & err & E & IFF); auto.
      + pose proof (p6 h0 parent P0). destruct parent as [pa|]; cbn [option_map parent_full] in *; [|exact Logic.I]. split; [assumption|apply F0].
      + apply (pcont6 h0 parent); assumption.
      + intros b IN. rewrite Forall_forall in OK. apply (dec6_spec b (OK b IN)).
      + discriminate.
      + rewrite E. cbn [bind]. rewrite succ_err, IFF. tauto.
  Qed.

  Lemma asn_accept h r ids al : as_ids_ok ids -> all_nonnegative ids -> ha h = ha h0 -> r_asns r = None ->
    (succ (handle_asn_extension h r parent (Some ids) al) <->
     as_acceptable (r_policy r) (r_force_inherit r) (negb al) heldA ids).
  Proof.
    intros OK NN EH ER. unfold handle_asn_extension, resources_add_asn, as_acceptable.
    unfold as_ids_ok, all_nonnegative in *. destruct (as_num ids) as [c|]; [|rewrite succ_inval; tauto].
    destruct (as_rdi ids); [rewrite succ_inval; split; [tauto|intros [X _]; discriminate]|].
    destruct c as [| |l]; [rewrite succ_inval; tauto| |].
    - unfold heldA. rewrite some_held. destruct al; cbn [negb].
      + unfold inherit_asiors. destruct parent as [pa|].
        * rewrite ER, succ_err. split; eauto 10.
        * split; [intros (? & ? & X); discriminate|intros (_ & _ & ? & X); discriminate].
      + rewrite succ_inval. split; [tauto|intros (_ & X & _); discriminate].
    - unfold add_asiors. destruct (r_force_inherit r) eqn:FI; [rewrite succ_inval; split; [tauto|intros (_ & X & _); discriminate]|].
      destruct l as [|a l]; [rewrite succ_inval; split; [tauto|intros (_ & _ & _ & held & X & _); auto]|].
      destruct OK as [OK LEN]. rewrite EH, ER.
      destruct (list_accept asn_cmp (fun x => x) (range_ok (2 ^ 32)) u32_cmp_num range_ok_num
                 step_asior decode_asior step_asior_eq claimsA (ha h0) (r_policy r) (option_map r_asns parent) heldA (a :: l)
                 (ok_ha _ H0) (sm_ha _ H0)) as (cells & mine & err & E & IFF); auto.
      + pose proof (pA h0 parent P0). destruct parent as [pa|]; cbn [option_map parent_full] in *; [|exact Logic.I]. split; [assumption|apply F0].
      + apply (pcontA h0 parent); assumption.
      + intros b IN. rewrite Forall_forall in OK, NN. apply (decA_spec b (OK b IN) (NN b IN)).
      + discriminate.
      + rewrite E. cbn [bind]. rewrite succ_err, IFF. tauto.
  Qed.

  Lemma block_one h r b : succ (block_loop h r parent [b]) <-> succ (resources_add_ip h r parent b).
  Proof.
    cbn [block_loop]. destruct (resources_add_ip h r parent b) as [[[h1 r1] e1]| |]; cbn [bind]; try tauto.
    destruct (e1 =? 0) eqn:E; cbn [negb]; [|tauto]. rewrite !succ_err. lia.
  Qed.

  Lemma ip_accept h r bl : Forall family_ok bl -> h4 h = h4 h0 -> h6 h = h6 h0 -> r_ip4s r = None -> r_ip6s r = None ->
    (succ (handle_ip_extension h r parent (Some bl)) <->
     ip_acceptable (r_policy r) (r_force_inherit r) held4 held6 bl).
  Proof.
    intros OK E4 E6 R4 R6. unfold handle_ip_extension, ip_acceptable.
    destruct bl as [|b1 [|b2 [|b3 l]]].
    - rewrite succ_inval. split; [tauto|]. intros [(? & X & _)|[(? & X & _)|(? & ? & X & _)]]; discriminate.
    - rewrite block_one. inversion OK as [|? ? O1 _]; subst.
      destruct b1 as [fam c]. destruct (list_eq_dec Z.eq_dec fam [0; 1]) as [->|N4].
      + rewrite (add_ip_accept4 h r _ O1 eq_refl E4 R4). cbn [f_choice]. split.
        * intros X. left. eauto.
        * intros [(? & X & Y)|[(? & X & _)|(? & ? & X & _)]]; inversion X; subst; auto.
      + destruct (list_eq_dec Z.eq_dec fam [0; 2]) as [->|N6].
        * rewrite (add_ip_accept6 h r _ O1 eq_refl E6 R6). cbn [f_choice]. split.
          -- intros X. right; left. eauto.
          -- intros [(? & X & Y)|[(? & X & ?)|(? & ? & X & _)]]; inversion X; subst; auto.
        * split.
          -- unfold resources_add_ip. cbv zeta. cbn [f_family].
             replace (get_addr_family fam =? -1) with true; [rewrite succ_inval; tauto|].
             pose proof (family4 fam) as G4. pose proof (family6 fam) as G6. unfold get_addr_family in *.
             destruct fam as [|a0 [|a1 [|a2 fl]]]; auto.
             destruct (negb (a0 =? 0)); auto. destruct (a1 =? 1); [destruct N4; apply G4; auto|].
             destruct (a1 =? 2); auto. destruct N6; apply G6; auto.
          -- intros [(? & X & Y)|[(? & X & ?)|(? & ? & X & _)]]; inversion X; subst; tauto.
    - destruct (get_addr_family (f_family b1) =? 4) eqn:X1; cbn [negb].
      2: { rewrite succ_inval. split; [tauto|]. intros [(? & X & _)|[(? & X & _)|(? & ? & X & _)]]; inversion X; subst.
           discriminate. }
      destruct (get_addr_family (f_family b2) =? 6) eqn:X2; cbn [negb].
      2: { rewrite succ_inval. split; [tauto|]. intros [(? & X & _)|[(? & X & _)|(? & ? & X & _)]]; inversion X; subst.
           discriminate. }
      assert (Y1 : f_family b1 = [0; 1]) by (apply family4; lia).
      assert (Y2 : f_family b2 = [0; 2]) by (apply family6; lia).
      inversion OK as [|? ? O1 OK2]; subst. inversion OK2 as [|? ? O2 _]; subst.
      pose proof (add_ip_accept4 h r b1 O1 Y1 E4 R4) as A1.
      assert (GOAL : succ (block_loop h r parent [b1; b2]) <->
        ip_choice_acceptable claims4 (r_policy r) (r_force_inherit r) held4 (f_choice b1) /\
        ip_choice_acceptable claims6 (r_policy r) (r_force_inherit r) held6 (f_choice b2)).
      { cbn [block_loop]. destruct (resources_add_ip h r parent b1) as [[[h1 r1] e1]| |] eqn:E; cbn [bind];
          [|rewrite <- A1; split; [intros (? & ? & X); discriminate|intros ((? & ? & X) & _); discriminate]..].
        rewrite succ_err in A1. destruct (e1 =? 0) eqn:Z1; cbn [negb]; [|rewrite succ_err; rewrite <- A1; lia].
        assert (e1 = 0) by lia; subst e1.
        pose proof (add_ip_frame _ _ _ _ _ _ _ E) as (_ & _ & FP & FF & F4 & _).
        destruct (F4 ltac:(lia)) as [F5 F6].
        rewrite <- A1, <- FP, <- FF.
        rewrite <- (add_ip_accept6 h1 r1 b2 O2 Y2 ltac:(congruence) ltac:(congruence)).
        pose proof (block_one h1 r1 b2) as B. cbn [block_loop] in B. rewrite B. tauto. }
      rewrite GOAL. clear GOAL A1. destruct b1 as [fam1 c1], b2 as [fam2 c2]. cbn [f_family f_choice] in *. subst. split.
      + intros [X Y]. right; right. eauto 10.
      + intros [(? & X & _)|[(? & X & _)|(? & ? & X & Y & Z)]]; inversion X; subst; auto.
    - rewrite succ_inval. split; [tauto|]. intros [(? & X & _)|[(? & X & _)|(? & ? & X & _)]]; discriminate.
  Qed.
End Accept.

(** ** Certificates *)
Lemma loop_filter parent al exts : forall h r ipf asf,
  extension_loop h r parent al ipf asf exts = extension_loop h r parent al ipf asf (filter is_resource exts).
Proof.
  induction exts as [|e exts IH]; intros h r ipf asf; [reflexivity|].
  destruct e as [v c bl|v c ids|]; cbn [filter is_resource extension_loop]; [| |apply IH].
  - destruct (negb (policy_eqb v (r_policy r))); [reflexivity|]. destruct ipf; [reflexivity|]. destruct (negb c); [reflexivity|].
    destruct (handle_ip_extension h r parent bl) as [[[h1 r1] e1]| |]; cbn [bind]; [|reflexivity..].
    destruct (negb (e1 =? 0)); [reflexivity|apply IH].
  - destruct (negb (policy_eqb v (r_policy r))); [reflexivity|]. destruct asf; [reflexivity|]. destruct (negb c); [reflexivity|].
    destruct (handle_asn_extension h r parent ids al) as [[[h1 r1] e1]| |]; cbn [bind]; [|reflexivity..].
    destruct (negb (e1 =? 0)); [reflexivity|apply IH].
Qed.

Lemma succ_bind x k : succ (bind x (fun '(h, r, error) => if negb (error =? 0) then Ok (h, r, error) else k h r)) <->
  exists h r, x = Ok (h, r, 0) /\ succ (k h r).
Proof.
  destruct x as [[[h r] e]| |]; cbn [bind].
  - destruct (e =? 0) eqn:E; cbn [negb].
    + assert (e = 0) by lia; subst. split; [intros X; exists h, r; auto|intros (h1 & r1 & X & Y); inversion X; subst; auto].
    + rewrite succ_err. split; [lia|intros (h1 & r1 & X & Y); inversion X; subst; lia].
  - split; [intros (? & ? & X)|intros (? & ? & X & _)]; discriminate.
  - split; [intros (? & ? & X)|intros (? & ? & X & _)]; discriminate.
Qed.

Lemma policy_eqb_refl p : policy_eqb p p = true. Proof. destruct p; reflexivity. Qed.

(** The head of the loop. *)
Lemma loop_ip_head parent al h r ipf asf v c bl exts :
  succ (extension_loop h r parent al ipf asf (ExtIP v c bl :: exts)) <->
  v = r_policy r /\ ipf = false /\ c = true /\
  exists h' r', handle_ip_extension h r parent bl = Ok (h', r', 0) /\ succ (extension_loop h' r' parent al true asf exts).
Proof.
  cbn [extension_loop]. destruct (policy_eqb v (r_policy r)) eqn:P; cbn [negb].
  2: { rewrite succ_inval. split; [tauto|]. intros (-> & _). rewrite policy_eqb_refl in P. discriminate. }
  apply policy_eqb_eq in P. destruct ipf; [rewrite succ_inval; split; [tauto|intros (_ & X & _); discriminate]|].
  destruct c; cbn [negb]; [|rewrite succ_inval; split; [tauto|intros (_ & _ & X & _); discriminate]].
  rewrite succ_bind. tauto.
Qed.
Lemma loop_as_head parent al h r ipf asf v c ids exts :
  succ (extension_loop h r parent al ipf asf (ExtAS v c ids :: exts)) <->
  v = r_policy r /\ asf = false /\ c = true /\
  exists h' r', handle_asn_extension h r parent ids al = Ok (h', r', 0) /\ succ (extension_loop h' r' parent al ipf true exts).
Proof.
  cbn [extension_loop]. destruct (policy_eqb v (r_policy r)) eqn:P; cbn [negb].
  2: { rewrite succ_inval. split; [tauto|]. intros (-> & _). rewrite policy_eqb_refl in P. discriminate. }
  apply policy_eqb_eq in P. destruct asf; [rewrite succ_inval; split; [tauto|intros (_ & X & _); discriminate]|].
  destruct c; cbn [negb]; [|rewrite succ_inval; split; [tauto|intros (_ & _ & X & _); discriminate]].
  rewrite succ_bind. tauto.
Qed.
Lemma loop_nil parent al h r ipf asf : succ (extension_loop h r parent al ipf asf []) <-> ipf = true \/ asf = true.
Proof.
  cbn [extension_loop]. rewrite succ_err. unfold E_INVAL.
  destruct ipf, asf; cbn [negb andb]; split; auto; try discriminate; intros [X|X]; discriminate.
Qed.

Lemma cert_accept h parent p f t exts : heap_ok h -> parent_ok h parent -> parent_full h parent ->
  Forall extension_ok exts -> Forall ext_nonnegative exts ->
  (succ (certificate_get_resources h (resources_create p f) parent t exts) <->
   acceptable p f (match t with CERTYPE_BGPSEC => true | _ => false end)
     (option_map (holds4 h) parent) (option_map (holds6 h) parent) (option_map (holdsA h) parent) exts).
Proof.
  intros HO PO PF OK NN. unfold certificate_get_resources, acceptable. rewrite loop_filter.
  set (al := match t with CERTYPE_BGPSEC => false | _ => true end).
  replace (match t with CERTYPE_BGPSEC => true | _ => false end) with (negb al) by (destruct t; reflexivity).
  assert (OKF : Forall extension_ok (filter is_resource exts) /\ Forall ext_nonnegative (filter is_resource exts)
     /\ Forall (fun e => e <> ExtOther) (filter is_resource exts)).
  { rewrite !Forall_forall in *. repeat split; intros e IN; apply filter_In in IN; destruct IN as [IN IR]; auto.
    intros ->. discriminate. }
  clear OK NN. revert OKF. generalize (filter is_resource exts). clear exts. intros l (OK & NN & NO).
  set (r0 := resources_create p f).
  destruct l as [|e1 l]; [rewrite loop_nil; split; [intros [X|X]; discriminate|tauto]|].
  inversion OK as [|? ? OK1 OK']; subst. inversion NN as [|? ? NN1 NN']; subst. inversion NO as [|? ? NO1 NO']; subst.
  destruct e1 as [v1 c1 bl|v1 c1 ids|]; [| |congruence].
  - rewrite loop_ip_head. destruct c1; [|split; [intros (_ & _ & X & _); discriminate|destruct l; tauto]].
    destruct bl as [bl|]; [|split; [intros (_ & _ & _ & ? & ? & X & _); discriminate|destruct l; tauto]].
    cbn [extension_ok] in OK1.
    pose proof (ip_accept h parent HO PO PF h r0 bl OK1 eq_refl eq_refl eq_refl eq_refl) as A.
    change (r_policy r0) with p in *. change (r_force_inherit r0) with f in A.
    destruct l as [|e2 l].
    { rewrite <- A. split.
      - intros (-> & _ & _ & h' & r' & X & _). split; auto. exists h', r'. auto.
      - intros (-> & h' & r' & X). repeat split; auto. exists h', r'. split; auto. rewrite loop_nil. auto. }
    inversion OK' as [|? ? OK2 _]; subst. inversion NN' as [|? ? NN2 _]; subst. inversion NO' as [|? ? NO2 NO3]; subst.
    destruct e2 as [v2 c2 bl2|v2 c2 ids|]; [| |congruence].
    + split; [|destruct c2, bl2, l; tauto].
      intros (_ & _ & _ & h' & r' & X & Y). rewrite loop_ip_head in Y. destruct Y as (_ & Y & _). discriminate.
    + destruct l as [|e3 l].
      2: { split.
           - intros (_ & _ & _ & h' & r' & X & Y). rewrite loop_as_head in Y.
             destruct Y as (_ & _ & _ & h2 & r2 & Y & Z). inversion NO3 as [|? ? NO4 _]; subst.
             destruct e3; [rewrite loop_ip_head in Z|rewrite loop_as_head in Z|congruence]; destruct Z as (_ & Z & _); discriminate.
           - destruct c2, ids; tauto. }
      destruct c2.
      2: { split; [|destruct ids; tauto]. intros (_ & _ & _ & h' & r' & X & Y). rewrite loop_as_head in Y.
           destruct Y as (_ & _ & Y & _); discriminate. }
      destruct ids as [ids|].
      2: { split; [|tauto]. intros (_ & _ & _ & h' & r' & X & Y). rewrite loop_as_head in Y.
           destruct Y as (_ & _ & _ & ? & ? & Y & _); discriminate. }
      cbn [extension_ok ext_nonnegative] in OK2, NN2. split.
      * intros (-> & _ & _ & h' & r' & X & Y). rewrite loop_as_head in Y. destruct Y as (-> & _ & _ & h2 & r2 & Y & Z).
        destruct (ip_frame _ _ _ _ _ _ _ X) as ((S1 & S2) & (S3 & S4)). rewrite S3.
        change (r_policy r0) with p. split; auto. split; auto.
        split; [apply A; exists h', r'; auto|].
        pose proof (asn_accept h parent HO PO PF h' r' ids al OK2 NN2) as B. rewrite S1, S2, S3, S4 in B.
        apply B; auto. exists h2, r2. auto.
      * intros (-> & -> & X & Y). apply A in X. destruct X as (h' & r' & X). repeat split; auto.
        exists h', r'. split; auto. rewrite loop_as_head.
        destruct (ip_frame _ _ _ _ _ _ _ X) as ((S1 & S2) & (S3 & S4)). rewrite S3. repeat split; auto.
        pose proof (asn_accept h parent HO PO PF h' r' ids al OK2 NN2) as B. rewrite S1, S2, S3, S4 in B.
        destruct (proj2 (B eq_refl eq_refl) Y) as (h2 & r2 & Z). exists h2, r2. split; auto. rewrite loop_nil. auto.
  - rewrite loop_as_head. destruct c1; [|split; [intros (_ & _ & X & _); discriminate|destruct l; tauto]].
    destruct ids as [ids|]; [|split; [intros (_ & _ & _ & ? & ? & X & _); discriminate|destruct l; tauto]].
    cbn [extension_ok ext_nonnegative] in OK1, NN1.
    pose proof (asn_accept h parent HO PO PF h r0 ids al OK1 NN1 eq_refl eq_refl) as A.
    change (r_policy r0) with p in *. change (r_force_inherit r0) with f in A.
    destruct l as [|e2 l].
    { rewrite <- A. split.
      - intros (-> & _ & _ & h' & r' & X & _). split; auto. exists h', r'. auto.
      - intros (-> & h' & r' & X). repeat split; auto. exists h', r'. split; auto. rewrite loop_nil. auto. }
    inversion OK' as [|? ? OK2 _]; subst. inversion NN' as [|? ? NN2 _]; subst. inversion NO' as [|? ? NO2 NO3]; subst.
    destruct e2 as [v2 c2 bl|v2 c2 ids2|]; [| |congruence].
    2: { split; [|destruct c2, ids2, l; tauto].
         intros (_ & _ & _ & h' & r' & X & Y). rewrite loop_as_head in Y. destruct Y as (_ & Y & _). discriminate. }
    destruct l as [|e3 l].
    2: { split.
         - intros (_ & _ & _ & h' & r' & X & Y). rewrite loop_ip_head in Y.
           destruct Y as (_ & _ & _ & h2 & r2 & Y & Z). inversion NO3 as [|? ? NO4 _]; subst.
           destruct e3; [rewrite loop_ip_head in Z|rewrite loop_as_head in Z|congruence]; destruct Z as (_ & Z & _); discriminate.
         - destruct c2, bl; tauto. }
    destruct c2.
    2: { split; [|destruct bl; tauto]. intros (_ & _ & _ & h' & r' & X & Y). rewrite loop_ip_head in Y.
         destruct Y as (_ & _ & Y & _); discriminate. }
    destruct bl as [bl|].
    2: { split; [|tauto]. intros (_ & _ & _ & h' & r' & X & Y). rewrite loop_ip_head in Y.
         destruct Y as (_ & _ & _ & ? & ? & Y & _); discriminate. }
    cbn [extension_ok] in OK2. split.
    + intros (-> & _ & _ & h' & r' & X & Y). rewrite loop_ip_head in Y. destruct Y as (-> & _ & _ & h2 & r2 & Y & Z).
      destruct (asn_frame _ _ _ _ _ _ _ _ X) as (S1 & S2 & S3 & S4 & S5 & S6). rewrite S5.
      change (r_policy r0) with p. split; auto. split; auto.
      split; [|apply A; exists h', r'; auto].
      pose proof (ip_accept h parent HO PO PF h' r' bl OK2) as B. rewrite S1, S2, S3, S4, S5, S6 in B.
      apply B; auto. exists h2, r2. auto.
    + intros (-> & -> & X & Y). apply A in Y. destruct Y as (h' & r' & Y). repeat split; auto.
      exists h', r'. split; auto. rewrite loop_ip_head.
      destruct (asn_frame _ _ _ _ _ _ _ _ Y) as (S1 & S2 & S3 & S4 & S5 & S6). rewrite S5. repeat split; auto.
      pose proof (ip_accept h parent HO PO PF h' r' bl OK2) as B. rewrite S1, S2, S3, S4, S5, S6 in B.
      destruct (proj2 (B eq_refl eq_refl eq_refl eq_refl) X) as (h2 & r2 & Z). exists h2, r2. split; auto. rewrite loop_nil. auto.
Qed.
