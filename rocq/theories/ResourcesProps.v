(** C21, C52, C53: the resources of certificates. *)
From Verif Require Import Base BaseLemmas PduWireSpec PduWireProofs Address AddressSpec AddressProofs
  SArray SArraySpec SArrayProofs Asn1 Resources ResourcesSpec ResourcesProofs ResourcesProofs2 ResourcesProofs3
  ResourcesProofs4.

(** C21: whatever certificates have been pushed and popped, every certificate of
    the stack (position 0 is the youngest) holds a subset of what each of its
    ancestors holds. *)
Theorem C21_chain h stack i j ri rj :
  reachable (h, stack) -> (i < j)%nat -> nth_error stack i = Some ri -> nth_error stack j = Some rj ->
  included (holds4 h ri) (holds4 h rj) /\
  included (holds6 h ri) (holds6 h rj) /\
  included (holdsA h ri) (holdsA h rj).
Proof.
  intros R L NI NJ. destruct (reachable_ok _ R) as (_ & _ & O). exact (O i j ri rj L NI NJ).
Qed.

(** The EE certificate of a signed object holds a subset of what every
    certificate of the stack holds (and examining it does not change what these hold). *)
Theorem C21_ee h stack p f exts h' r j rj :
  reachable (h, stack) -> Forall extension_ok exts ->
  ee_resources h (peek_resources stack) p f exts = Ok (h', r, 0) ->
  nth_error stack j = Some rj ->
  included (holds4 h' r) (holds4 h rj) /\
  included (holds6 h' r) (holds6 h rj) /\
  included (holdsA h' r) (holdsA h rj).
Proof.
  intros R OK E NJ. destruct (reachable_ok _ R) as (HO & F & O). cbn [fst snd] in *.
  pose proof (cert_step h (peek_resources stack) p f CERTYPE_EE exts HO (parent_of h stack F) OK) as S.
  unfold ee_resources in E. rewrite E in S. destruct S as (S1 & S2 & S3 & S4). specialize (S4 eq_refl).
  assert (OO : ordered h' (r :: stack)) by (apply ordered_cons; auto; eapply ordered_ext; eauto).
  rewrite Forall_forall in F.
  destruct (holds_ext h h' rj S2 (F _ (nth_error_In _ _ NJ))) as (B1 & B2 & B3).
  rewrite <- B1, <- B2, <- B3. apply (OO 0%nat (S j) r rj); auto. lia.
Qed.

(** What an accepted certificate holds is determined by what it says: nothing of
    a family it does not mention, the parent's resources if it inherits; and
    otherwise its claims, all of which the parent must hold (RFC 6484), or those
    of them which the parent holds entirely (RFC 8360). *)
Definition says (claims : aor -> Z * Z -> Prop) (holds : heap -> resources -> list (Z * Z)) (afi : Z)
    (h : heap) (parent : option resources) (p : policy) (exts : list extension) (held : list (Z * Z)) : Prop :=
  ((forall b, ~ ip_block afi exts b) -> held = []) /\
  forall b, ip_block afi exts b ->
    match f_choice b with
    | IPC_nothing => False
    | IPC_inherit => exists pa, parent = Some pa /\ held = holds h pa
    | IPC_aors l => granted claims p (option_map (holds h) parent) l held
    end.
Definition says_as (h : heap) (parent : option resources) (p : policy) (exts : list extension)
    (held : list (Z * Z)) : Prop :=
  ((forall b, ~ as_block exts b) -> held = []) /\
  forall c, as_block exts c ->
    match c with
    | ASC_nothing => False
    | ASC_inherit => exists pa, parent = Some pa /\ held = holdsA h pa
    | ASC_iors l => Forall nonnegative l -> granted claimsA p (option_map (holdsA h) parent) l held
    end.

Theorem C21_held h stack p f t exts h' r :
  reachable (h, stack) -> Forall extension_ok exts ->
  certificate_get_resources h (resources_create p f) (peek_resources stack) t exts = Ok (h', r, 0) ->
  says claims4 holds4 1 h (peek_resources stack) p exts (holds4 h' r) /\
  says claims6 holds6 2 h (peek_resources stack) p exts (holds6 h' r) /\
  says_as h (peek_resources stack) p exts (holdsA h' r) /\
  ((exists v c bl, In (ExtIP v c bl) exts) \/ (exists v c ids, In (ExtAS v c ids) exts)).
Proof.
  intros R OK E. destruct (reachable_ok _ R) as (HO & F & O). cbn [fst snd] in *.
  destruct (cert_grants h (peek_resources stack) HO (parent_of h stack F) p f t exts h' r E OK)
    as ([A1 A2] & [B1 B2] & [C1 C2] & D & _).
  unfold says, says_as. auto 10.
Qed.

(** A certificate of one IPv4 family is accepted exactly when its claims are
    valid, sorted with gaps and (RFC 6484) held by the parent; provided the parent
    holds some IPv4 resource at all. *)
Lemma map_ok_inj {A} (l m : list A) : map Ok l = map Ok m -> l = m.
Proof. revert m. induction l as [|x l IH]; intros [|y m] H; inversion H; f_equal; auto. Qed.

Theorem C21_accept4 h stack p t l :
  reachable (h, stack) -> aors_ok l ->
  match peek_resources stack with Some pa => holds4 h pa <> [] | None => True end ->
  exists h' r err,
    certificate_get_resources h (resources_create p false) (peek_resources stack) t
      [ExtIP p true (Some [{| f_family := [0; 1]; f_choice := IPC_aors l |}])] = Ok (h', r, err) /\
    (err = 0 <-> exists held, granted claims4 p (option_map (holds4 h) (peek_resources stack)) l held).
Proof.
  intros R [OK LEN] PP. destruct (reachable_ok _ R) as (HO & F & O). cbn [fst snd] in *.
  pose proof (parent_of h stack F) as PO.
  set (parent := peek_resources stack) in *.
  unfold certificate_get_resources. cbn [extension_loop resources_create r_policy].
  assert (PE : policy_eqb p p = true) by (destruct p; reflexivity). rewrite PE. cbn [negb].
  cbn [handle_ip_extension block_loop]. unfold resources_add_ip. cbn [f_family f_choice]. cbv zeta.
  change (get_addr_family [0; 1]) with 4. change (4 =? -1) with false. cbv iota.
  unfold add_aors. cbn [resources_create r_force_inherit].
  destruct l as [|a l].
  { exists h, (resources_create p false), E_INVAL. split; [reflexivity|]. split; [discriminate|].
    intros [held [NE _]]. destruct NE; auto. }
  change (4 =? 4) with true. cbv iota. cbn [resources_create r_policy r_ip4s].
  destruct (list_spec r4_cmp (fun x => x) (range_ok (2 ^ 32)) u32_cmp_num range_ok_num
             step_aor4 dec4 step_aor4_eq (h4 h) p (option_map r_ip4s parent) (a :: l)
             (ok_h4 _ HO) (sm_h4 _ HO) (p4 h parent PO) (good4 _ OK) LEN ltac:(discriminate))
    as [cells [mine [err [E [FS [INC [IFF CON]]]]]]].
  rewrite E. cbn [bind].
  eexists _, _, err. split.
  { destruct (err =? 0) eqn:Z0; cbn [negb bind].
    - assert (err = 0) by lia; subst err. cbn [negb bind Z.eqb extension_loop andb]. reflexivity.
    - rewrite Z0. cbn [negb]. reflexivity. }
  rewrite IFF. split.
  - intros (els & A1 & A2 & A3 & A4). eexists.
    eapply (to_granted (fun x => x) (range_ok (2 ^ 32)) dec4 claims4 range_ok_num (h4 h)
              (option_map r_ip4s parent)); eauto.
    + exact (ok_h4 _ HO).
    + intros a' IN e D. rewrite Forall_forall in OK. pose proof (dec4_spec a' (OK a' IN)) as S.
      rewrite D in S. destruct S as [S1 S2]. split; auto. apply S2. reflexivity.
    + apply (pcont4 h parent); auto.
    + discriminate.
  - intros (held & _ & rs & C & OWN & SEL & SG). cbv zeta in *.
    assert (DEC : map dec4 (a :: l) = map Ok rs /\ Forall (range_ok (2 ^ 32)) rs).
    { clear - OK C. revert rs C. induction (a :: l) as [|b m IH]; intros rs C; inversion C; subst; [split; constructor|].
      inversion OK; subst. destruct (IH H4 l' H3) as [I1 I2]. cbn [map]. rewrite I1.
      pose proof (dec4_spec b H2) as S. destruct (dec4 b) as [e|e|]; [|destruct (S _ H1)|destruct S].
      destruct S as [S1 S2]. apply S2 in H1. subst y. auto. }
    destruct DEC as [DEC RO]. exists rs. split; auto.
    assert (OW : forall r, match option_map (holds4 h) parent with Some m => inside m r | None => True end
                           <-> owned (fun x => x) (h4 h) (option_map r_ip4s parent) r).
    { intros r. destruct parent; cbn; tauto. }
    split; [|split].
    + destruct parent as [pa|]; cbn [option_map]; [|discriminate]. intros X. inversion X as [N].
      apply PP. unfold holds4. rewrite N. reflexivity.
    + intros X. eapply Forall_impl; [|exact (OWN X)]. intros r Y. apply OW. exact Y.
    + rewrite map_id. rewrite <- (selected_fun _ _ _ SEL (filter (ownedb (fun x => x) (h4 h) (option_map r_ip4s parent)) rs)) in SG.
      * exact SG.
      * apply filter_selected. intros x IN. rewrite OW. apply (ownedb_spec (fun x => x) (range_ok (2 ^ 32))).
        -- exact (ok_h4 _ HO).
        -- rewrite Forall_forall in RO. pose proof (range_ok_num x (RO x IN)). lia.
Qed.

(** RFC 8360 4.2.4.4 says resources the parent lacks are dropped from an
    over-claiming certificate.  The code does that, unless the parent has no
    resource of the family: then it rejects the certificate ("Certificate is
    inheriting IPv4 resources while also defining others"). *)
Definition v4 (b : list Z) : aor := AOR_prefix {| bs_buf := b; bs_unused := 0 |}.
Definition as1 : option as_ids := Some {| as_num := Some (ASC_iors [ASI_id [1]]); as_rdi := false |}.
Definition ips (l : list aor) : option (list ip_family) := Some [{| f_family := [0; 1]; f_choice := IPC_aors l |}].

Theorem C21_rfc8360_refuted : exists s exts,
  reachable s /\ Forall extension_ok exts /\
  (exists h' r, certificate_get_resources (fst s) (resources_create RFC8360 false) (peek_resources (snd s)) CERTYPE_CA
     exts = Ok (h', r, E_INVAL)) /\
  (* the same certificate without the IPv4 claim is accepted *)
  (exists h' r, certificate_get_resources (fst s) (resources_create RFC8360 false) (peek_resources (snd s)) CERTYPE_CA
     [ExtAS RFC8360 true as1] = Ok (h', r, 0)) /\
  exts = [ExtAS RFC8360 true as1; ExtIP RFC8360 true (ips [v4 [10]])].
Proof.
  eexists _, _. split.
  { eapply (reach_step _ (OpPush RFC8360 CERTYPE_TA [ExtAS RFC8360 true as1])); [apply reach_init| |].
    - repeat constructor; cbn; try discriminate; unfold is_byte; try lia.
    - vm_compute. reflexivity. }
  split; [|split; [|split; [|reflexivity]]].
  - repeat constructor; cbn; try discriminate; unfold is_byte; try lia.
  - eexists _, _. vm_compute. reflexivity.
  - eexists _, _. vm_compute. reflexivity.
Qed.

(** A non-trivial case: a trust anchor with 10.0.0.0/8, AS 1; a child inheriting
    the AS and claiming 10.1.0.0/16-10.2.0.0/16; a grandchild. *)
Definition ex_ta : list extension := [ExtIP RFC6484 true (ips [v4 [10]; v4 [192; 168]]); ExtAS RFC6484 true as1].
Definition ex_ca : list extension :=
  [ExtIP RFC6484 true (ips [AOR_range {| bs_buf := [10; 1]; bs_unused := 0 |} {| bs_buf := [10; 2]; bs_unused := 0 |}]);
   ExtAS RFC6484 true (Some {| as_num := Some ASC_inherit; as_rdi := false |})].
Definition ex_gc : list extension := [ExtIP RFC8360 true (ips [v4 [10; 1]; v4 [11]])].
Lemma ex_ok : Forall extension_ok ex_ta /\ Forall extension_ok ex_ca /\ Forall extension_ok ex_gc.
Proof. repeat split; repeat constructor; cbn; try discriminate; unfold is_byte; try lia. Qed.
Definition next (s : heap * list resources) (o : stack_op) : heap * list resources :=
  match stack_step s o with Ok s' => s' | _ => s end.
Definition ex_s1 := Eval vm_compute in next (empty_heap, []) (OpPush RFC6484 CERTYPE_TA ex_ta).
Definition ex_s2 := Eval vm_compute in next ex_s1 (OpPush RFC6484 CERTYPE_CA ex_ca).
Definition ex_s3 := Eval vm_compute in next ex_s2 (OpPush RFC8360 CERTYPE_CA ex_gc).
Example C21_example : reachable ex_s3 /\ length (snd ex_s3) = 3%nat /\
  map (holds4 (fst ex_s3)) (snd ex_s3) =
    [[(167837696, 167903231)]; [(167837696, 167968767)];
     [(167772160, 184549375); (3232235520, 3232301055)]] /\
  map (holdsA (fst ex_s3)) (snd ex_s3) = [[]; [(1, 1)]; [(1, 1)]].
Proof.
  destruct ex_ok as (O1 & O2 & O3). split.
  - apply (reach_step ex_s2 (OpPush RFC8360 CERTYPE_CA ex_gc)); [|exact O3|vm_compute; reflexivity].
    apply (reach_step ex_s1 (OpPush RFC6484 CERTYPE_CA ex_ca)); [|exact O2|vm_compute; reflexivity].
    apply (reach_step (empty_heap, []) (OpPush RFC6484 CERTYPE_TA ex_ta)); [apply reach_init|exact O1|vm_compute; reflexivity].
  - vm_compute. auto.
Qed.

(** C52: ASN.1 integers.  A decoded non-negative INTEGER of any length is read
    as its value, or refused if that does not fit. *)
Theorem C52_integer b : integer_ok b -> 0 <= integer_value b ->
  asn_INTEGER2ulong b = (if integer_value b <? 2 ^ 64 then Some (integer_value b) else None).
Proof.
  intros F NN. rewrite (integer_ulong b F). rewrite (integer_value_nonneg b F NN). reflexivity.
Qed.
Theorem C52_asn b : integer_ok b -> 0 <= integer_value b ->
  (forall v, ASId2u32 b = Ok v <-> v = integer_value b /\ integer_value b < 2 ^ 32) /\ ASId2u32 b <> UB.
Proof.
  intros F NN. rewrite (ASId2u32_spec b F), (integer_value_nonneg b F NN).
  destruct (be b <? 2 ^ 32) eqn:E; split; try discriminate.
  - intros v. split; [intros X; inversion X; lia|intros [-> _]; reflexivity].
  - intros v. split; [discriminate|lia].
Qed.
Example C52_example : integer_ok [0; 255; 255; 255; 255] /\ integer_value [0; 255; 255; 255; 255] = 4294967295.
Proof. split; [repeat constructor; unfold is_byte; lia|reflexivity]. Qed.

(** Negative numbers are not refused: -1 is read as 255. *)
Theorem C52_negative_refuted :
  integer_ok [255] /\ integer_value [255] = -1 /\ ASId2u32 [255] = Ok 255.
Proof. split; [repeat constructor; unfold is_byte; lia|]. split; reflexivity. Qed.

(** C53: no certificate can crash the extraction of its resources, when it has a
    parent. *)
Theorem C53_no_crash_partial h stack o :
  reachable (h, stack) -> op_ok o -> stack <> [] -> exists s', stack_step (h, stack) o = Ok s' /\ reachable s'.
Proof.
  intros R OK NE. pose proof (stack_step_spec (h, stack) o (reachable_ok _ R) OK) as S.
  destruct (stack_step (h, stack) o) as [s'| |] eqn:E; [|destruct S|destruct NE; exact (proj1 S)].
  exists s'. split; auto. eapply reach_step; eauto.
Qed.
(** Also without one, if the certificate does not inherit. *)
Theorem C53_no_inherit h stack o :
  reachable (h, stack) -> op_ok o ->
  match o with
  | OpPush _ _ exts | OpEE _ _ exts => Forall (fun e => ~ inherits e) exts
  | OpPop => True
  end ->
  exists s', stack_step (h, stack) o = Ok s' /\ reachable s'.
Proof.
  intros R OK NI. pose proof (stack_step_spec (h, stack) o (reachable_ok _ R) OK) as S.
  destruct (stack_step (h, stack) o) as [s'| |] eqn:E; [exists s'; split; auto; eapply reach_step; eauto|destruct S|].
  destruct S as [_ S]. destruct o as [p t exts| |p f exts]; [| destruct S|];
    (rewrite Forall_forall in NI; apply Exists_exists in S; destruct S as [e [IN H]]; destruct (NI e IN H)).
Qed.
(** But a trust anchor certificate saying "inherit" kills the process. *)
Theorem C53_ta_inherit_refuted : exists o,
  op_ok o /\ o = OpPush RFC6484 CERTYPE_TA [ExtAS RFC6484 true (Some {| as_num := Some ASC_inherit; as_rdi := false |})] /\
  stack_step (empty_heap, []) o = UB.
Proof. eexists. split; [|split; [reflexivity|vm_compute; reflexivity]]. repeat constructor. Qed.
