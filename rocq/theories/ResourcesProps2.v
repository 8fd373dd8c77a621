(** C21, C69, continued: exactly which certificates are accepted, as far as
    their resources go. *)
From Coq Require Import Lia.
From Verif Require Import Base BaseLemmas PduWireSpec PduWireProofs Address AddressSpec AddressProofs SArray SArraySpec SArrayProofs
  Asn1 Resources ResourcesSpec ResourcesProofs ResourcesProofs2 ResourcesProofs3 ResourcesProofs4 ResourcesProps
  ResourcesAcceptSpec ResourcesProofs5 ResourcesProofs6.
From Verif Require Import BerSpec ObjectsSpec Objects ObjectsProps CertBytes CertBytesProps.
Notation length := List.length.

(** Whatever came before, a certificate's resources are accepted exactly if they
    are acceptable to the one that issued it. *)
Theorem C21_accept h stack p f t exts :
  reachable (h, stack) -> Forall extension_ok exts -> Forall ext_nonnegative exts ->
  ((exists h' r, certificate_get_resources h (resources_create p f) (peek_resources stack) t exts = Ok (h', r, 0)) <->
   acceptable p f (match t with CERTYPE_BGPSEC => true | _ => false end)
     (option_map (holds4 h) (peek_resources stack)) (option_map (holds6 h) (peek_resources stack))
     (option_map (holdsA h) (peek_resources stack)) exts).
Proof.
  intros R OK NN. destruct (reachable_ok _ R) as (HO & F & O). pose proof (reachable_full _ R) as FU. cbn [fst snd] in *.
  apply cert_accept; auto; [apply parent_of; auto|]. destruct stack; cbn; auto. inversion FU; auto.
Qed.

(** And those of a CA are then pushed. *)
Theorem C21_push h stack p exts :
  reachable (h, stack) -> Forall extension_ok exts -> Forall ext_nonnegative exts ->
  ((exists h' r, stack_step (h, stack) (OpPush p CERTYPE_CA exts) = Ok (h', r :: stack)) <->
   acceptable p false false
     (option_map (holds4 h) (peek_resources stack)) (option_map (holds6 h) (peek_resources stack))
     (option_map (holdsA h) (peek_resources stack)) exts).
Proof.
  intros R OK NN. rewrite <- (C21_accept h stack p false CERTYPE_CA exts R OK NN). cbn [stack_step]. unfold init_resources.
  destruct (certificate_get_resources h (resources_create p false) (peek_resources stack) CERTYPE_CA exts) as [[[h1 r1] e1]| |];
    cbn [bind]; try (split; intros (? & ? & X); discriminate).
  destruct (e1 =? 0) eqn:E; cbn [negb bind].
  - change (0 =? 0) with true. cbv iota. split; intros (h' & r' & X); [|eauto].
    assert (e1 = 0) by lia; subst. eauto.
  - rewrite E. split; intros (h' & r' & X).
    + exfalso. inversion X as [[X1 X2]]. apply (f_equal (@length _)) in X2. cbn [length] in X2. lia.
    + inversion X; subst. discriminate.
Qed.

(** A trust anchor's, exactly if they are valid by themselves. *)
Theorem C21_push_ta h p exts :
  reachable (h, []) -> Forall extension_ok exts -> Forall ext_nonnegative exts ->
  ((exists h' r, stack_step (h, []) (OpPush p CERTYPE_TA exts) = Ok (h', [r])) <->
   acceptable p false false None None None exts).
Proof.
  intros R OK NN. rewrite <- (C21_accept h [] p false CERTYPE_TA exts R OK NN). cbn [stack_step peek_resources hd_error].
  pose proof (C21_held h [] p false CERTYPE_TA exts) as HELD. cbn [peek_resources hd_error] in HELD.
  pose proof (reachable_ok _ R) as (HO & _ & _). cbn [fst] in HO.
  pose proof (cert_step h None p false CERTYPE_TA exts HO Logic.I OK) as CS.
  unfold init_resources.
  destruct (certificate_get_resources h (resources_create p false) None CERTYPE_TA exts) as [[[h1 r1] e1]| |] eqn:EC;
    cbn [bind]; try (split; intros (? & ? & X); discriminate).
  destruct (e1 =? 0) eqn:E; cbn [negb bind].
  2: { rewrite E. split; intros (h' & r' & X); [inversion X|inversion X; subst; discriminate]. }
  assert (e1 = 0) by lia; subst.
  destruct CS as (_ & _ & [P4 P6 PA] & _). specialize (HELD h1 r1 R OK eq_refl).
  assert (NE : resources_empty h1 r1 = Ok false).
  { pose proof (C21_accept h [] p false CERTYPE_TA exts R OK NN) as [ACC _]. cbn [peek_resources hd_error option_map] in ACC.
    specialize (ACC (ex_intro _ h1 (ex_intro _ r1 EC))).
    unfold resources_empty. destruct (cell_ok _ _ PA) as [x1 E1], (cell_ok _ _ P4) as [x2 E2], (cell_ok _ _ P6) as [x3 E3].
    rewrite E1, E2, E3. cbn [bind]. f_equal.
    assert (ZE : forall A (num : A -> Z * Z) cells q (y : option (sarray A)), cell cells q = Ok y -> sarray_empty y = true ->
      content num cells q = []).
    { intros A num cells q y C S. destruct q as [i|]; cbn [cell content] in *; auto.
      destruct (nth_error cells i) as [s|]; [|discriminate]. inversion C; subst. cbn [sarray_empty] in S. unfold sa_count in S.
      destruct (sa_elems s); [reflexivity|]. cbn [length] in S. lia. }
    assert (GR : forall I (claims : I -> Z * Z -> Prop) l held, granted claims p None l held -> held <> []).
    { intros I0 claims l held (NEL & rs & C & _ & SEL & _). destruct l as [|a l]; [congruence|]. inversion C; subst.
      inversion SEL; subst; [discriminate|tauto]. }
    destruct HELD as ((_ & HD4) & (_ & HD6) & (_ & HDA) & _).
    assert (IPNE : forall v c bl, In (ExtIP v c (Some bl)) exts -> ip_acceptable p false None None bl ->
       holds4 h1 r1 <> [] \/ holds6 h1 r1 <> []).
    { intros v c bl IN [(ch & -> & X)|[(ch & -> & X)|(ch & ch' & -> & X & Y)]].
      - left. specialize (HD4 _ (ex_intro _ v (ex_intro _ c (ex_intro _ _ (conj IN (conj (or_introl eq_refl) eq_refl)))))).
        cbn [f_choice option_map] in HD4. destruct ch; [contradiction|cbn in X; congruence|eapply GR; exact HD4].
      - right. specialize (HD6 _ (ex_intro _ v (ex_intro _ c (ex_intro _ _ (conj IN (conj (or_introl eq_refl) eq_refl)))))).
        cbn [f_choice option_map] in HD6. destruct ch; [contradiction|cbn in X; congruence|eapply GR; exact HD6].
      - left. specialize (HD4 _ (ex_intro _ v (ex_intro _ c (ex_intro _ _ (conj IN (conj (or_introl eq_refl) eq_refl)))))).
        cbn [f_choice option_map] in HD4. destruct ch; [contradiction|cbn in X; congruence|eapply GR; exact HD4]. }
    assert (ASNE : forall v c ids, In (ExtAS v c (Some ids)) exts -> as_acceptable p false false None ids -> holdsA h1 r1 <> []).
    { intros v c ids IN (_ & X). destruct (as_num ids) as [ch|] eqn:EN; [|contradiction].
      specialize (HDA ch (ex_intro _ v (ex_intro _ c (ex_intro _ _ (conj IN EN))))).
      rewrite Forall_forall in NN. pose proof (NN _ IN) as N1. cbn [ext_nonnegative] in N1. unfold all_nonnegative in N1. rewrite EN in N1.
      destruct ch; [contradiction|destruct X as [_ X]; congruence|eapply GR; apply HDA; exact N1]. }
    assert (FIN : holds4 h1 r1 <> [] \/ holds6 h1 r1 <> [] \/ holdsA h1 r1 <> []).
    { unfold acceptable in ACC.
      assert (SUB : forall e, In e (filter is_resource exts) -> In e exts) by (intros e X; apply filter_In in X; tauto).
      destruct (filter is_resource exts) as [|[v [|] [bl|]|v [|] [ids|]|] [|[v' [|] [bl'|]|v' [|] [ids'|]|] [|]]]; try contradiction;
        cbn [In] in SUB.
      - destruct ACC as (_ & X). destruct (IPNE v true bl); auto.
      - destruct ACC as (_ & _ & X & _). destruct (IPNE v true bl); auto.
      - destruct ACC as (_ & X). right; right. apply (ASNE v true ids); auto.
      - destruct ACC as (_ & _ & _ & X). right; right. apply (ASNE v true ids); auto. }
    apply not_true_is_false. intros B. apply andb_prop in B. destruct B as [B B6]. apply andb_prop in B. destruct B as [BA B4].
    destruct FIN as [X|[X|X]]; apply X; [eapply (ZE _ _ (h4 h1)); eauto|eapply (ZE _ _ (h6 h1)); eauto|eapply (ZE _ _ (ha h1)); eauto]. }
  rewrite NE. cbn [bind]. change (0 =? 0) with true. cbv iota. split; intros (h' & r' & X); eauto.
Qed.

(** In bytes.  [writes e x]: the extension [e] is the DER encoding of [x]. *)
Inductive writes (nobuf : bool) : raw_extension -> extension -> Prop :=
| writes_ip v c bl rest : Forall ip_family_fine bl -> Forall (family_passes nobuf) bl -> reasonable (der_ip_blocks bl) ->
    bytes rest -> raw_ok (RawIP v c (der_ip_blocks bl ++ rest)) ->
    writes nobuf (RawIP v c (der_ip_blocks bl ++ rest)) (ExtIP v c (Some bl))
| writes_as v c num rdi rest : match num with Some c => as_choice_fine c | None => True end ->
    match rdi with Some c => as_choice_fine c | None => True end -> reasonable (der_as_ids num rdi) ->
    bytes rest -> raw_ok (RawAS v c (der_as_ids num rdi ++ rest)) ->
    writes nobuf (RawAS v c (der_as_ids num rdi ++ rest))
      (ExtAS v c (Some {| as_num := num; as_rdi := match rdi with Some _ => true | None => false end |}))
| writes_other : writes nobuf RawOther ExtOther.

Theorem C69_accept nobuf turns h stack p f t raws exts : (2 <= turns)%nat ->
  reachable_bytes nobuf turns (h, stack) -> Forall2 (writes nobuf) raws exts -> Forall ext_nonnegative exts ->
  ((exists h' r, certificate_get_resources h (resources_create p f) (peek_resources stack) t
      (map (read_extension nobuf turns) raws) = Ok (h', r, 0)) <->
   acceptable p f (match t with CERTYPE_BGPSEC => true | _ => false end)
     (option_map (holds4 h) (peek_resources stack)) (option_map (holds6 h) (peek_resources stack))
     (option_map (holdsA h) (peek_resources stack)) exts).
Proof.
  intros Hturns R W NN.
  assert (E : map (read_extension nobuf turns) raws = exts /\ Forall extension_ok exts).
  { clear NN R. induction W as [|e x raws exts W1 W2 (IH & IH')]; [split; constructor|].
    assert (E : read_extension nobuf turns e = x).
    { destruct W1 as [v c bl rest W3 W4 W5 W6 W7|v c num rdi rest W3 W4 W5 W6 W7|]; cbn [read_extension]; [| |reflexivity].
      - rewrite (proj1 (C67_ip_blocks nobuf turns bl rest Hturns W6 W3 W5) W4). reflexivity.
      - rewrite (C67_as_ids nobuf turns num rdi rest Hturns W6 W3 W4 W5). reflexivity. }
    cbn [map]. rewrite IH, E. split; [reflexivity|]. constructor; [|assumption]. rewrite <- E. apply read_ok; [assumption|].
    destruct W1; try assumption; exact Logic.I. }
  destruct E as (-> & OK). apply C21_accept; [eapply reachable_bytes_reachable; eassumption|assumption..].
Qed.

(** Beneath 10.0.0.0/8, 192.168.0.0/16 and AS 1, one may claim 10.1.0.0/16-10.2.0.0/16 and inherit the AS; or claim
    11.0.0.0/8 under RFC 8360, which is then dropped; but not under RFC 6484. *)
Example C21_accept_example :
  reachable ex_s1 /\ Forall extension_ok ex_ca /\ Forall ext_nonnegative ex_ca /\
  (let pa := peek_resources (snd ex_s1) in
   acceptable RFC6484 false false (option_map (holds4 (fst ex_s1)) pa) (option_map (holds6 (fst ex_s1)) pa)
     (option_map (holdsA (fst ex_s1)) pa) ex_ca /\
   acceptable RFC8360 false false (option_map (holds4 (fst ex_s1)) pa) (option_map (holds6 (fst ex_s1)) pa)
     (option_map (holdsA (fst ex_s1)) pa) ex_gc /\
   ~ acceptable RFC6484 false false (option_map (holds4 (fst ex_s1)) pa) (option_map (holds6 (fst ex_s1)) pa)
     (option_map (holdsA (fst ex_s1)) pa) [ExtIP RFC6484 true (ips [v4 [10; 1]; v4 [11]])]).
Proof.
  destruct ex_ok as (O1 & O2 & O3).
  assert (R : reachable ex_s1).
  { apply (reach_step (empty_heap, []) (OpPush RFC6484 CERTYPE_TA ex_ta)); [apply reach_init|exact O1|vm_compute; reflexivity]. }
  split; [exact R|]. split; [exact O2|]. split; [repeat constructor; vm_compute; discriminate|]. cbv zeta.
  destruct ex_s1 as [h stack] eqn:ES. cbn [fst snd].
  split; [|split].
  - apply (C21_accept h stack RFC6484 false CERTYPE_CA ex_ca R O2 ltac:(repeat constructor; vm_compute; discriminate)).
    rewrite <- (f_equal fst ES : fst ex_s1 = h), <- (f_equal snd ES : snd ex_s1 = stack). eexists _, _. vm_compute. reflexivity.
  - apply (C21_accept h stack RFC8360 false CERTYPE_CA ex_gc R O3 ltac:(repeat constructor)).
    rewrite <- (f_equal fst ES : fst ex_s1 = h), <- (f_equal snd ES : snd ex_s1 = stack). eexists _, _. vm_compute. reflexivity.
  - intros X. apply (C21_accept h stack RFC6484 false CERTYPE_CA _ R) in X; [| |repeat constructor].
    + rewrite <- (f_equal fst ES : fst ex_s1 = h), <- (f_equal snd ES : snd ex_s1 = stack) in X.
      destruct X as (h' & r' & X). vm_compute in X. discriminate.
    + repeat constructor; cbn; try discriminate; unfold is_byte; try lia.
Qed.

Print Assumptions C21_accept.
Print Assumptions C21_push.
Print Assumptions C21_push_ta.
Print Assumptions C69_accept.
