(** C22, C23: the payloads of ROAs. *)
From Verif Require Import Base BaseLemmas Types HashSet DbTable VrpsSpec VrpsProofs PduWireSpec PduWireProofs Address AddressSpec
  AddressProofs SArray SArraySpec SArrayProofs Asn1 Resources ResourcesSpec ResourcesProofs ResourcesProofs2
  ResourcesProofs3 ResourcesProofs4 ResourcesProps Roa RoaSpec RoaProofs.

(** The EE certificate of a ROA, when the certificate stack is [stack]. *)
Lemma ee_ok h stack p f exts h' ee : reachable (h, stack) -> Forall extension_ok exts ->
  ee_resources h (peek_resources stack) p f exts = Ok (h', ee, 0) -> heap_ok h' /\ res_ok h' ee /\ ext_of h h'.
Proof.
  intros R OK E. destruct (reachable_ok _ R) as (HO & F & O). cbn [fst snd] in *.
  pose proof (cert_step h (peek_resources stack) p f CERTYPE_EE exts HO (parent_of h stack F) OK) as S.
  unfold ee_resources in E. rewrite E in S. destruct S as (S1 & S2 & S3 & S4). auto.
Qed.

(** Handling the content of a ROA never crashes; whether or not it is accepted,
    every payload that appears in the table is announced by the ROA and covered
    by the resources of its EE certificate, and by those of every certificate of
    the stack; its prefix has no host bits, prefix length <= maxLength <= 32/128
    and AS < 2^32. *)
Theorem C22_vrps h stack p f exts h' ee db r :
  reachable (h, stack) -> Forall extension_ok exts ->
  ee_resources h (peek_resources stack) p f exts = Ok (h', ee, 0) ->
  roa_ok r ->
  exists db' e, handle_roa h' ee db r = Ok (db', e) /\
    forall v, roas_of db' v -> roas_of db v \/
      (roa_vrp r v /\ canonical v /\ v_len v <= v_max v <= width (v_fam v) /\
       v_asn v = integer_value (roa_asid r) /\ 0 <= v_asn v < 2 ^ 32 /\
       allowed (holds4 h' ee) (holds6 h' ee) v /\
       forall rj, In rj stack -> allowed (holds4 h rj) (holds6 h rj) v).
Proof.
  intros R OK E RO. destruct (ee_ok h stack p f exts h' ee R OK E) as (HO & EO & EX).
  destruct (handle_roa_spec h' ee HO EO db r RO) as (vs & e & H & A1 & _).
  exists (emit db vs), e. split; auto. intros v IN. apply emit_In in IN. destruct IN as [IN|IN]; [auto|right].
  destruct (A1 v IN) as (B1 & B2 & B3). split; auto.
  destruct B2 as (bl & b & ad & a & X1 & X2 & X3 & X4 & X5 & (Y1 & Y2 & Y3 & Y4 & Y5)).
  assert (BO : bit_string_ok (ra_address a)).
  { destruct RO as (_ & _ & RO). specialize (RO bl b ad X1 X2 X4). rewrite Forall_forall in RO. apply (RO a X5). }
  split. { unfold canonical. exact (denotes_prefix_ok _ _ _ _ BO Y1). }
  split; auto. split; auto. destruct RO as ([_ NN] & _).
  split; [lia|]. split; auto.
  intros rj IJ x X. apply In_nth_error in IJ. destruct IJ as [j NJ].
  destruct (C21_ee h stack p f exts h' ee j rj R OK E NJ) as (I4 & I6 & _).
  specialize (B1 x X). destruct (v_fam v); [apply I4|apply I6]; auto.
Qed.

(** A ROA is accepted exactly when it is valid, and then the table gains exactly
    the payloads it announces. *)
Theorem C22_exact h stack p f exts h' ee db r :
  reachable (h, stack) -> Forall extension_ok exts ->
  ee_resources h (peek_resources stack) p f exts = Ok (h', ee, 0) ->
  roa_ok r ->
  exists db' e, handle_roa h' ee db r = Ok (db', e) /\
    (e = 0 <-> roa_valid (holds4 h' ee) (holds6 h' ee) r) /\
    (e = 0 -> forall v, roas_of db' v <-> roas_of db v \/ roa_vrp r v) /\
    t_rks db' = t_rks db.
Proof.
  intros R OK E RO. destruct (ee_ok h stack p f exts h' ee R OK E) as (HO & EO & EX).
  destruct (handle_roa_spec h' ee HO EO db r RO) as (vs & e & H & A1 & A2 & A3).
  exists (emit db vs), e. split; auto. split; auto. split; [|apply emit_rks].
  intros Z0 v. rewrite emit_In. split; intros [X|X]; auto. right. apply A1; auto.
Qed.

(** C23.  A ROA rejected before its content is looked at contributes nothing;
    nor does one whose first address is refused. *)
Theorem C23_before_partial h stack db f h' db' e :
  reachable (h, stack) -> Forall extension_ok (rf_exts f) ->
  roa_traverse h (peek_resources stack) db f = Ok (h', db', e) ->
  (rf_before f <> 0 \/
   (exists h1 ee e1, ee_resources h (peek_resources stack) (rf_policy f) false (rf_exts f) = Ok (h1, ee, e1) /\ e1 <> 0)) ->
  e <> 0 /\ db' = db.
Proof.
  intros R OK H C. unfold roa_traverse in H.
  destruct (rf_before f =? 0) eqn:E; cbn [negb] in H.
  - destruct C as [C|(h1 & ee & e1 & EE & NE)]; [lia|]. rewrite EE in H. cbn [bind] in H.
    destruct (e1 =? 0) eqn:E1; [lia|]. cbn [negb] in H. inversion H; subst. auto.
  - inversion H; subst. split; auto. lia.
Qed.
(** One with a single address, and valid references, is all or nothing. *)
Theorem C23_single_partial h stack db f h' db' e b a :
  reachable (h, stack) -> Forall extension_ok (rf_exts f) -> roa_ok (rf_roa f) ->
  roa_blocks (rf_roa f) = Some [Some b] -> rb_addresses b = Some [a] -> rf_refs f = 0 ->
  roa_traverse h (peek_resources stack) db f = Ok (h', db', e) ->
  e <> 0 -> db' = db.
Proof.
  intros R OK RO EB EA RF H NE. unfold roa_traverse in H.
  destruct (rf_before f =? 0) eqn:E; cbn [negb] in H; [|inversion H; subst; auto].
  destruct (ee_resources h (peek_resources stack) (rf_policy f) false (rf_exts f)) as [[[h1 ee] e1]| |] eqn:EE;
    cbn [bind] in H; try discriminate.
  destruct (e1 =? 0) eqn:E1; cbn [negb] in H; [|inversion H; subst; auto].
  assert (e1 = 0) by lia; subst e1.
  destruct (ee_ok h stack _ _ _ h1 ee R OK EE) as (HO & EO & EX).
  destruct (handle_roa h1 ee db (rf_roa f)) as [[db2 e2]| |] eqn:HR; cbn [bind] in H; try discriminate.
  destruct (e2 =? 0) eqn:E2; cbn [negb] in H; [inversion H; subst; congruence|].
  inversion H; subst db2 e2. clear H. unfold handle_roa in HR. cbv zeta in HR. rewrite EB in HR.
  destruct RO as (NA & NV & BO).
  destruct (negb _); [inversion HR; auto|].
  destruct (asn_INTEGER2ulong (roa_asid (rf_roa f))) as [asn|]; [|inversion HR; auto].
  destruct (UINT_MAX <? asn); [inversion HR; auto|]. cbn [roa_block_loop] in HR.
  destruct (rb_family b) as [|f0 [|f1 [|]]]; try (inversion HR; auto; fail).
  destruct (negb (f0 =? 0)); [inversion HR; auto|].
  destruct (negb (f1 =? 1) && negb (f1 =? 2)) eqn:F1; [inversion HR; auto|].
  rewrite EA in HR. cbn [addr_loop] in HR.
  assert (FN : exists fam, f1 = fam_num fam).
  { destruct (f1 =? 1) eqn:X; [exists AF_INET; cbn; lia|]. destruct (f1 =? 2) eqn:Y; [exists AF_INET6; cbn; lia|discriminate]. }
  destruct FN as [fam ->].
  assert (AO : roa_addr_ok a).
  { pose proof (BO _ b [a] EB (or_introl eq_refl) EA) as F. inversion F; auto. }
  destruct (addr_spec h1 ee HO EO db asn fam a AO) as (db3 & e3 & E3 & C). rewrite E3 in HR. cbn [bind] in HR.
  destruct C as [(-> & v & _)|(N3 & -> & _)].
  - change (negb (0 =? 0)) with false in HR. cbn [bind negb Z.eqb] in HR. inversion HR; subst. congruence.
  - destruct (e3 =? 0) eqn:X; [lia|]. cbn [bind negb] in HR. rewrite X in HR. cbn [negb] in HR. inversion HR; auto.
Qed.

(** But it is not so in general: a payload registered before a later address is
    refused, or before the EE certificate's references are, stays. *)
Definition ex_ee_exts : list extension := [ExtIP RFC6484 true (ips [v4 [10; 1]])].
Definition ex_addr (b : list Z) : roa_addr := {| ra_address := {| bs_buf := b; bs_unused := 0 |}; ra_max := None |}.
Definition ex_roa (l : list roa_addr) : roa :=
  {| roa_version := None; roa_asid := [1]; roa_blocks := Some [Some {| rb_family := [0; 1]; rb_addresses := Some l |}] |}.
Definition ex_file (l : list roa_addr) (refs : Z) : roa_file :=
  {| rf_before := 0; rf_policy := RFC6484; rf_exts := ex_ee_exts; rf_roa := ex_roa l; rf_refs := refs |}.
Definition ex_vrp : vrp := {| v_asn := 1; v_addr := 167837696; v_len := 16; v_max := 16; v_fam := AF_INET |}.

Lemma ex_roa_ok l : Forall roa_addr_ok l -> roa_ok (ex_roa l).
Proof.
  intros F. split; [|split].
  - split; [repeat constructor; unfold is_byte; lia|cbn; lia].
  - exact I.
  - intros bl b ad X Y Z. inversion X; subst bl. destruct Y as [Y|[]]. inversion Y; subst b. inversion Z; subst. exact F.
Qed.
Lemma ex_exts_ok : Forall extension_ok ex_ee_exts.
Proof. repeat constructor; cbn; try discriminate; unfold is_byte; try lia. Qed.

Theorem C23_refuted : exists s f,
  reachable s /\ Forall extension_ok (rf_exts f) /\ roa_ok (rf_roa f) /\
  exists h' db' e, roa_traverse (fst s) (peek_resources (snd s)) db_table_create f = Ok (h', db', e) /\
    e <> 0 /\ ~ roa_valid (holds4 (fst s) (hd (resources_create RFC6484 false) (snd s))) [] (rf_roa f) /\
    t_roas db' = [ex_vrp].
Proof.
  exists ex_s1, (ex_file [ex_addr [10; 1]; ex_addr [11; 1]] 0).
  destruct C21_example as [_ _]. destruct ex_ok as (O1 & _).
  split. { apply (reach_step (empty_heap, []) (OpPush RFC6484 CERTYPE_TA ex_ta)); [apply reach_init|exact O1|vm_compute; reflexivity]. }
  split; [exact ex_exts_ok|]. split.
  { apply ex_roa_ok. repeat constructor; cbn; unfold is_byte; lia. }
  eexists _, _, _. split; [vm_compute; reflexivity|]. split; [discriminate|]. split; [|reflexivity].
  intros (_ & _ & bl & X & H). inversion X; subst bl. clear X.
  destruct (H _ (or_introl eq_refl)) as (b & fam & ad & X & Y & Z & W). inversion X; subst b. inversion Z; subst ad.
  destruct fam; [|discriminate Y].
  destruct (W (ex_addr [11; 1]) (or_intror (or_introl eq_refl))) as (v & (D & F & _) & AL).
  assert (D' : denotes 32 (ra_address (ex_addr [11; 1])) 184614912 16).
  { unfold denotes; cbn [ex_addr ra_address bs_buf bs_unused length]. repeat split; try reflexivity; lia. }
  destruct (denotes_fun _ _ _ _ _ _ D D') as [E1 E2].
  unfold allowed in AL. rewrite F, <- E1, <- E2 in AL.
  destruct (AL 184614912) as [r [IN B]].
  - unfold in_prefix. cbn [width]. split; [lia|reflexivity].
  - assert (HH : holds4 (fst ex_s1) (hd (resources_create RFC6484 false) (snd ex_s1)) =
                 [(167772160, 184549375); (3232235520, 3232301055)]) by (vm_compute; reflexivity).
    rewrite HH in IN. destruct IN as [<-|[<-|[]]]; cbn in B; lia.
Qed.
Theorem C23_references_refuted : exists s f,
  reachable s /\ Forall extension_ok (rf_exts f) /\ roa_ok (rf_roa f) /\ rf_refs f <> 0 /\
  exists h' db' e, roa_traverse (fst s) (peek_resources (snd s)) db_table_create f = Ok (h', db', e) /\
    e <> 0 /\ t_roas db' = [ex_vrp].
Proof.
  exists ex_s1, (ex_file [ex_addr [10; 1]] E_INVAL).
  destruct ex_ok as (O1 & _).
  split. { apply (reach_step (empty_heap, []) (OpPush RFC6484 CERTYPE_TA ex_ta)); [apply reach_init|exact O1|vm_compute; reflexivity]. }
  split; [exact ex_exts_ok|]. split.
  { apply ex_roa_ok. repeat constructor; cbn; unfold is_byte; lia. }
  split; [discriminate|].
  eexists _, _, _. split; [vm_compute; reflexivity|]. split; [discriminate|reflexivity].
Qed.

(** The hypotheses of C22 are met by this ROA and EE certificate. *)
Example C22_example : exists h' ee,
  ee_resources (fst ex_s1) (peek_resources (snd ex_s1)) RFC6484 false ex_ee_exts = Ok (h', ee, 0) /\
  roa_ok (ex_roa [ex_addr [10; 1]]) /\
  handle_roa h' ee db_table_create (ex_roa [ex_addr [10; 1]]) = Ok ({| t_roas := [ex_vrp]; t_rks := [] |}, 0).
Proof.
  eexists _, _. split; [vm_compute; reflexivity|]. split.
  - apply ex_roa_ok. repeat constructor; cbn; unfold is_byte; lia.
  - vm_compute. reflexivity.
Qed.
