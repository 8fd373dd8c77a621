(** C68: from the bytes of a ROA to the table. *)
From Coq Require Import Lia.
From Verif Require Import Base BaseLemmas Types HashSet DbTable VrpsSpec VrpsProofs PduWireSpec PduWireProofs Address AddressSpec
  AddressProofs SArray SArraySpec SArrayProofs Asn1 Resources ResourcesSpec ResourcesProofs ResourcesProofs2
  ResourcesProofs3 ResourcesProofs4 ResourcesProps Roa RoaSpec RoaProofs RoaProps.
From Verif Require Import BerSpec Asn1Dec Asn1Types Asn1Check Asn1Constraints Asn1CheckProps Objects ObjectsSpec ObjectsProps RoaBytes.
Notation length := List.length.

(** ** Reading INTEGERs as unsigned *)
Lemma ulong_zero i : asn_INTEGER2ulong (0 :: i) = asn_INTEGER2ulong i.
Proof.
  unfold asn_INTEGER2ulong, asn_INTEGER2umax. cbn [skip_extra]. destruct (8 <? Z.of_nat (length (0 :: i))) eqn:E.
  - reflexivity.
  - assert (S : skip_extra i = Some i).
    { destruct i as [|x i]; [reflexivity|]. cbn [skip_extra]. destruct (Z.ltb_spec 8 (Z.of_nat (length (x :: i)))); [|reflexivity].
      cbn [length] in *. lia. }
    rewrite S. reflexivity.
Qed.

Lemma natural_zero i : Forall is_byte i -> natural (0 :: i).
Proof.
  intros H. split; [constructor; [unfold is_byte; lia|assumption]|].
  cbn [integer_value]. change (0 <? 128) with true. cbn iota. apply be_bound. constructor; [unfold is_byte; lia|assumption].
Qed.

Lemma max_length_zero bound len m : max_length_of bound len (option_map (cons 0) m) = max_length_of bound len m.
Proof. destruct m as [m|]; [|reflexivity]. cbn [option_map max_length_of]. rewrite ulong_zero. reflexivity. Qed.

Lemma addr_unsigned h ee db asn f a : handle_roa_addr h ee db asn f (unsigned_addr a) = handle_roa_addr h ee db asn f a.
Proof.
  unfold handle_roa_addr, handle_roa_v4, handle_roa_v6, unsigned_addr. cbn [ra_address ra_max].
  destruct (f =? 1).
  - destruct (prefix4_decode (ra_address a)) as [(ad & l)| |]; try reflexivity. rewrite max_length_zero. reflexivity.
  - destruct (f =? 2); [|reflexivity].
    destruct (prefix6_decode (ra_address a)) as [(ad & l)| |]; try reflexivity. rewrite max_length_zero. reflexivity.
Qed.
Lemma loop_unsigned h ee asn f l : forall db, addr_loop h ee db asn f (map unsigned_addr l) = addr_loop h ee db asn f l.
Proof.
  induction l as [|a l IH]; intros db; [reflexivity|]. cbn [map addr_loop]. rewrite addr_unsigned.
  destruct (handle_roa_addr h ee db asn f a) as [(d & e)| |]; try reflexivity. cbn [bind]. destruct (negb (e =? 0)); [reflexivity|apply IH].
Qed.
Lemma block_unsigned h ee asn l : forall db, roa_block_loop h ee db asn (map (option_map unsigned_block) l) = roa_block_loop h ee db asn l.
Proof.
  induction l as [|[b|] l IH]; intros db; [reflexivity| |reflexivity]. cbn [map option_map roa_block_loop].
  unfold unsigned_block at 1. cbn [rb_family].
  destruct (rb_family b) as [|f0 [|f1 [|f2 fs]]]; try reflexivity.
  destruct (negb (f0 =? 0)); [reflexivity|]. destruct (negb (f1 =? 1) && negb (f1 =? 2)); [reflexivity|].
  unfold unsigned_block. cbn [rb_addresses]. destruct (rb_addresses b) as [addrs|]; [|reflexivity]. cbn [option_map].
  rewrite loop_unsigned. destruct (addr_loop h ee db asn f1 addrs) as [(d & e)| |]; try reflexivity. cbn [bind].
  destruct (negb (e =? 0)); [reflexivity|apply IH].
Qed.
Lemma handle_unsigned h ee db r : handle_roa h ee db (unsigned r) = handle_roa h ee db r.
Proof.
  unfold handle_roa, unsigned. cbn [roa_version roa_asid roa_blocks]. rewrite ulong_zero.
  assert (V : match option_map (cons 0) (roa_version r) with None => true
     | Some v => match asn_INTEGER2ulong v with Some n => n =? 0 | None => false end end
   = match roa_version r with None => true | Some v => match asn_INTEGER2ulong v with Some n => n =? 0 | None => false end end)
   by (destruct (roa_version r); cbn [option_map]; [rewrite ulong_zero|]; reflexivity).
  rewrite V. destruct (negb _); [reflexivity|]. destruct (asn_INTEGER2ulong (roa_asid r)); [|reflexivity].
  destruct (UINT_MAX <? z); [reflexivity|]. destruct (roa_blocks r) as [bl|]; [|reflexivity]. cbn [option_map]. apply block_unsigned.
Qed.

Lemma unsigned_ok r : roa_of_bytes r -> roa_ok (unsigned r).
Proof.
  intros (H1 & H2 & H3). split; [apply natural_zero; assumption|]. split.
  - unfold unsigned. cbn [roa_version]. destruct (roa_version r); [|exact I]. apply natural_zero. assumption.
  - unfold unsigned. cbn [roa_blocks]. intros blocks b addrs E Hin Ha. destruct (roa_blocks r) as [bl|]; [|discriminate].
    cbn [option_map] in E. injection E as <-. apply in_map_iff in Hin. destruct Hin as ([b'|] & E & Hb); [|discriminate].
    injection E as <-. unfold unsigned_block in Ha. cbn [rb_addresses] in Ha. destruct (rb_addresses b') as [ad|] eqn:Ead; [|discriminate].
    injection Ha as <-. apply Forall_forall. intros a Hin. apply in_map_iff in Hin. destruct Hin as (a' & <- & Ha').
    destruct (H3 bl b' ad a' eq_refl Hb Ead Ha') as (Q1 & Q2). split; [assumption|]. unfold unsigned_addr. cbn [ra_max].
    destruct (ra_max a'); [|exact I]. apply natural_zero. assumption.
Qed.

Lemma roa_of_in version asid blocks bl b addrs : roa_blocks (roa_of version asid blocks) = Some bl -> In (Some b) bl ->
  rb_addresses b = Some addrs -> exists x, In x blocks /\ b = {| rb_family := fst x; rb_addresses := Some addrs |} /\ addrs = snd x.
Proof.
  unfold roa_of. cbn [roa_blocks]. intros E Hb Ha.
  assert (E' : bl = map (fun b => Some {| rb_family := fst b; rb_addresses := null_if_empty (snd b) |}) blocks).
  { destruct blocks; cbn [map null_if_empty] in *; [discriminate|]. injection E as <-. reflexivity. }
  subst bl. apply in_map_iff in Hb. destruct Hb as (x & Ex & Hx). injection Ex as <-. cbn [rb_addresses] in Ha. exists x. split; [assumption|].
  destruct (snd x); [discriminate|]. injection Ha as <-. split; reflexivity.
Qed.

Lemma fine_bytes version asid blocks : roa_fine version asid blocks -> roa_of_bytes (roa_of version asid blocks).
Proof.
  intros (H1 & H2 & H3). split; [exact H2|]. split; [exact H1|]. intros bl b addrs a E Hb Ha Hin.
  destruct (roa_of_in _ _ _ _ _ _ E Hb Ha) as (x & Hx & _ & ->). rewrite Forall_forall in H3. destruct (H3 x Hx) as (_ & H).
  rewrite Forall_forall in H. destruct (H a Hin) as ((Q & _) & Q2). split; assumption.
Qed.

(** Whatever bytes the content of a ROA consists of, handling them never
    crashes.  If they cannot be decoded, the ROA is rejected and the table
    doesn't change.  Otherwise the ROA is accepted exactly if it is valid -- its
    INTEGERs being read as unsigned --, and then the table gains exactly the
    payloads it announces; even if it is rejected, what it adds is announced by
    it, covered by the resources of its EE certificate and of every certificate
    above, without host bits, with a good maxLength and AS number. *)
Theorem C68_any_bytes nobuf turns h stack p f exts h' ee db bs : (2 <= turns)%nat -> bytes bs ->
  reachable (h, stack) -> Forall extension_ok exts ->
  ee_resources h (peek_resources stack) p f exts = Ok (h', ee, 0) ->
  exists db' e, roa_content nobuf turns h' ee db bs = Ok (db', e) /\ t_rks db' = t_rks db /\
    match decode_roa nobuf turns bs with
    | None => e <> 0 /\ db' = db
    | Some r =>
        (e = 0 <-> roa_valid (holds4 h' ee) (holds6 h' ee) (unsigned r)) /\
        (e = 0 -> forall v, roas_of db' v <-> roas_of db v \/ roa_vrp (unsigned r) v) /\
        forall v, roas_of db' v -> roas_of db v \/
          (roa_vrp (unsigned r) v /\ canonical v /\ v_len v <= v_max v <= width (v_fam v) /\ 0 <= v_asn v < 2 ^ 32 /\
           allowed (holds4 h' ee) (holds6 h' ee) v /\ forall rj, In rj stack -> allowed (holds4 h rj) (holds6 h rj) v)
    end.
Proof.
  intros Hturns Hb R OK EE. unfold roa_content. destruct (decode_roa nobuf turns bs) as [r|] eqn:D.
  2: { exists db, E_INVAL. split; [reflexivity|]. split; [reflexivity|]. split; [discriminate|reflexivity]. }
  assert (RB : roa_of_bytes r).
  { pose proof D as D'. unfold decode_roa in D'. destruct (asn1_decode _ _ _ _ bs) as [v| | |] eqn:A; try discriminate. clear D'.
    destruct (C67_roa_complete _ _ _ _ Hb Hturns A) as (version & asid & blocks & E & Hf). rewrite E in D. injection D as <-.
    apply fine_bytes. assumption. }
  apply unsigned_ok in RB. rewrite <- handle_unsigned.
  destruct (C22_exact h stack p f exts h' ee db _ R OK EE RB) as (db' & e & H & A1 & A2 & A3).
  destruct (C22_vrps h stack p f exts h' ee db _ R OK EE RB) as (db2 & e2 & H' & B). rewrite H in H'. injection H' as <- <-.
  exists db', e. split; [assumption|]. split; [assumption|]. split; [assumption|]. split; [assumption|].
  intros v Hv. destruct (B v Hv) as [Q|(Q1 & Q2 & Q3 & _ & Q4 & Q5)]; [left; assumption|right]. auto.
Qed.

(** The DER encoding of a ROA whose numbers aren't negative: what the encoded
    ROA says. *)
Theorem C68_roa nobuf turns h stack p f exts h' ee db version asid blocks rest : (2 <= turns)%nat -> bytes rest ->
  reachable (h, stack) -> Forall extension_ok exts ->
  ee_resources h (peek_resources stack) p f exts = Ok (h', ee, 0) ->
  roa_fine version asid blocks -> roa_ok (roa_of version asid blocks) -> reasonable (der_roa version asid blocks) ->
  exists db' e, roa_content nobuf turns h' ee db (der_roa version asid blocks ++ rest) = Ok (db', e) /\
    (e = 0 <->
      match version with None => True | Some v => integer_value v = 0 end /\ integer_value asid < 2 ^ 32 /\ blocks <> [] /\
      forall b, In b blocks -> exists fam, fst b = afi fam /\ snd b <> [] /\
        forall a, In a (snd b) -> exists v, announces (integer_value asid) fam a v /\ allowed (holds4 h' ee) (holds6 h' ee) v) /\
    (e = 0 -> forall v, roas_of db' v <-> roas_of db v \/
      exists b a, In b blocks /\ fst b = afi (v_fam v) /\ In a (snd b) /\ announces (integer_value asid) (v_fam v) a v).
Proof.
  intros Hturns Hrest R OK EE Hf Hok Hr. unfold roa_content. rewrite C67_roa by assumption.
  destruct (C22_exact h stack p f exts h' ee db _ R OK EE Hok) as (db' & e & H & A1 & A2 & A3).
  exists db', e. split; [assumption|].
  assert (BL : forall x, In x blocks -> exists bl, roa_blocks (roa_of version asid blocks) = Some bl /\
             In (Some {| rb_family := fst x; rb_addresses := null_if_empty (snd x) |}) bl).
  { intros x Hx. unfold roa_of. cbn [roa_blocks]. destruct blocks as [|y l]; [contradiction|]. eexists. split; [reflexivity|].
    apply (in_map (fun b => Some {| rb_family := fst b; rb_addresses := null_if_empty (snd b) |})) in Hx. exact Hx. }
  split.
  - rewrite A1. unfold roa_valid. split.
    + intros (V1 & V2 & bl & E & V3). split; [exact V1|]. split; [exact V2|]. split.
      { intros ->. discriminate. }
      intros b Hb. destruct (BL b Hb) as (bl' & E' & Hin). rewrite E in E'. injection E' as <-.
      destruct (V3 _ Hin) as (b' & fam & addrs & Eb & F1 & F2 & F3). injection Eb as <-. cbn [rb_family rb_addresses] in *.
      exists fam. split; [assumption|]. destruct (snd b) as [|a0 l]; [discriminate|]. injection F2 as <-. split; [discriminate|assumption].
    + intros (V1 & V2 & V3 & V4). split; [exact V1|]. split; [exact V2|].
      unfold roa_of. cbn [roa_blocks roa_asid]. destruct blocks as [|y l]; [contradiction|]. eexists. split; [reflexivity|].
      intros ob Hin. change (In ob (map (fun b => Some {| rb_family := fst b; rb_addresses := null_if_empty (snd b) |}) (y :: l))) in Hin.
      apply in_map_iff in Hin. destruct Hin as (x & <- & Hx). destruct (V4 x Hx) as (fam & F1 & F2 & F3).
      eexists _, fam, (snd x). split; [reflexivity|]. cbn [rb_family rb_addresses]. split; [assumption|].
      split; [destruct (snd x); [contradiction|reflexivity]|assumption].
  - intros E v. rewrite (A2 E v). enough (roa_vrp (roa_of version asid blocks) v <->
      exists b a, In b blocks /\ fst b = afi (v_fam v) /\ In a (snd b) /\ announces (integer_value asid) (v_fam v) a v) by tauto.
    split.
    + intros (bl & b & addrs & a & E1 & Hb & F & Ha & Hin & An). destruct (roa_of_in _ _ _ _ _ _ E1 Hb Ha) as (x & Hx & -> & ->).
      exists x, a. split; [assumption|]. split; [exact F|]. split; assumption.
    + intros (x & a & Hx & F & Hin & An). destruct (BL x Hx) as (bl & E1 & Hb). exists bl. eexists _, (snd x), a.
      split; [exact E1|]. split; [exact Hb|]. cbn [rb_family rb_addresses]. split; [assumption|].
      split; [destruct (snd x); [contradiction|reflexivity]|]. split; assumption.
Qed.

(** The full property would be that of C68_roa for every ROA.  A negative asID is
    not refused: the ROA of AS -1 for 10.1.0.0/16 is accepted, and announces AS
    4294967295. *)
Definition ex_negative : list Z := der_roa None [255; 255; 255; 255] [([0; 1], [RoaProps.ex_addr [10; 1]])].
Theorem C68_negative_refuted : exists s exts h' ee db',
  reachable s /\ Forall extension_ok exts /\
  ee_resources (fst s) (peek_resources (snd s)) RFC6484 false exts = Ok (h', ee, 0) /\
  integer_value [255; 255; 255; 255] = -1 /\
  roa_content false 2 h' ee db_table_create ex_negative = Ok (db', 0) /\
  t_roas db' = [{| v_asn := 4294967295; v_addr := 167837696; v_len := 16; v_max := 16; v_fam := AF_INET |}].
Proof.
  exists ex_s1, ex_ee_exts. eexists _, _, _. destruct ex_ok as (O1 & _).
  split. { apply (reach_step (empty_heap, []) (OpPush RFC6484 CERTYPE_TA ex_ta)); [apply reach_init|exact O1|vm_compute; reflexivity]. }
  split; [exact ex_exts_ok|]. split; [vm_compute; reflexivity|]. split; [reflexivity|]. split; [vm_compute; reflexivity|reflexivity].
Qed.

Example C68_example : exists h' ee db',
  ee_resources (fst ex_s1) (peek_resources (snd ex_s1)) RFC6484 false ex_ee_exts = Ok (h', ee, 0) /\
  roa_fine None [1] [([0; 1], [RoaProps.ex_addr [10; 1]])] /\ roa_ok (roa_of None [1] [([0; 1], [RoaProps.ex_addr [10; 1]])]) /\
  reasonable (der_roa None [1] [([0; 1], [RoaProps.ex_addr [10; 1]])]) /\
  roa_content false 2 h' ee db_table_create (der_roa None [1] [([0; 1], [RoaProps.ex_addr [10; 1]])]) = Ok (db', 0) /\ t_roas db' = [ex_vrp].
Proof.
  eexists _, _, _. split; [vm_compute; reflexivity|].
  assert (B : der_bits {| bs_buf := [10; 1]; bs_unused := 0 |}) by (split; [repeat (constructor; [unfold is_byte; lia|]); constructor|split; [cbn; lia|reflexivity]]).
  split. { split; [exact I|]. split; [constructor; [unfold is_byte; lia|constructor]|]. constructor; [|constructor].
           split; [repeat (constructor; [unfold is_byte; lia|]); constructor|]. constructor; [|constructor]. split; [exact B|exact I]. }
  split. { apply ex_roa_ok. constructor; [|constructor]. split; [apply B|exact I]. }
  split; [reflexivity|]. split; [vm_compute; reflexivity|reflexivity].
Qed.

Print Assumptions C68_any_bytes.
Print Assumptions C68_roa.
Print Assumptions C68_negative_refuted.
