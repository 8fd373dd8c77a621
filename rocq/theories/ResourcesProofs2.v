(** Proofs about certificate resources, continued: certificates and stacks. *)
From Verif Require Import Base BaseLemmas PduWireSpec PduWireProofs Address AddressSpec AddressProofs
  SArray SArraySpec SArrayProofs Asn1 Resources ResourcesSpec ResourcesProofs.

(** ** Decoders of list elements *)
Definition dec4 (a : aor) : res (Z * Z) :=
  match a with
  | AOR_prefix s => rmap pton (prefix4_decode s)
  | AOR_range lo hi => rmap rton (range4_decode lo hi)
  | AOR_nothing => Err EINVAL
  end.
Definition dec6 (a : aor) : res (list Z * list Z) :=
  match a with
  | AOR_prefix s => rmap ptor (prefix6_decode s)
  | AOR_range lo hi => range6_decode lo hi
  | AOR_nothing => Err EINVAL
  end.

Lemma step_aor4_eq pol parent cells mine a :
  step_aor4 pol parent cells mine a = gstep r4_cmp pol parent cells mine (dec4 a).
Proof.
  destruct a; cbn [step_aor4 dec4].
  - apply add_item_map; auto. intros [s|] e; reflexivity.
  - apply add_item_map; auto.
  - rewrite gstep_err; reflexivity.
Qed.
Lemma rmap_id {A} (r : res A) : rmap (fun x => x) r = r.
Proof. destruct r; reflexivity. Qed.
Lemma step_aor6_eq pol parent cells mine a :
  step_aor6 pol parent cells mine a = gstep r6_cmp pol parent cells mine (dec6 a).
Proof.
  destruct a; cbn [step_aor6 dec6].
  - apply add_item_map; auto.
  - rewrite (add_item_map r6_cmp _ _ (fun x => x)); auto. rewrite rmap_id. reflexivity.
  - rewrite gstep_err; reflexivity.
Qed.
Lemma step_asior_eq pol parent cells mine a :
  step_asior pol parent cells mine a = gstep asn_cmp pol parent cells mine (decode_asior a).
Proof.
  unfold step_asior. rewrite (add_item_map asn_cmp _ _ (fun x => x)); auto. rewrite rmap_id. reflexivity.
Qed.

Lemma denotes_prefix_ok W s addr len : bit_string_ok s -> denotes W s addr len -> prefix_ok W addr len.
Proof.
  intros B D. destruct (denotes_bounds W s addr len B D) as [B1 [B2 _]].
  destruct D as (_ & _ & _ & _ & _ & M). unfold prefix_ok. auto.
Qed.

Lemma dec4_spec a : aor_ok a ->
  match dec4 a with
  | Ok r => range_ok (2 ^ 32) r /\ forall r', claims4 a r' <-> r' = r
  | Err _ => forall r, ~ claims4 a r
  | UB => False
  end.
Proof.
  destruct a as [s|lo hi|]; cbn [aor_ok dec4 claims4].
  - intros B. pose proof (prefix4_decode_spec s B) as S.
    destruct (prefix4_decode s) as [[addr len]|e|]; cbn [rmap].
    + destruct (pton_range addr len (denotes_prefix_ok _ _ _ _ B S)) as [E R]. rewrite E. split; auto.
      intros r'. split.
      * intros [addr' [len' [D ->]]]. destruct (denotes_fun _ _ _ _ _ _ S D) as [-> ->]. reflexivity.
      * intros ->. exists addr, len. auto.
    + intros r [addr [len [D _]]]. destruct S as [_ S]. exact (S addr len D).
    + exact S.
  - intros [B1 B2]. pose proof (range4_decode_spec lo hi B1 B2) as S.
    destruct (range4_decode lo hi) as [[mn mx]|e|]; cbn [rmap rton].
    + destruct S as [D [LE NP]]. destruct D as [la [b [lb [D1 [D2 E]]]]].
      destruct (denotes_bounds _ _ _ _ B1 D1) as (U1 & U2 & U3).
      destruct (denotes_bounds _ _ _ _ B2 D2) as (V1 & V2 & V3). rewrite <- E in V3.
      split; [unfold range_ok, rton; cbn [fst snd]; lia|].
      intros [mn' mx']; cbn [fst snd]. split.
      * intros [[la' [b' [lb' [D1' [D2' E']]]]] _].
        destruct (denotes_fun _ _ _ _ _ _ D1 D1') as [-> ->].
        destruct (denotes_fun _ _ _ _ _ _ D2 D2') as [-> ->]. subst. reflexivity.
      * intros X; inversion X; subst. split; [exists la, b, lb; auto|]. split; auto.
    + intros [mn mx] [X [Y W]]. destruct S as [_ S]. exact (S mn mx (conj X (conj Y W))).
    + exact S.
  - auto.
Qed.

Lemma dec6_spec a : aor_ok a ->
  match dec6 a with
  | Ok r => range6_ok r /\ forall r', claims6 a r' <-> r' = num6 r
  | Err _ => forall r, ~ claims6 a r
  | UB => False
  end.
Proof.
  destruct a as [s|lo hi|]; cbn [aor_ok dec6 claims6].
  - intros B. pose proof (prefix6_decode_spec s B) as S.
    destruct (prefix6_decode s) as [[addr len]|e|]; cbn [rmap].
    + destruct S as [D [L OK]].
      destruct (ptor_range addr len (conj L OK) (denotes_prefix_ok _ _ _ _ B D)) as [R E]. rewrite E. split; auto.
      intros r'. split.
      * intros [addr' [len' [D' ->]]]. destruct (denotes_fun _ _ _ _ _ _ D D') as [-> ->]. reflexivity.
      * intros ->. exists (be addr), len. auto.
    + intros r [addr [len [D _]]]. destruct S as [_ S]. exact (S addr len D).
    + exact S.
  - intros [B1 B2]. pose proof (range6_decode_spec lo hi B1 B2) as S.
    destruct (range6_decode lo hi) as [[mn mx]|e|].
    + destruct S as [D [LE [NP [L1 [L2 [O1 O2]]]]]]. destruct D as [la [b [lb [D1 [D2 E]]]]].
      split; [unfold range6_ok, addr6_ok; cbn [fst snd]; auto|].
      intros [mn' mx']; unfold num6; cbn [fst snd]. split.
      * intros [[la' [b' [lb' [D1' [D2' E']]]]] _].
        destruct (denotes_fun _ _ _ _ _ _ D1 D1') as [-> ->].
        destruct (denotes_fun _ _ _ _ _ _ D2 D2') as [-> ->]. rewrite E, E'. reflexivity.
      * intros X; inversion X; subst. split; [exists la, b, lb; auto|]. split; auto.
    + intros [mn mx] [X [Y W]]. destruct S as [_ S]. exact (S mn mx (conj X (conj Y W))).
    + exact S.
  - auto.
Qed.

Lemma decA_good a : asior_ok a ->
  match decode_asior a with
  | Ok r => range_ok (2 ^ 32) r
  | Err _ => True
  | UB => False
  end.
Proof.
  destruct a as [i|lo hi|]; cbn [asior_ok decode_asior]; auto.
  - intros F. rewrite ASId2u32_spec by auto. pose proof (be_bound _ F).
    destruct (be i <? 2 ^ 32) eqn:E; cbn [bind]; auto. unfold range_ok; cbn [fst snd]. lia.
  - intros [F1 F2]. rewrite !ASId2u32_spec by auto.
    pose proof (be_bound _ F1). pose proof (be_bound _ F2).
    destruct (be lo <? 2 ^ 32) eqn:E; cbn [bind]; auto.
    destruct (be hi <? 2 ^ 32) eqn:E2; cbn [bind]; auto.
    destruct (be hi <? be lo) eqn:E3; auto. unfold range_ok; cbn [fst snd]. lia.
Qed.
Lemma decA_spec a : asior_ok a -> nonnegative a ->
  match decode_asior a with
  | Ok r => range_ok (2 ^ 32) r /\ forall r', claimsA a r' <-> r' = r
  | Err _ => forall r, ~ claimsA a r
  | UB => False
  end.
Proof.
  intros OK NN. pose proof (decA_good a OK) as G. revert OK NN G.
  destruct a as [i|lo hi|]; cbn [asior_ok nonnegative decode_asior claimsA]; auto.
  - intros F NN. rewrite ASId2u32_spec by auto. rewrite (integer_value_nonneg i) in * by auto.
    destruct (be i <? 2 ^ 32) eqn:E; cbn [bind]; intros G.
    + split; auto. intros r'. split; [tauto|]. intros ->. split; [reflexivity|lia].
    + intros r [_ L]. lia.
  - intros [F1 F2] [N1 N2]. rewrite !ASId2u32_spec by auto.
    rewrite (integer_value_nonneg lo), (integer_value_nonneg hi) in * by auto.
    destruct (be lo <? 2 ^ 32) eqn:E; cbn [bind]; [|intros _ r [_ L]; lia].
    destruct (be hi <? 2 ^ 32) eqn:E2; cbn [bind]; [|intros _ r [_ L]; lia].
    destruct (be hi <? be lo) eqn:E3; intros G; [intros r [_ L]; lia|].
    split; auto. intros r'. split; [tauto|]. intros ->. split; [reflexivity|lia].
Qed.

(** ** Heaps *)
Definition small {A} (s : sarray A) : Prop := sa_count s < 2 ^ 31.
Notation inv4 := (inv (fun x : Z * Z => x) (range_ok (2 ^ 32))).
Notation inv6 := (inv num6 range6_ok).
Record heap_ok (h : heap) : Prop := {
  ok_h4 : Forall inv4 (h4 h); sm_h4 : Forall small (h4 h);
  ok_h6 : Forall inv6 (h6 h); sm_h6 : Forall small (h6 h);
  ok_ha : Forall inv4 (ha h); sm_ha : Forall small (ha h) }.
Record res_ok (h : heap) (r : resources) : Prop := {
  ok_p4 : ptr_ok (h4 h) (r_ip4s r); ok_p6 : ptr_ok (h6 h) (r_ip6s r); ok_pa : ptr_ok (ha h) (r_asns r) }.
Definition parent_ok (h : heap) (parent : option resources) : Prop :=
  match parent with Some pa => res_ok h pa | None => True end.

(** What holds of one family after some processing. *)
Notation fam4 := (fam_state (fun x : Z * Z => x) (range_ok (2 ^ 32))).
Notation fam6 := (fam_state num6 range6_ok).

Definition incl_parent {A} (num : A -> Z * Z) (old : list (sarray A)) (parent : option ptr)
    (cells : list (sarray A)) (mine : ptr) : Prop :=
  match parent with
  | Some pp => included (content num cells mine) (content num old pp)
  | None => True
  end.

Lemma incl_nil {A} (num : A -> Z * Z) old parent (cells : list (sarray A)) : incl_parent num old parent cells None.
Proof. destruct parent; cbn; auto. intros x [r [[] _]]. Qed.

(** A list of claims of one family, starting from nothing. *)
Lemma list_spec {A I} (cmp : A -> A -> sacmp) num (ok : A -> Prop)
  (cmp_num : forall a b, ok a -> ok b -> cmp a b = zcmp (num a) (num b))
  (ok_num : forall a, ok a -> 0 <= fst (num a) <= snd (num a))
  (step : policy -> option ptr -> list (sarray A) -> ptr -> I -> res (list (sarray A) * ptr * Z)) (dec : I -> res A)
  (STEP : forall pol parent cells mine it, step pol parent cells mine it = gstep cmp pol parent cells mine (dec it))
  old pol parent items :
  Forall (inv num ok) old -> Forall small old ->
  match parent with Some pp => ptr_ok old pp | None => True end ->
  Forall (good ok) (map dec items) -> Z.of_nat (length items) < 2 ^ 31 -> items <> [] ->
  exists cells mine err, item_loop (step pol parent) old None items = Ok (cells, mine, err) /\
    fam_state num ok old parent cells mine /\
    (err = 0 -> incl_parent num old parent cells mine) /\
    (err = 0 <-> exists els, map dec items = map Ok els /\ parent <> Some None /\
        (pol = RFC6484 -> Forall (fun e => owned num old parent (num e)) els) /\
        sorted_with_gaps (filter (ownedb num old parent) (map num els))) /\
    (err = 0 -> exists els, map dec items = map Ok els /\
        content num cells mine = filter (ownedb num old parent) (map num els)).
Proof.
  intros F S P G L NE.
  rewrite (item_loop_map cmp (step pol parent) dec pol parent) by auto.
  destruct (gloop_spec cmp num ok cmp_num ok_num old pol parent (map dec items) old None)
    as [cells [mine [err [E [OS [LEN [IFF CON]]]]]]]; auto.
  { left; auto. }
  { rewrite map_length. cbn [content length]. lia. }
  exists cells, mine, err. split; auto. split; [apply own_fam; auto|].
  assert (INC : err = 0 -> incl_parent num old parent cells mine).
  { intros Z0. destruct (CON Z0) as [els [EL EC]]. destruct parent as [pp|]; cbn [incl_parent]; auto.
    rewrite EC. cbn [content app]. intros x [r [IN X]]. apply filter_In in IN. destruct IN as [IN OB].
    apply (ownedb_spec num ok) in OB; auto; try lia. }
  split; auto. split.
  - rewrite IFF. cbn [content app]. split; intros [els [A1 [A2 [A3 A4]]]]; exists els.
    + split; auto. split; auto. intros ->. destruct A2 as [A2|A2]; [|tauto].
      destruct items; [auto|discriminate].
    + split; auto. split; auto. right. intros [_ X]. auto.
  - intros Z0. destruct (CON Z0) as [els [EL EC]]. exists els. split; auto.
Qed.

(** ** Certificates *)
(** [h0]: the heap before; family by family, [h], [r] are the state since. *)
Record cstate (h0 : heap) (parent : option resources) (h : heap) (r : resources) : Prop := {
  cs4 : fam4 (h4 h0) (option_map r_ip4s parent) (h4 h) (r_ip4s r);
  cs6 : fam6 (h6 h0) (option_map r_ip6s parent) (h6 h) (r_ip6s r);
  csA : fam4 (ha h0) (option_map r_asns parent) (ha h) (r_asns r) }.
Record cincl (h0 : heap) (parent : option resources) (h : heap) (r : resources) : Prop := {
  ci4 : incl_parent (fun x => x) (h4 h0) (option_map r_ip4s parent) (h4 h) (r_ip4s r);
  ci6 : incl_parent num6 (h6 h0) (option_map r_ip6s parent) (h6 h) (r_ip6s r);
  ciA : incl_parent (fun x => x) (ha h0) (option_map r_asns parent) (ha h) (r_asns r) }.

(** The result of a step; a crash is only possible without a parent, and when
    something inherits. *)
Definition outcome (h0 : heap) (parent : option resources) (inh : Prop) (x : res (heap * resources * Z))
    (P : heap -> resources -> Prop) : Prop :=
  match x with
  | Ok (h, r, err) => cstate h0 parent h r /\ (err = 0 -> cincl h0 parent h r /\ P h r)
  | Err _ => False
  | UB => parent = None /\ inh
  end.

Lemma outcome_weaken h0 parent (I J : Prop) x P : (I -> J) -> outcome h0 parent I x P -> outcome h0 parent J x P.
Proof. intros H. destruct x as [[[h r] e]| |]; cbn [outcome]; auto. intros [A B]; auto. Qed.

Lemma shared {A} num (ok : A -> Prop) (old : list (sarray A)) (pp : ptr) :
  fam_state num ok old (Some pp) old pp /\ incl_parent num old (Some pp) old pp.
Proof.
  split; [|intros x X; exact X]. destruct pp as [i|]; [right; left; exists i; auto|left; auto].
Qed.

Section Cert.
  Variables (h0 : heap) (parent : option resources).
  Hypothesis H0 : heap_ok h0.
  Hypothesis P0 : parent_ok h0 parent.

  Lemma p4 : match option_map r_ip4s parent with Some pp => ptr_ok (h4 h0) pp | None => True end.
  Proof. destruct parent; cbn in *; auto. apply P0. Qed.
  Lemma p6 : match option_map r_ip6s parent with Some pp => ptr_ok (h6 h0) pp | None => True end.
  Proof. destruct parent; cbn in *; auto. apply P0. Qed.
  Lemma pA : match option_map r_asns parent with Some pp => ptr_ok (ha h0) pp | None => True end.
  Proof. destruct parent; cbn in *; auto. apply P0. Qed.

  Lemma good4 l : Forall aor_ok l -> Forall (good (range_ok (2 ^ 32))) (map dec4 l).
  Proof.
    intros F. apply Forall_map. eapply Forall_impl; [|exact F]. intros a OK.
    pose proof (dec4_spec a OK) as D. unfold good. destruct (dec4 a); auto. apply D.
  Qed.
  Lemma good6 l : Forall aor_ok l -> Forall (good range6_ok) (map dec6 l).
  Proof.
    intros F. apply Forall_map. eapply Forall_impl; [|exact F]. intros a OK.
    pose proof (dec6_spec a OK) as D. unfold good. destruct (dec6 a); auto. apply D.
  Qed.
  Lemma goodA l : Forall asior_ok l -> Forall (good (range_ok (2 ^ 32))) (map decode_asior l).
  Proof.
    intros F. apply Forall_map. eapply Forall_impl; [|exact F]. intros a OK.
    pose proof (decA_good a OK) as D. unfold good. destruct (decode_asior a); auto.
  Qed.

  Definition untouched4 (h : heap) (r : resources) := r_ip4s r = None /\ h4 h = h4 h0.
  Definition untouched6 (h : heap) (r : resources) := r_ip6s r = None /\ h6 h = h6 h0.
  Definition untouchedA (h : heap) (r : resources) := r_asns r = None /\ ha h = ha h0.

  (** One IP block. *)
  Lemma add_ip_spec h r f : cstate h0 parent h r -> cincl h0 parent h r -> family_ok f ->
    (get_addr_family (f_family f) = 4 -> untouched4 h r) ->
    (get_addr_family (f_family f) <> 4 -> untouched6 h r) ->
    outcome h0 parent (f_choice f = IPC_inherit) (resources_add_ip h r parent f)
      (fun h' r' => ha h' = ha h /\ r_asns r' = r_asns r /\ r_policy r' = r_policy r /\
         (get_addr_family (f_family f) = 4 -> h6 h' = h6 h /\ r_ip6s r' = r_ip6s r) /\
         (get_addr_family (f_family f) = 6 -> h4 h' = h4 h /\ r_ip4s r' = r_ip4s r)).
  Proof.
    intros CS CI OK U4 U6. unfold resources_add_ip. cbv zeta.
    assert (FAIL : forall I P, outcome h0 parent I (Ok (h, r, E_INVAL)) P).
    { intros I P. cbn [outcome]. split; auto. unfold E_INVAL; lia. }
    set (fam := get_addr_family (f_family f)) in *.
    assert (FAM : fam = -1 \/ fam = 4 \/ fam = 6).
    { unfold fam, get_addr_family. destruct (f_family f) as [|b0 [|b1 [|]]]; auto.
      destruct (negb (b0 =? 0)); auto. destruct (b1 =? 1); auto. destruct (b1 =? 2); auto. }
    destruct (fam =? -1) eqn:E; [apply FAIL|]. destruct FAM as [FAM|FAM]; [lia|].
    unfold family_ok in OK. destruct (f_choice f) as [| |l]; [apply FAIL| |].
    - unfold inherit_aors. destruct parent as [pa|]; [|split; reflexivity].
      destruct FAM as [FAM|FAM]; rewrite FAM in *; cbn [Z.eqb Pos.eqb].
      + destruct (U4 eq_refl) as [U U']. rewrite U. cbn [outcome].
        destruct (shared (fun x => x) (range_ok (2 ^ 32)) (h4 h0) (r_ip4s pa)) as [S1 S2]. destruct CS, CI.
        split; [constructor; cbn [r_ip4s r_ip6s r_asns]; auto; rewrite U'; auto|].
        intros _. split; [constructor; cbn [r_ip4s r_ip6s r_asns]; auto; rewrite U'; auto|].
        cbn [r_ip4s r_ip6s r_asns r_policy]. repeat split; auto; lia.
      + destruct (U6 ltac:(lia)) as [U U']. rewrite U. cbn [outcome].
        destruct (shared num6 range6_ok (h6 h0) (r_ip6s pa)) as [S1 S2]. destruct CS, CI.
        split; [constructor; cbn [r_ip4s r_ip6s r_asns]; auto; rewrite U'; auto|].
        intros _. split; [constructor; cbn [r_ip4s r_ip6s r_asns]; auto; rewrite U'; auto|].
        cbn [r_ip4s r_ip6s r_asns r_policy]. repeat split; auto; lia.
    - unfold add_aors. destruct (r_force_inherit r); [apply FAIL|].
      destruct l as [|a l]; [apply FAIL|]. destruct OK as [OK LEN].
      destruct FAM as [FAM|FAM]; rewrite FAM in *; cbn [Z.eqb Pos.eqb].
      + destruct (U4 eq_refl) as [U U']. rewrite U, U'.
        destruct (list_spec r4_cmp (fun x => x) (range_ok (2 ^ 32)) u32_cmp_num range_ok_num
                   step_aor4 dec4 step_aor4_eq (h4 h0) (r_policy r) (option_map r_ip4s parent) (a :: l)
                   (ok_h4 _ H0) (sm_h4 _ H0) p4 (good4 _ OK) LEN ltac:(discriminate))
          as [cells [mine [err [-> [FS [INC _]]]]]].
        cbn [bind outcome]. destruct CS, CI.
        split; [constructor; cbn [h4 h6 ha r_ip4s r_ip6s r_asns]; auto|].
        intros Z0. split; [constructor; cbn [h4 h6 ha r_ip4s r_ip6s r_asns]; auto|].
        cbn [h4 h6 ha r_ip4s r_ip6s r_asns r_policy]. repeat split; auto; lia.
      + destruct (U6 ltac:(lia)) as [U U']. rewrite U, U'.
        destruct (list_spec r6_cmp num6 range6_ok r6_cmp_num range6_ok_num
                   step_aor6 dec6 step_aor6_eq (h6 h0) (r_policy r) (option_map r_ip6s parent) (a :: l)
                   (ok_h6 _ H0) (sm_h6 _ H0) p6 (good6 _ OK) LEN ltac:(discriminate))
          as [cells [mine [err [-> [FS [INC _]]]]]].
        cbn [bind outcome]. destruct CS, CI.
        split; [constructor; cbn [h4 h6 ha r_ip4s r_ip6s r_asns]; auto|].
        intros Z0. split; [constructor; cbn [h4 h6 ha r_ip4s r_ip6s r_asns]; auto|].
        cbn [h4 h6 ha r_ip4s r_ip6s r_asns r_policy]. repeat split; auto; lia.
  Qed.

  Lemma ip_extension_spec h r blocks : cstate h0 parent h r -> cincl h0 parent h r ->
    untouched4 h r -> untouched6 h r ->
    match blocks with Some l => Forall family_ok l | None => True end ->
    outcome h0 parent (exists v c, inherits (ExtIP v c blocks)) (handle_ip_extension h r parent blocks)
      (fun h' r' => ha h' = ha h /\ r_asns r' = r_asns r /\ r_policy r' = r_policy r).
  Proof.
    intros CS CI U4 U6 OK.
    assert (FAIL : forall I P, outcome h0 parent I (Ok (h, r, E_INVAL)) P).
    { intros I P. cbn [outcome]. split; auto. unfold E_INVAL; lia. }
    unfold handle_ip_extension. destruct blocks as [[|b1 [|b2 [|b3 l]]]|]; try exact (FAIL _ _).
    - cbn [block_loop]. inversion OK; subst.
      pose proof (add_ip_spec h r b1 CS CI ltac:(assumption) (fun _ => U4) (fun _ => U6)) as S. clear FAIL.
      destruct (resources_add_ip h r parent b1) as [[[h' r'] err]| |]; cbn [bind outcome] in S |- *; auto;
        [|split; [apply S|exists RFC6484, true; exists b1; split; [left; reflexivity|apply S]]].
      destruct S as [S1 S2].
      destruct (err =? 0) eqn:E; cbn [negb].
      + assert (err = 0) by lia; subst. cbn [outcome]. split; auto. intros _. destruct (S2 eq_refl) as [S3 S4]. tauto.
      + cbn [outcome]. split; auto. lia.
    - destruct (get_addr_family (f_family b1) =? 4) eqn:E1; cbn [negb]; [|apply FAIL].
      destruct (get_addr_family (f_family b2) =? 6) eqn:E2; cbn [negb]; [|apply FAIL].
      cbn [block_loop]. inversion OK as [|? ? O1 O2]; subst. inversion O2 as [|? ? O3 O4]; subst.
      pose proof (add_ip_spec h r b1 CS CI O1 (fun _ => U4) (fun _ => U6)) as S. clear FAIL.
      destruct (resources_add_ip h r parent b1) as [[[h' r'] err]| |]; cbn [bind outcome] in S |- *; auto;
        [|split; [apply S|exists RFC6484, true; exists b1; split; [left; reflexivity|apply S]]].
      destruct S as [S1 S2]. destruct (err =? 0) eqn:E; cbn [negb]; [|cbn [outcome]; split; auto; lia].
      destruct (S2 ltac:(lia)) as [S3 [S4 [S5 [S6 [S7 _]]]]]. destruct (S7 ltac:(lia)) as [S8 S9].
      assert (U6' : untouched6 h' r') by (unfold untouched6 in *; rewrite S8, S9; auto).
      pose proof (add_ip_spec h' r' b2 S1 S3 O3 ltac:(intros; lia) (fun _ => U6')) as T.
      destruct (resources_add_ip h' r' parent b2) as [[[h'' r''] err']| |]; cbn [bind outcome] in T |- *; auto;
        [|split; [apply T|exists RFC6484, true; exists b2; split; [right; left; reflexivity|apply T]]].
      destruct T as [T1 T2]. destruct (err' =? 0) eqn:E'; cbn [negb].
      + assert (err' = 0) by lia; subst. cbn [outcome]. split; auto. intros _.
        destruct (T2 eq_refl) as [T3 [T4 [T5 [T6 _]]]]. split; auto. repeat split; congruence.
      + cbn [outcome]. split; auto. lia.
  Qed.

  Lemma as_extension_spec h r ids allow : cstate h0 parent h r -> cincl h0 parent h r ->
    untouchedA h r -> match ids with Some i => as_ids_ok i | None => True end ->
    outcome h0 parent (exists v c, inherits (ExtAS v c ids)) (handle_asn_extension h r parent ids allow)
      (fun h' r' => h4 h' = h4 h /\ h6 h' = h6 h /\ r_ip4s r' = r_ip4s r /\ r_ip6s r' = r_ip6s r /\
                    r_policy r' = r_policy r).
  Proof.
    intros CS CI UA OK.
    assert (FAIL : forall I P, outcome h0 parent I (Ok (h, r, E_INVAL)) P).
    { intros I P. cbn [outcome]. split; auto. unfold E_INVAL; lia. }
    unfold handle_asn_extension. destruct ids as [ids|]; [|apply FAIL].
    unfold resources_add_asn. unfold as_ids_ok in OK. destruct (as_num ids) as [c|] eqn:EC; [|apply FAIL].
    destruct (as_rdi ids); [apply FAIL|]. destruct UA as [U U'].
    destruct c as [| |l]; [apply FAIL| |].
    - destruct allow; cbn [negb]; [|apply FAIL]. unfold inherit_asiors.
      destruct parent as [pa|]; [|split; [reflexivity|exists RFC6484, true; exact EC]]. rewrite U. cbn [outcome].
      destruct (shared (fun x => x) (range_ok (2 ^ 32)) (ha h0) (r_asns pa)) as [S1 S2]. destruct CS, CI.
      split; [constructor; cbn [r_ip4s r_ip6s r_asns]; auto; rewrite U'; auto|].
      intros _. split; [constructor; cbn [r_ip4s r_ip6s r_asns]; auto; rewrite U'; auto|].
      cbn [r_ip4s r_ip6s r_asns r_policy]. repeat split; auto.
    - unfold add_asiors. destruct (r_force_inherit r); [apply FAIL|].
      destruct l as [|a l]; [apply FAIL|]. destruct OK as [OK LEN]. rewrite U, U'.
      destruct (list_spec asn_cmp (fun x => x) (range_ok (2 ^ 32)) u32_cmp_num range_ok_num
                 step_asior decode_asior step_asior_eq (ha h0) (r_policy r) (option_map r_asns parent) (a :: l)
                 (ok_ha _ H0) (sm_ha _ H0) pA (goodA _ OK) LEN ltac:(discriminate))
        as [cells [mine [err [-> [FS [INC _]]]]]].
      cbn [bind outcome]. destruct CS, CI.
      split; [constructor; cbn [h4 h6 ha r_ip4s r_ip6s r_asns]; auto|].
      intros Z0. split; [constructor; cbn [h4 h6 ha r_ip4s r_ip6s r_asns]; auto|].
      cbn [h4 h6 ha r_ip4s r_ip6s r_asns r_policy]. repeat split; auto.
  Qed.

  Lemma extension_loop_spec allow exts : Forall extension_ok exts -> forall h r ipf asf,
    cstate h0 parent h r -> cincl h0 parent h r ->
    (ipf = false -> untouched4 h r /\ untouched6 h r) -> (asf = false -> untouchedA h r) ->
    outcome h0 parent (Exists inherits exts) (extension_loop h r parent allow ipf asf exts) (fun _ _ => True).
  Proof.
    induction 1 as [|e exts OK F IH]; intros h r ipf asf CS CI UI UA; cbn [extension_loop].
    - cbn [outcome]. split; auto.
    - assert (FAIL : forall I P, outcome h0 parent I (Ok (h, r, E_INVAL)) P).
      { intros I P. cbn [outcome]. split; auto. unfold E_INVAL; lia. }
      destruct e as [v cr bl|v cr ids|].
      + destruct (negb (policy_eqb v (r_policy r))); [apply FAIL|].
        destruct ipf; [apply FAIL|]. destruct cr; cbn [negb]; [|apply FAIL].
        destruct (UI eq_refl) as [U4 U6].
        pose proof (ip_extension_spec h r bl CS CI U4 U6 OK) as S.
        destruct (handle_ip_extension h r parent bl) as [[[h' r'] err]| |]; cbn [bind outcome] in S |- *; auto;
          [|destruct S as [S1 [v' [c' S2]]]; split; [exact S1|left; exact S2]].
        destruct S as [S1 S2]. destruct (err =? 0) eqn:E; cbn [negb]; [|cbn [outcome]; split; auto; lia].
        destruct (S2 ltac:(lia)) as [S3 [S4 [S5 S6]]].
        eapply outcome_weaken; [intros X; right; exact X|]. apply IH; auto; [discriminate|]. intros X. destruct (UA X) as [V1 V2]. unfold untouchedA. rewrite S4, S5. auto.
      + destruct (negb (policy_eqb v (r_policy r))); [apply FAIL|].
        destruct asf; [apply FAIL|]. destruct cr; cbn [negb]; [|apply FAIL].
        pose proof (as_extension_spec h r ids allow CS CI (UA eq_refl) OK) as S.
        destruct (handle_asn_extension h r parent ids allow) as [[[h' r'] err]| |]; cbn [bind outcome] in S |- *; auto;
          [|destruct S as [S1 [v' [c' S2]]]; split; [exact S1|left; exact S2]].
        destruct S as [S1 S2]. destruct (err =? 0) eqn:E; cbn [negb]; [|cbn [outcome]; split; auto; lia].
        destruct (S2 ltac:(lia)) as [S3 [S4 [S5 [S6 [S7 S8]]]]].
        eapply outcome_weaken; [intros X; right; exact X|]. apply IH; auto; [|discriminate]. intros X. destruct (UI X) as [[V1 V2] [V3 V4]].
        unfold untouched4, untouched6. rewrite S4, S5, S6, S7. auto.
      + eapply outcome_weaken; [intros X; right; exact X|]. apply IH; auto.
  Qed.

  Lemma fresh_state p f : cstate h0 parent h0 (resources_create p f) /\ cincl h0 parent h0 (resources_create p f).
  Proof.
    split; constructor; cbn [resources_create r_ip4s r_ip6s r_asns]; try (left; auto); apply incl_nil.
  Qed.

  Lemma get_resources_spec p f t exts : Forall extension_ok exts ->
    outcome h0 parent (Exists inherits exts) (certificate_get_resources h0 (resources_create p f) parent t exts) (fun _ _ => True).
  Proof.
    intros OK. unfold certificate_get_resources. destruct (fresh_state p f) as [S1 S2].
    apply extension_loop_spec; auto; repeat split; auto.
  Qed.

  (** The new heap extends the old one and is well formed. *)
  Lemma cstate_heap h r : cstate h0 parent h r ->
    heap_ok h /\ res_ok h r /\
    (exists n4, h4 h = h4 h0 ++ n4) /\ (exists n6, h6 h = h6 h0 ++ n6) /\ (exists na, ha h = ha h0 ++ na).
  Proof.
    intros [C4 C6 CA].
    destruct (fam_state_ext _ _ _ _ _ _ C4 p4 (ok_h4 _ H0) (sm_h4 _ H0)) as [A1 [A2 [A3 A4]]].
    destruct (fam_state_ext _ _ _ _ _ _ C6 p6 (ok_h6 _ H0) (sm_h6 _ H0)) as [B1 [B2 [B3 B4]]].
    destruct (fam_state_ext _ _ _ _ _ _ CA pA (ok_ha _ H0) (sm_ha _ H0)) as [D1 [D2 [D3 D4]]].
    split; [constructor; auto|]. split; [constructor; auto|]. auto.
  Qed.
End Cert.
