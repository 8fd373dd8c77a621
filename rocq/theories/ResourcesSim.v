(** Certificate resources don't depend on what else there is in the heap: two
    heaps, in which the parents have the same content, lead to the same. *)
From Verif Require Import Base BaseLemmas PduWireSpec Address AddressSpec SArray SArraySpec Asn1 Types DbTable Vrps VrpsSpec VrpsProofs Resources ResourcesSpec
  ResourcesProofs ResourcesProofs2 ResourcesProofs3 ResourcesProofs4 Roa.

(** The same outcome, as far as [R] tells. *)
Definition both {A B} (R : A -> B -> Prop) (x : res A) (y : res B) : Prop :=
  match x, y with
  | Ok a, Ok b => R a b
  | Err _, Err _ => True
  | UB, UB => True
  | _, _ => False
  end.
Lemma both_bind {A B A' B'} (R : A -> B -> Prop) (R' : A' -> B' -> Prop) x y f g : both R x y -> (forall a b, R a b -> both R' (f a) (g b)) -> both R' (bind x f) (bind y g).
Proof. intros H K. destruct x, y; cbn in *; auto; contradiction. Qed.
Lemma both_eq {A} (x y : res A) : x = y -> both eq x y.
Proof. intros ->. destruct y; cbn; auto. Qed.

Section Sim.
  (** *** One of the three sets *)
  Definition sim1 {A} (parent : option ptr) (cells : list (sarray A)) (mine : ptr) (parent' : option ptr) (cells' : list (sarray A)) (mine' : ptr) : Prop :=
    ptr_ok cells mine /\ ptr_ok cells' mine' /\ cell cells mine = cell cells' mine' /\
    match parent, parent' with
    | None, None => True
    | Some p, Some p' => ptr_ok cells p /\ ptr_ok cells' p' /\ cell cells p = cell cells' p' /\ ptr_eqb mine p = ptr_eqb mine' p'
    | _, _ => False
    end.
  Definition out1 {A} parent parent' (x : list (sarray A) * ptr * Z) (y : list (sarray A) * ptr * Z) : Prop :=
    let '(c, m, e) := x in let '(c', m', e') := y in sim1 parent c m parent' c' m' /\ e = e'.

  Lemma cell_none {A} (cells cells' : list (sarray A)) p p' : cell cells p = cell cells' p' -> ptr_ok cells p -> ptr_ok cells' p' -> (p = None <-> p' = None).
  Proof.
    unfold cell, ptr_ok. destruct p as [i|], p' as [j|]; intros H K K'; split; intros E; try discriminate; try reflexivity.
    - destruct (nth_error cells i) eqn:N; [discriminate H|apply nth_error_None in N; lia].
    - destruct (nth_error cells' j) eqn:N; [discriminate H|apply nth_error_None in N; lia].
  Qed.
  Lemma cell_app {A} (cells more : list (sarray A)) p : ptr_ok cells p -> cell (cells ++ more) p = cell cells p.
  Proof. unfold cell, ptr_ok. destruct p; [|reflexivity]. intros H. rewrite nth_error_app1 by lia. reflexivity. Qed.
  Lemma nth_upd_same {A} (l : list A) i x : (i < length l)%nat -> nth_error (upd l i x) i = Some x.
  Proof. revert i. induction l as [|a l IH]; intros i H; [cbn in H; lia|]. destruct i; cbn in *; [reflexivity|apply IH; lia]. Qed.
  Lemma nth_upd_other {A} (l : list A) i j x : i <> j -> nth_error (upd l i x) j = nth_error l j.
  Proof. revert i j. induction l as [|a l IH]; intros i j H; [destruct i; reflexivity|]. destruct i, j; cbn; try reflexivity; [congruence|apply IH; congruence]. Qed.
  Lemma length_upd {A} (l : list A) i x : length (upd l i x) = length l.
  Proof. revert i. induction l as [|a l IH]; intros i; destruct i; cbn; auto. Qed.
  Lemma cell_upd {A} (cells : list (sarray A)) i s p : ptr_eqb (Some i) p = false -> cell (upd cells i s) p = cell cells p.
  Proof. unfold cell, ptr_eqb. destruct p as [j|]; [|reflexivity]. intros H. apply Nat.eqb_neq in H. rewrite nth_upd_other by exact H. reflexivity. Qed.
  Lemma ptr_upd {A} (cells : list (sarray A)) i s p : ptr_ok (upd cells i s) p <-> ptr_ok cells p.
  Proof. unfold ptr_ok. destruct p; [rewrite length_upd|]; tauto. Qed.

  Lemma add_item_sim {A E} (add : sarray A -> E -> res (sarray A * Z)) contains pol parent cells mine parent' cells' mine' (decoded : res E) :
    sim1 parent cells mine parent' cells' mine' ->
    both (out1 parent parent') (add_item add contains pol parent cells mine decoded) (add_item add contains pol parent' cells' mine' decoded).
  Proof.
    intros H. pose proof H as H0. destruct H as (M & M' & Em & Hp). unfold add_item.
    assert (Eq : match parent with Some pp => ptr_eqb mine pp | None => false end = match parent' with Some pp => ptr_eqb mine' pp | None => false end).
    { destruct parent, parent'; try contradiction; [apply Hp|reflexivity]. }
    rewrite <- Eq. destruct (match parent with Some pp => ptr_eqb mine pp | None => false end) eqn:Q; [cbn; auto|].
    destruct decoded as [e| |]; cbn [both]; auto; [|cbn; auto].
    eapply both_bind with (R := eq).
    { destruct parent as [p|], parent' as [p'|]; try contradiction; [|reflexivity]. destruct Hp as (_ & _ & -> & _). apply both_eq. reflexivity. }
    intros b ? <-. destruct (negb b); [cbn; auto|].
    pose proof (cell_none _ _ _ _ Em M M') as Nn.
    destruct mine as [i|], mine' as [i'|]; [|destruct Nn as [_ Nn]; discriminate (Nn eq_refl)|destruct Nn as [Nn _]; discriminate (Nn eq_refl)|].
    - cbn [ptr_ok] in M, M'. unfold cell in Em. destruct (nth_error cells i) as [s|] eqn:N; [|apply nth_error_None in N; lia].
      destruct (nth_error cells' i') as [s'|] eqn:N'; [|apply nth_error_None in N'; lia]. injection Em as <-.
      destruct (add s e) as [[s1 err]| |]; cbn [bind both]; auto. cbn [out1]. split; [|reflexivity].
      unfold sim1. rewrite !ptr_upd. split; [exact M|]. split; [exact M'|]. split.
      { unfold cell. rewrite !nth_upd_same by assumption. reflexivity. }
      destruct parent as [p|], parent' as [p'|]; try contradiction; auto. rewrite !ptr_upd. destruct Hp as (P & P' & Ep & Eb). rewrite Q in Eb.
      split; [exact P|]. split; [exact P'|]. split; [|rewrite Q; exact Eb]. rewrite !cell_upd by (symmetry in Eb; assumption). exact Ep.
    - assert (X : nth_error (cells ++ [sarray_create A]) (length cells) = Some (sarray_create A)) by (rewrite nth_error_app2, Nat.sub_diag by lia; reflexivity).
      assert (X' : nth_error (cells' ++ [sarray_create A]) (length cells') = Some (sarray_create A)) by (rewrite nth_error_app2, Nat.sub_diag by lia; reflexivity).
      rewrite X, X'. destruct (add (sarray_create A) e) as [[s1 err]| |]; cbn [bind both]; auto. cbn [out1]. split; [|reflexivity].
      unfold sim1. rewrite !ptr_upd. cbn [ptr_ok]. rewrite !app_length. cbn [length]. split; [lia|]. split; [lia|]. split.
      { unfold cell. rewrite !nth_upd_same by (rewrite app_length; cbn; lia). reflexivity. }
      destruct parent as [p|], parent' as [p'|]; try contradiction; auto. rewrite !ptr_upd. destruct Hp as (P & P' & Ep & Eb).
      assert (L : forall (c : list (sarray A)) q, ptr_ok c q -> ptr_eqb (Some (length c)) q = false /\ ptr_ok (c ++ [sarray_create A]) q).
      { intros c [j|] K; [|split; [reflexivity|exact I]]. unfold ptr_ok in *. cbn [ptr_eqb]. split; [apply Nat.eqb_neq; lia|rewrite app_length; lia]. }
      destruct (L _ _ P) as (L1 & L2), (L _ _ P') as (L1' & L2'). split; [exact L2|]. split; [exact L2'|]. split; [|congruence].
      rewrite !cell_upd by assumption. rewrite !cell_app by assumption. exact Ep.
  Qed.
  Lemma item_loop_sim {A I} (step step' : list (sarray A) -> ptr -> I -> res (list (sarray A) * ptr * Z)) parent parent' :
    (forall cells mine cells' mine' it, sim1 parent cells mine parent' cells' mine' -> both (out1 parent parent') (step cells mine it) (step' cells' mine' it)) ->
    forall items cells mine cells' mine', sim1 parent cells mine parent' cells' mine' ->
    both (out1 parent parent') (item_loop step cells mine items) (item_loop step' cells' mine' items).
  Proof.
    intros HS. induction items as [|it items IH]; intros cells mine cells' mine' H; cbn [item_loop]; [cbn; auto|].
    eapply both_bind; [apply HS; exact H|]. intros [[c m] e] [[c' m'] e'] (H' & <-). destruct (negb (e =? 0)); [cbn; auto|apply IH; exact H'].
  Qed.

  (** *** All three *)
  Definition sim (pa : option resources) (h : heap) (r : resources) (pa' : option resources) (h' : heap) (r' : resources) : Prop :=
    sim1 (option_map r_ip4s pa) (h4 h) (r_ip4s r) (option_map r_ip4s pa') (h4 h') (r_ip4s r') /\
    sim1 (option_map r_ip6s pa) (h6 h) (r_ip6s r) (option_map r_ip6s pa') (h6 h') (r_ip6s r') /\
    sim1 (option_map r_asns pa) (ha h) (r_asns r) (option_map r_asns pa') (ha h') (r_asns r') /\
    r_policy r = r_policy r' /\ r_force_inherit r = r_force_inherit r'.
  Definition out pa pa' (x y : heap * resources * Z) : Prop :=
    let '(h, r, e) := x in let '(h', r', e') := y in sim pa h r pa' h' r' /\ e = e'.

  Context (pa pa' : option resources).
  Notation both' := (both (out pa pa')).
  Notation like h r h' r' := (sim pa h r pa' h' r').

  Lemma inherit1 {A} (f : resources -> ptr) (cells cells' : list (sarray A)) p p' :
    sim1 (Some p) cells None (Some p') cells' None -> sim1 (Some p) cells p (Some p') cells' p'.
  Proof.
    intros (_ & _ & _ & P & P' & Ep & _). unfold sim1. split; [exact P|]. split; [exact P'|]. split; [exact Ep|]. split; [exact P|]. split; [exact P'|]. split; [exact Ep|].
    assert (R : forall q, ptr_eqb q q = true) by (intros [i|]; cbn; [apply Nat.eqb_refl|reflexivity]). rewrite !R. reflexivity.
  Qed.

  Lemma add_aors_sim h r h' r' fam l : like h r h' r' -> both' (add_aors h r pa fam l) (add_aors h' r' pa' fam l).
  Proof.
    intros H. pose proof H as (S4 & S6 & SA & Ep & Ef). unfold add_aors. rewrite <- Ef, <- Ep. destruct (r_force_inherit r); [cbn; auto|].
    destruct l as [|a l]; [cbn; auto|]. destruct (fam =? 4).
    - eapply both_bind; [apply (item_loop_sim _ (step_aor4 (r_policy r) (option_map r_ip4s pa')) (option_map r_ip4s pa) (option_map r_ip4s pa')); [|exact S4]|].
      + intros cells mine cells' mine' it K. destruct it; cbn [step_aor4]; [apply add_item_sim; exact K..|cbn; auto].
      + intros [[c m] e] [[c' m'] e'] (K & <-). cbn. unfold sim. cbn. auto 10.
    - eapply both_bind; [apply (item_loop_sim _ (step_aor6 (r_policy r) (option_map r_ip6s pa')) (option_map r_ip6s pa) (option_map r_ip6s pa')); [|exact S6]|].
      + intros cells mine cells' mine' it K. destruct it; cbn [step_aor6]; [apply add_item_sim; exact K..|cbn; auto].
      + intros [[c m] e] [[c' m'] e'] (K & <-). cbn. unfold sim. cbn. auto 10.
  Qed.
  Lemma none_status {A} parent cells mine parent' (cells' : list (sarray A)) mine' : sim1 parent cells mine parent' cells' mine' -> (mine = None <-> mine' = None).
  Proof. intros (M & M' & E & _). eapply cell_none; eassumption. Qed.
  Lemma inherit_aors_sim h r h' r' fam : like h r h' r' -> both' (inherit_aors h r pa fam) (inherit_aors h' r' pa' fam).
  Proof.
    intros H. pose proof H as (S4 & S6 & SA & Ep & Ef). unfold inherit_aors.
    destruct pa as [p|], pa' as [p'|]; cbn [both]; auto; try (destruct S4 as (_ & _ & _ & []); fail).
    destruct (fam =? 4).
    - pose proof (none_status _ _ _ _ _ _ S4) as N. destruct (r_ip4s r) eqn:E, (r_ip4s r') eqn:E'; try (destruct N as [N1 N2]; (discriminate (N1 eq_refl) || discriminate (N2 eq_refl))).
      + cbn. auto.
      + cbn. unfold sim. cbn. split; [|reflexivity]. split; [exact (inherit1 r_ip4s _ _ _ _ S4)|auto].
    - pose proof (none_status _ _ _ _ _ _ S6) as N. destruct (r_ip6s r) eqn:E, (r_ip6s r') eqn:E'; try (destruct N as [N1 N2]; (discriminate (N1 eq_refl) || discriminate (N2 eq_refl))).
      + cbn. auto.
      + cbn. unfold sim. cbn. split; [|reflexivity]. split; [exact S4|]. split; [exact (inherit1 r_ip6s _ _ _ _ S6)|auto].
  Qed.
  Lemma add_ip_sim h r h' r' b : like h r h' r' -> both' (resources_add_ip h r pa b) (resources_add_ip h' r' pa' b).
  Proof.
    intros H. unfold resources_add_ip. destruct (_ =? -1); [cbn; auto|]. destruct (f_choice b); [cbn; auto|apply inherit_aors_sim; exact H|apply add_aors_sim; exact H].
  Qed.
  Lemma block_loop_sim l : forall h r h' r', like h r h' r' -> both' (block_loop h r pa l) (block_loop h' r' pa' l).
  Proof.
    induction l as [|b l IH]; intros h r h' r' H; cbn [block_loop]; [cbn; auto|].
    eapply both_bind; [apply add_ip_sim; exact H|]. intros [[c m] e] [[c' m'] e'] (K & <-). destruct (negb (e =? 0)); [cbn; auto|apply IH; exact K].
  Qed.
  Lemma ip_extension_sim h r h' r' bl : like h r h' r' -> both' (handle_ip_extension h r pa bl) (handle_ip_extension h' r' pa' bl).
  Proof.
    intros H. unfold handle_ip_extension. destruct bl as [[|b1 [|b2 [|b3 l]]]|]; try (cbn; auto; fail); [apply block_loop_sim; exact H|].
    destruct (negb _); [cbn; auto|]. destruct (negb _); [cbn; auto|]. apply block_loop_sim; exact H.
  Qed.
  Lemma asn_extension_sim h r h' r' ids al : like h r h' r' -> both' (handle_asn_extension h r pa ids al) (handle_asn_extension h' r' pa' ids al).
  Proof.
    intros H. unfold handle_asn_extension, resources_add_asn. destruct ids as [ids|]; [|cbn; auto]. destruct (as_num ids) as [c|]; [|cbn; auto].
    destruct (as_rdi ids); [cbn; auto|]. pose proof H as (S4 & S6 & SA & Ep & Ef). destruct c as [| |l]; [cbn; auto| |].
    - destruct (negb al); [cbn; auto|]. unfold inherit_asiors.
      destruct pa as [p|], pa' as [p'|]; cbn [both]; auto; try (destruct S4 as (_ & _ & _ & []); fail).
      pose proof (none_status _ _ _ _ _ _ SA) as N. destruct (r_asns r) eqn:E, (r_asns r') eqn:E'; try (destruct N as [N1 N2]; (discriminate (N1 eq_refl) || discriminate (N2 eq_refl))).
      + cbn. auto.
      + cbn. unfold sim. cbn. split; [|reflexivity]. split; [exact S4|]. split; [exact S6|]. split; [exact (inherit1 r_asns _ _ _ _ SA)|auto].
    - unfold add_asiors. rewrite <- Ef, <- Ep. destruct (r_force_inherit r); [cbn; auto|]. destruct l as [|a l]; [cbn; auto|].
      eapply both_bind; [apply (item_loop_sim _ (step_asior (r_policy r) (option_map r_asns pa')) (option_map r_asns pa) (option_map r_asns pa')); [|exact SA]|].
      + intros cells mine cells' mine' it K. unfold step_asior. apply add_item_sim; exact K.
      + intros [[c m] e] [[c' m'] e'] (K & <-). cbn. unfold sim. cbn. auto 10.
  Qed.
  Lemma extension_loop_sim al l : forall h r h' r' i a, like h r h' r' -> both' (extension_loop h r pa al i a l) (extension_loop h' r' pa' al i a l).
  Proof.
    induction l as [|x l IH]; intros h r h' r' i a H; cbn [extension_loop]; [cbn; auto|].
    pose proof H as (_ & _ & _ & Ep & _). destruct x as [v c bl|v c ids|]; [| |apply IH; exact H]; rewrite <- Ep.
    - destruct (negb _); [cbn; auto|]. destruct i; [cbn; auto|]. destruct (negb c); [cbn; auto|].
      eapply both_bind; [apply ip_extension_sim; exact H|]. intros [[c1 m] e] [[c' m'] e'] (K & <-). destruct (negb (e =? 0)); [cbn; auto|apply IH; exact K].
    - destruct (negb _); [cbn; auto|]. destruct a; [cbn; auto|]. destruct (negb c); [cbn; auto|].
      eapply both_bind; [apply asn_extension_sim; exact H|]. intros [[c1 m] e] [[c' m'] e'] (K & <-). destruct (negb (e =? 0)); [cbn; auto|apply IH; exact K].
  Qed.
End Sim.

(** *** Two certificates with the same resources *)
Definition same (h : heap) (r : resources) (h' : heap) (r' : resources) : Prop :=
  cell (h4 h) (r_ip4s r) = cell (h4 h') (r_ip4s r') /\ cell (h6 h) (r_ip6s r) = cell (h6 h') (r_ip6s r') /\ cell (ha h) (r_asns r) = cell (ha h') (r_asns r').
Definition same_top (h : heap) (pa : option resources) (h' : heap) (pa' : option resources) : Prop :=
  match pa, pa' with None, None => True | Some r, Some r' => same h r h' r' | _, _ => False end.
Definition outcome2 (x y : heap * resources * Z) : Prop :=
  let '(h, r, e) := x in let '(h', r', e') := y in same h r h' r' /\ e = e'.

Lemma same_ext h1 r1 h2 r2 h1' h2' : ext_of h1 h1' -> ext_of h2 h2' -> res_ok h1 r1 -> res_ok h2 r2 -> same h1 r1 h2 r2 -> same h1' r1 h2' r2.
Proof.
  intros ((x4 & A) & (x6 & B) & (xa & C)) ((y4 & A') & (y6 & B') & (ya & C')) [P4 P6 PA] [P4' P6' PA'] (S4 & S6 & SA). unfold same.
  rewrite A, B, C, A', B', C'.
  split; [exact (eq_trans (cell_app _ x4 _ P4) (eq_trans S4 (eq_sym (cell_app _ y4 _ P4'))))|].
  split; [exact (eq_trans (cell_app _ x6 _ P6) (eq_trans S6 (eq_sym (cell_app _ y6 _ P6'))))|].
  exact (eq_trans (cell_app _ xa _ PA) (eq_trans SA (eq_sym (cell_app _ ya _ PA')))).
Qed.

Lemma get_resources_sim h pa h' pa' p f t exts : parent_ok h pa -> parent_ok h' pa' -> same_top h pa h' pa' ->
  both outcome2 (certificate_get_resources h (resources_create p f) pa t exts) (certificate_get_resources h' (resources_create p f) pa' t exts).
Proof.
  intros P P' HS. unfold certificate_get_resources.
  assert (H : sim pa h (resources_create p f) pa' h' (resources_create p f)).
  { unfold sim, sim1. cbn. unfold same_top, parent_ok in *. destruct pa as [r|], pa' as [r'|]; try contradiction; cbn [option_map]; [|auto 20].
    destruct HS as (S4 & S6 & SA). destruct P as [P4 P6 PA], P' as [P4' P6' PA'].
    assert (E : forall A (c c' : list (sarray A)) q q', cell c q = cell c' q' -> ptr_ok c q -> ptr_ok c' q' -> match q with Some _ => false | None => true end = match q' with Some _ => false | None => true end).
    { intros A c c' q q' K K1 K2. pose proof (cell_none _ _ _ _ K K1 K2) as (N1 & N2). destruct q, q'; auto; [discriminate (N2 eq_refl)|discriminate (N1 eq_refl)]. }
    repeat split; auto; eapply E; eassumption. }
  pose proof (extension_loop_sim pa pa' (match t with CERTYPE_BGPSEC => false | _ => true end) exts h _ h' _ false false H) as K.
  destruct (extension_loop h _ pa _ _ _ _) as [[[h1 r1] e1]| |], (extension_loop h' _ pa' _ _ _ _) as [[[h2 r2] e2]| |]; cbn in *; auto.
  destruct K as (((_ & _ & K4 & _) & (_ & _ & K6 & _) & (_ & _ & KA & _) & _) & Ke). unfold same. auto.
Qed.
Lemma init_resources_sim h pa h' pa' p t exts : parent_ok h pa -> parent_ok h' pa' -> same_top h pa h' pa' ->
  both outcome2 (init_resources h pa p t exts) (init_resources h' pa' p t exts).
Proof.
  intros P P' HS. unfold init_resources. eapply both_bind; [apply get_resources_sim; eassumption|].
  intros [[h1 r1] e1] [[h2 r2] e2] (K & <-). destruct (negb (e1 =? 0)); [cbn; auto|]. destruct t; [|cbn; auto..].
  pose proof K as (K4 & K6 & KA). unfold resources_empty. rewrite KA, K4, K6.
  eapply both_bind with (R := eq); [apply both_eq; reflexivity|]. intros e ? <-. cbn. auto.
Qed.

(** *** What a ROA adds to a table *)
Definition adding (db db' : db_table) (db2 db2' : db_table) : Prop :=
  exists A : vrp -> Prop, (forall v, roas_of db' v <-> roas_of db v \/ A v) /\ (forall v, roas_of db2' v <-> roas_of db2 v \/ A v).
Lemma adding_none db db2 : adding db db db2 db2.
Proof. exists (fun _ => False). tauto. Qed.
Lemma adding_trans a b c a2 b2 c2 : adding a b a2 b2 -> adding b c b2 c2 -> adding a c a2 c2.
Proof. intros (A & H1 & H2) (B & K1 & K2). exists (fun v => A v \/ B v). split; intros v; [rewrite K1, H1|rewrite K2, H2]; tauto. Qed.
Lemma adding_one db db2 v : adding db (add_roa db v) db2 (add_roa db2 v).
Proof.
  assert (E : forall d w, roas_of (add_roa d v) w <-> roas_of d w \/ w = v).
  { intros d w. unfold roas_of, add_roa. cbn [t_roas]. rewrite (hs_add_In vrp_equals vrp_equals_eq). tauto. }
  exists (fun w => w = v). split; intros w; apply E.
Qed.
Definition roa_out (db db2 : db_table) (x y : db_table * Z) : Prop := adding db (fst x) db2 (fst y) /\ snd x = snd y.

Lemma roa_addr_sim h r h' r' db db2 asn fam a : same h r h' r' -> both (roa_out db db2) (handle_roa_addr h r db asn fam a) (handle_roa_addr h' r' db2 asn fam a).
Proof.
  intros (S4 & S6 & _). unfold handle_roa_addr, handle_roa_v4, handle_roa_v6, resources_contains_ipv4, resources_contains_ipv6. rewrite <- S4, <- S6.
  assert (N : roa_out db db2 (db, E_INVAL) (db2, E_INVAL)) by (split; [apply adding_none|reflexivity]).
  destruct (fam =? 1).
  - destruct (prefix4_decode (ra_address a)) as [[addr len]| |]; cbn [both]; auto. destruct (max_length_of 32 len (ra_max a)); cbn [both]; auto.
    eapply both_bind with (R := eq); [apply both_eq; reflexivity|]. intros b ? <-. destruct (negb b); cbn [both]; auto.
    split; cbn [fst snd]; [|reflexivity]. apply adding_one.
  - destruct (fam =? 2); [|cbn [both]; auto].
    destruct (prefix6_decode (ra_address a)) as [[addr len]| |]; cbn [both]; auto. destruct (max_length_of 128 len (ra_max a)); cbn [both]; auto.
    eapply both_bind with (R := eq); [apply both_eq; reflexivity|]. intros b ? <-. destruct (negb b); cbn [both]; auto.
    split; cbn [fst snd]; [|reflexivity]. apply adding_one.
Qed.
Lemma addr_loop_sim h r h' r' asn fam : same h r h' r' -> forall l db db2, both (roa_out db db2) (addr_loop h r db asn fam l) (addr_loop h' r' db2 asn fam l).
Proof.
  intros HS. induction l as [|a l IH]; intros db db2; cbn [addr_loop]; [split; [apply adding_none|reflexivity]|].
  eapply both_bind; [apply roa_addr_sim; exact HS|]. intros [d e] [d2 e2] (K & E). cbn in K, E. subst e2. destruct (negb (e =? 0)); [cbn [both]; split; auto|].
  pose proof (IH d d2) as Q. destruct (addr_loop h r d asn fam l) as [[d' e']| |], (addr_loop h' r' d2 asn fam l) as [[d2' e2']| |]; cbn [both] in *; auto.
  destruct Q as (Q & Qe). split; [eapply adding_trans; eassumption|exact Qe].
Qed.
Lemma block_sim h r h' r' asn : same h r h' r' -> forall l db db2, both (roa_out db db2) (roa_block_loop h r db asn l) (roa_block_loop h' r' db2 asn l).
Proof.
  intros HS. induction l as [|b l IH]; intros db db2; cbn [roa_block_loop]; [split; [apply adding_none|reflexivity]|].
  assert (N : forall e, roa_out db db2 (db, e) (db2, e)) by (intros e; split; [apply adding_none|reflexivity]).
  destruct b as [b|]; [|apply N]. destruct (rb_family b) as [|f0 [|f1 [|? ?]]]; try apply N. destruct (negb (f0 =? 0)); [apply N|]. destruct (_ && _); [apply N|].
  destruct (rb_addresses b) as [addrs|]; [|apply N].
  eapply both_bind; [apply addr_loop_sim; exact HS|]. intros [d e] [d2 e2] (K & E). cbn in K, E. subst e2. destruct (negb (e =? 0)); [cbn [both]; split; auto|].
  pose proof (IH d d2) as Q. destruct (roa_block_loop h r d asn l) as [[d' e']| |], (roa_block_loop h' r' d2 asn l) as [[d2' e2']| |]; cbn [both] in *; auto.
  destruct Q as (Q & Qe). split; [eapply adding_trans; eassumption|exact Qe].
Qed.
Lemma handle_roa_sim h r h' r' roa db db2 : same h r h' r' -> both (roa_out db db2) (handle_roa h r db roa) (handle_roa h' r' db2 roa).
Proof.
  intros HS. unfold handle_roa. cbn zeta. assert (N : roa_out db db2 (db, E_INVAL) (db2, E_INVAL)) by (split; [apply adding_none|reflexivity]).
  destruct (negb _); [exact N|]. destruct (asn_INTEGER2ulong (roa_asid roa)) as [asn|]; [|exact N]. destruct (UINT_MAX <? asn); [exact N|].
  destruct (roa_blocks roa) as [bl|]; [|exact N]. apply block_sim; exact HS.
Qed.
