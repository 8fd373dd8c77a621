(** Proofs about certificate resources, continued: exactly which certificates
    are accepted. *)
From Verif Require Import Base BaseLemmas PduWireSpec PduWireProofs Address AddressSpec AddressProofs
  SArray SArraySpec SArrayProofs Asn1 Resources ResourcesSpec ResourcesProofs ResourcesProofs2 ResourcesProofs3
  ResourcesProofs4 ResourcesAcceptSpec.

(** ** Nobody keeps an empty set: it is a null pointer, or has something in it *)
Definition filled {A} (cells : list (sarray A)) (p : ptr) : Prop :=
  match p with
  | None => True
  | Some i => exists s, nth_error cells i = Some s /\ sa_elems s <> []
  end.
Lemma filled_content {A} (num : A -> Z * Z) cells p : filled cells p -> content num cells p = [] -> p = None.
Proof.
  destruct p as [i|]; cbn [filled content]; auto. intros (s & -> & NE) H. destruct NE.
  destruct (sa_elems s); [auto|discriminate].
Qed.
Lemma filled_ext {A} (old new : list (sarray A)) p : filled old p -> filled (old ++ new) p.
Proof.
  destruct p as [i|]; cbn [filled]; auto. intros (s & N & NE). exists s. split; auto.
  rewrite nth_error_app1; auto. apply nth_error_Some. congruence.
Qed.

Lemma nth_upd {A} (l : list A) i x y : nth_error l i = Some x -> nth_error (upd l i y) i = Some y.
Proof.
  revert i. induction l as [|z l IH]; intros [|i] H; try discriminate; cbn; auto.
Qed.

Lemma gstep_filled {A} (cmp : A -> A -> sacmp) pol parent cells mine d cells' mine' :
  gstep cmp pol parent cells mine d = Ok (cells', mine', 0) -> filled cells mine -> filled cells' mine'.
Proof.
  unfold gstep, add_item. intros H F.
  destruct (match parent with Some pp => ptr_eqb mine pp | None => false end); [inversion H|].
  destruct d as [e| |]; try discriminate.
  destruct (match parent with None => Ok true | Some pp => bind (cell cells pp) (fun s => sarray_contains cmp s e) end)
    as [[|]| |]; cbn [bind negb] in H; try discriminate.
  2: { inversion H; subst; auto. }
  destruct (match mine with None => (cells ++ [sarray_create A], length cells) | Some i => (cells, i) end) as [c i].
  destruct (nth_error c i) as [s|] eqn:N; [|discriminate].
  destruct (sarray_add cmp s e) as [[s' err]| |] eqn:EA; cbn [bind] in H; try discriminate.
  inversion H; subst. cbn [filled]. exists s'. split; [eapply nth_upd; eauto|].
  unfold sarray_add in EA. destruct (compare cmp s e) as [er| |]; cbn [bind] in EA; try discriminate.
  destruct (er =? 0) eqn:E0; cbn [negb] in EA; [|inversion EA; subst; lia].
  destruct (_ <? _) in EA; [|discriminate]. inversion EA; subst. cbn [sa_elems]. destruct (sa_elems s); discriminate.
Qed.
Lemma gloop_filled {A} (cmp : A -> A -> sacmp) pol parent ds : forall cells mine cells' mine',
  item_loop (gstep cmp pol parent) cells mine ds = Ok (cells', mine', 0) -> filled cells mine -> filled cells' mine'.
Proof.
  induction ds as [|d ds IH]; intros cells mine cells' mine' H F; cbn [item_loop] in H.
  { inversion H; subst; auto. }
  destruct (gstep cmp pol parent cells mine d) as [[[c m] e]| |] eqn:E; cbn [bind] in H; try discriminate.
  destruct (e =? 0) eqn:E0; cbn [negb] in H; [|inversion H; subst; discriminate].
  assert (e = 0) by lia; subst e. eapply IH; eauto. eapply gstep_filled; eauto.
Qed.

Record full (h : heap) (r : resources) : Prop := {
  full4 : filled (h4 h) (r_ip4s r); full6 : filled (h6 h) (r_ip6s r); fullA : filled (ha h) (r_asns r) }.
Definition parent_full (h : heap) (parent : option resources) : Prop :=
  match parent with Some pa => full h pa | None => True end.

Lemma full_ext h h' r : ext_of h h' -> full h r -> full h' r.
Proof.
  intros (( n4 & E4) & (n6 & E6) & (na & Ea)) [F4 F6 FA]. constructor; rewrite ?E4, ?E6, ?Ea; apply filled_ext; assumption.
Qed.

Lemma add_ip_filled h r parent f h' r' : resources_add_ip h r parent f = Ok (h', r', 0) ->
  (get_addr_family (f_family f) = 4 -> match parent with Some pa => filled (h4 h) (r_ip4s pa) | None => True end ->
     r_ip4s r = None -> filled (h4 h') (r_ip4s r')) /\
  (get_addr_family (f_family f) <> 4 -> match parent with Some pa => filled (h6 h) (r_ip6s pa) | None => True end ->
     r_ip6s r = None -> filled (h6 h') (r_ip6s r')).
Proof.
  intros H. unfold resources_add_ip in H. cbv zeta in H. set (fam := get_addr_family (f_family f)) in *.
  destruct (fam =? -1); [discriminate|].
  destruct (f_choice f) as [| |l]; [discriminate| |].
  - unfold inherit_aors in H. destruct parent as [pa|]; [|discriminate].
    destruct (fam =? 4) eqn:E; split; intros X; try lia; intros PF N; rewrite N in H; inversion H; subst; exact PF.
  - unfold add_aors in H. destruct (r_force_inherit r); [discriminate|]. destruct l as [|a l]; [discriminate|].
    destruct (fam =? 4) eqn:E; split; intros X; try lia; intros PF N; rewrite N in H.
    + rewrite (item_loop_map r4_cmp (step_aor4 (r_policy r) (option_map r_ip4s parent)) dec4 (r_policy r)
                 (option_map r_ip4s parent)) in H by (intros; apply step_aor4_eq).
      destruct (item_loop _ _ _ _) as [[[c m] e]| |] eqn:L; cbn [bind] in H; try discriminate. inversion H; subst.
      cbn [h4 r_ip4s]. eapply gloop_filled; [exact L|exact Logic.I].
    + rewrite (item_loop_map r6_cmp (step_aor6 (r_policy r) (option_map r_ip6s parent)) dec6 (r_policy r)
                 (option_map r_ip6s parent)) in H by (intros; apply step_aor6_eq).
      destruct (item_loop _ _ _ _) as [[[c m] e]| |] eqn:L; cbn [bind] in H; try discriminate. inversion H; subst.
      cbn [h6 r_ip6s]. eapply gloop_filled; [exact L|exact Logic.I].
Qed.

Lemma asn_filled h r parent ids al h' r' : handle_asn_extension h r parent ids al = Ok (h', r', 0) ->
  match parent with Some pa => filled (ha h) (r_asns pa) | None => True end -> r_asns r = None -> filled (ha h') (r_asns r').
Proof.
  intros H PF N. unfold handle_asn_extension, resources_add_asn in H. destruct ids as [ids|]; [|discriminate].
  destruct (as_num ids) as [c|]; [|discriminate]. destruct (as_rdi ids); [discriminate|].
  destruct c as [| |l]; [discriminate| |].
  - destruct al; [|discriminate]. cbn [negb] in H. unfold inherit_asiors in H. destruct parent as [pa|]; [|discriminate].
    rewrite N in H. inversion H; subst. exact PF.
  - unfold add_asiors in H. destruct (r_force_inherit r); [discriminate|]. destruct l as [|a l]; [discriminate|].
    rewrite N in H.
    rewrite (item_loop_map asn_cmp (step_asior (r_policy r) (option_map r_asns parent)) decode_asior (r_policy r)
                 (option_map r_asns parent)) in H by (intros; apply step_asior_eq).
    destruct (item_loop _ _ _ _) as [[[c m] e]| |] eqn:L; cbn [bind] in H; try discriminate. inversion H; subst.
    cbn [ha r_asns]. eapply gloop_filled; [exact L|exact Logic.I].
Qed.

Lemma ip_ext_filled h r parent bl h' r' : handle_ip_extension h r parent bl = Ok (h', r', 0) ->
  match parent with Some pa => filled (h4 h) (r_ip4s pa) /\ filled (h6 h) (r_ip6s pa) | None => True end ->
  r_ip4s r = None -> r_ip6s r = None -> filled (h4 h') (r_ip4s r') /\ filled (h6 h') (r_ip6s r').
Proof.
  intros H PF N4 N6. unfold handle_ip_extension in H. destruct bl as [[|b1 [|b2 [|b3 l]]]|]; try discriminate.
  - cbn [block_loop] in H.
    destruct (resources_add_ip h r parent b1) as [[[h1 r1] e1]| |] eqn:E; cbn [bind] in H; try discriminate.
    destruct (e1 =? 0) eqn:Z1; cbn [negb] in H; [|inversion H; subst; discriminate].
    inversion H; subst. assert (e1 = 0) by lia; subst e1.
    pose proof (add_ip_frame _ _ _ _ _ _ _ E) as (_ & _ & _ & _ & F4 & F6).
    destruct (add_ip_filled _ _ _ _ _ _ E) as [G4 G6].
    destruct (Z.eq_dec (get_addr_family (f_family b1)) 4) as [X|X].
    + split; [apply G4; auto; destruct parent; tauto|]. destruct (F4 X) as [_ ->]. rewrite N6. exact Logic.I.
    + split; [|apply G6; auto; destruct parent; tauto]. destruct (F6 X) as [_ ->]. rewrite N4. exact Logic.I.
  - destruct (get_addr_family (f_family b1) =? 4) eqn:X1; cbn [negb] in H; [|discriminate].
    destruct (get_addr_family (f_family b2) =? 6) eqn:X2; cbn [negb] in H; [|discriminate].
    cbn [block_loop] in H.
    destruct (resources_add_ip h r parent b1) as [[[h1 r1] e1]| |] eqn:E; cbn [bind] in H; try discriminate.
    destruct (e1 =? 0) eqn:Z1; cbn [negb] in H; [|inversion H; subst; discriminate].
    assert (e1 = 0) by lia; subst e1.
    destruct (resources_add_ip h1 r1 parent b2) as [[[h2 r2] e2]| |] eqn:E'; cbn [bind] in H; try discriminate.
    destruct (e2 =? 0) eqn:Z2; cbn [negb] in H; [|inversion H; subst; discriminate].
    inversion H; subst h2 r2. assert (e2 = 0) by lia; subst e2. clear H.
    pose proof (add_ip_frame _ _ _ _ _ _ _ E) as (_ & _ & _ & _ & F4 & _).
    destruct (F4 ltac:(lia)) as [F5 F6].
    pose proof (add_ip_frame _ _ _ _ _ _ _ E') as (_ & _ & _ & _ & _ & G6).
    destruct (G6 ltac:(lia)) as [G7 G8].
    destruct (add_ip_filled _ _ _ _ _ _ E) as [K4 _]. destruct (add_ip_filled _ _ _ _ _ _ E') as [_ K6].
    split.
    + rewrite G7, G8. apply K4; auto; [lia|destruct parent; tauto].
    + apply K6; [lia|rewrite F5; destruct parent; tauto|congruence].
Qed.

Lemma cert_filled h parent p f t exts h' r : parent_full h parent ->
  certificate_get_resources h (resources_create p f) parent t exts = Ok (h', r, 0) -> full h' r.
Proof.
  intros PF H. unfold certificate_get_resources in H.
  destruct (loop_ip _ _ _ _ _ _ _ _ _ H) as [_ LI]. specialize (LI eq_refl).
  destruct (loop_as _ _ _ _ _ _ _ _ _ H) as [_ LA]. specialize (LA eq_refl).
  cut ((filled (h4 h') (r_ip4s r) /\ filled (h6 h') (r_ip6s r)) /\ filled (ha h') (r_asns r)).
  { intros ((? & ?) & ?). constructor; auto. }
  split.
  - destruct LI as [[S N]|(bl & hA & rA & hB & rB & IN & HH & (S1 & S2 & S3 & S4) & (S5 & S6) & (S7 & S8 & S9 & S10))].
    + destruct S as (_ & _ & S3 & S4). rewrite S3, S4. cbn. auto.
    + rewrite S7, S8, S9, S10. eapply ip_ext_filled; [exact HH| |exact S3|exact S4].
      destruct parent as [pa|]; auto. rewrite S1, S2. destruct PF. auto.
  - destruct LA as [[S N]|(ids & hA & rA & hB & rB & IN & HH & (S1 & S2) & (S5 & S6) & (S7 & S8))].
    + destruct S as (_ & S4). rewrite S4. cbn. auto.
    + rewrite S7, S8. eapply asn_filled; [exact HH| |exact S2].
      destruct parent as [pa|]; auto. rewrite S1. destruct PF. auto.
Qed.

Lemma reachable_full s : reachable s -> Forall (full (fst s)) (snd s).
Proof.
  induction 1 as [|s o s' R IH OK E]; [constructor|].
  destruct (reachable_ok _ R) as (HO & F & O). destruct s as [h stack]. cbn [fst snd] in *.
  pose proof (parent_of h stack F) as PO.
  assert (PF : parent_full h (peek_resources stack)) by (destruct stack; cbn; auto; inversion IH; auto).
  assert (KEEP : forall h', ext_of h h' -> Forall (full h') stack).
  { intros h' X. eapply Forall_impl; [|exact IH]. intros r. apply full_ext; assumption. }
  destruct o as [p t exts| |p f exts]; cbn [stack_step op_ok] in *.
  - destruct (init_resources h (peek_resources stack) p t exts) as [[[h' r] e]| |] eqn:EI; cbn [bind] in E; try discriminate.
    destruct (init_inv _ _ _ _ _ _ _ _ EI) as (e' & EC & EE).
    pose proof (cert_step h (peek_resources stack) p false t exts HO PO OK) as S. rewrite EC in S.
    destruct S as (_ & S2 & _). inversion E; subst. cbn [fst snd]. destruct (e =? 0) eqn:E0; [|auto].
    assert (e = 0) by lia. rewrite (EE H) in EC. constructor; [|auto]. eapply cert_filled; eauto.
  - inversion E; subst. cbn [fst snd]. destruct stack; cbn [tl]; auto. inversion IH; auto.
  - pose proof (cert_step h (peek_resources stack) p f CERTYPE_EE exts HO PO OK) as S. unfold ee_resources in E.
    destruct (certificate_get_resources h (resources_create p f) (peek_resources stack) CERTYPE_EE exts)
      as [[[h' r] e]| |]; cbn [bind] in E; try discriminate.
    inversion E; subst. cbn [fst snd]. apply KEEP. apply S.
Qed.
