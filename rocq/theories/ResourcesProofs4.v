(** Proofs about certificate resources, continued: the certificate stack. *)
From Verif Require Import Base BaseLemmas PduWireSpec PduWireProofs Address AddressSpec AddressProofs
  SArray SArraySpec SArrayProofs Asn1 Resources ResourcesSpec ResourcesProofs ResourcesProofs2 ResourcesProofs3.

Definition le_res (h : heap) (r r' : resources) : Prop :=
  included (holds4 h r) (holds4 h r') /\ included (holds6 h r) (holds6 h r') /\ included (holdsA h r) (holdsA h r').

(** Child first: everyone is below everyone after. *)
Definition ordered (h : heap) (stack : list resources) : Prop :=
  forall i j ri rj, (i < j)%nat -> nth_error stack i = Some ri -> nth_error stack j = Some rj -> le_res h ri rj.

Definition ext_of (h h' : heap) : Prop :=
  (exists n4, h4 h' = h4 h ++ n4) /\ (exists n6, h6 h' = h6 h ++ n6) /\ (exists na, ha h' = ha h ++ na).

Lemma content_ext {A} (num : A -> Z * Z) old new p : ptr_ok old p -> content num (old ++ new) p = content num old p.
Proof.
  destruct p as [i|]; cbn [content ptr_ok]; auto. intros L. rewrite nth_error_app1 by lia. reflexivity.
Qed.
Lemma holds_ext h h' r : ext_of h h' -> res_ok h r ->
  holds4 h' r = holds4 h r /\ holds6 h' r = holds6 h r /\ holdsA h' r = holdsA h r.
Proof.
  intros [[n4 E4] [[n6 E6] [na EA]]] [R4 R6 RA]. unfold holds4, holds6, holdsA.
  rewrite E4, E6, EA. split; [|split]; apply content_ext; auto.
Qed.
Lemma res_ok_ext h h' r : ext_of h h' -> res_ok h r -> res_ok h' r.
Proof.
  intros [[n4 E4] [[n6 E6] [na EA]]] [R4 R6 RA].
  assert (P : forall A (old new : list (sarray A)) p, ptr_ok old p -> ptr_ok (old ++ new) p).
  { intros A old new [i|]; cbn; auto. rewrite app_length. lia. }
  constructor; rewrite ?E4, ?E6, ?EA; apply P; auto.
Qed.
Lemma le_res_trans h a b c : le_res h a b -> le_res h b c -> le_res h a c.
Proof.
  intros (A1 & A2 & A3) (B1 & B2 & B3). unfold le_res, included in *. repeat split; auto.
Qed.

Definition stack_ok (s : heap * list resources) : Prop :=
  heap_ok (fst s) /\ Forall (res_ok (fst s)) (snd s) /\ ordered (fst s) (snd s).

Lemma parent_of h stack : Forall (res_ok h) stack -> parent_ok h (peek_resources stack).
Proof. intros F. destruct stack as [|r stack]; cbn; auto. inversion F; auto. Qed.

(** One certificate. *)
Lemma cert_step h parent p f t exts : heap_ok h -> parent_ok h parent -> Forall extension_ok exts ->
  match certificate_get_resources h (resources_create p f) parent t exts with
  | Ok (h', r, err) =>
      heap_ok h' /\ ext_of h h' /\ res_ok h' r /\
      (err = 0 -> match parent with Some pa => le_res h' r pa | None => True end)
  | Err _ => False
  | UB => parent = None /\ Exists inherits exts
  end.
Proof.
  intros HO PO OK. pose proof (get_resources_spec h parent HO PO p f t exts OK) as S.
  destruct (certificate_get_resources h (resources_create p f) parent t exts) as [[[h' r] err]| |];
    cbn [outcome] in S; auto.
  destruct S as [CS CI]. destruct (cstate_heap h parent HO PO h' r CS) as (A1 & A2 & A3).
  split; auto. split; [exact A3|]. split; auto.
  intros Z0. destruct (CI Z0) as [[C4 C6 CA] _]. destruct parent as [pa|]; auto.
  destruct (holds_ext h h' pa A3 PO) as (E1 & E2 & E3).
  cbn [option_map incl_parent] in C4, C6, CA.
  unfold le_res. rewrite E1, E2, E3. repeat split; auto.
Qed.

Lemma ordered_ext h h' stack : ext_of h h' -> Forall (res_ok h) stack -> ordered h stack -> ordered h' stack.
Proof.
  intros E F O i j ri rj L NI NJ. rewrite Forall_forall in F.
  destruct (holds_ext h h' ri E (F _ (nth_error_In _ _ NI))) as (A1 & A2 & A3).
  destruct (holds_ext h h' rj E (F _ (nth_error_In _ _ NJ))) as (B1 & B2 & B3).
  unfold le_res. rewrite A1, A2, A3, B1, B2, B3. exact (O i j ri rj L NI NJ).
Qed.
Lemma ordered_cons h r stack : ordered h stack ->
  match peek_resources stack with Some pa => le_res h r pa | None => True end -> ordered h (r :: stack).
Proof.
  intros O T i j ri rj L NI NJ. destruct i as [|i].
  - cbn in NI. inversion NI; subst ri. destruct j as [|j]; [lia|]. cbn in NJ.
    destruct stack as [|pa stack]; [destruct j; discriminate|]. cbn [peek_resources hd_error] in T.
    destruct j as [|j]; [cbn in NJ; inversion NJ; subst; auto|].
    eapply le_res_trans; [exact T|]. apply (O 0%nat (S j)); auto. lia.
  - destruct j as [|j]; [lia|]. cbn in NI, NJ. apply (O i j); auto. lia.
Qed.
Lemma ordered_tl h stack : ordered h stack -> ordered h (tl stack).
Proof.
  intros O i j ri rj L NI NJ. destruct stack as [|r stack]; [destruct i; discriminate|].
  cbn [tl] in *. apply (O (S i) (S j)); auto. lia.
Qed.

Lemma init_inv h parent p t exts h' r err : init_resources h parent p t exts = Ok (h', r, err) ->
  exists e, certificate_get_resources h (resources_create p false) parent t exts = Ok (h', r, e) /\ (err = 0 -> e = 0).
Proof.
  unfold init_resources. intros H.
  destruct (certificate_get_resources h (resources_create p false) parent t exts) as [[[h1 r1] e]| |]; cbn [bind] in H; try discriminate.
  destruct (negb (e =? 0)) eqn:E; [inversion H; subst; exists err; auto|].
  assert (e = 0) by (destruct (e =? 0) eqn:X; [lia|discriminate]). subst e.
  destruct t; [destruct (resources_empty h1 r1) as [b| |]; cbn [bind] in H; try discriminate| | |];
    inversion H; subst; exists 0; auto.
Qed.

Lemma cell_ok {A} (cells : list (sarray A)) p : ptr_ok cells p -> exists x, cell cells p = Ok x.
Proof.
  destruct p as [i|]; cbn [cell ptr_ok]; [|eexists; eauto]. intros L.
  destruct (nth_error cells i) eqn:E; [eexists; eauto|]. apply nth_error_None in E. lia.
Qed.

Lemma stack_step_spec s o : stack_ok s -> op_ok o ->
  match stack_step s o with
  | Ok s' => stack_ok s'
  | Err _ => False
  | UB => snd s = [] /\ match o with OpPush _ _ exts | OpEE _ _ exts => Exists inherits exts | OpPop => False end
  end.
Proof.
  destruct s as [h stack]. intros (HO & F & O) OK; cbn [fst snd] in *.
  pose proof (parent_of h stack F) as PO.
  assert (UBS : peek_resources stack = None -> stack = []) by (destruct stack; [auto|discriminate]).
  destruct o as [p t exts| |p f exts]; cbn [stack_step op_ok] in *.
  - pose proof (cert_step h (peek_resources stack) p false t exts HO PO OK) as S.
    unfold init_resources.
    destruct (certificate_get_resources h (resources_create p false) (peek_resources stack) t exts)
      as [[[h' r] e]| |]; cbn [bind]; auto; [|destruct S; split; auto].
    destruct S as (S1 & S2 & S3 & S4).
    assert (KEEP : stack_ok (h', stack)).
    { split; auto. cbn [fst snd]. split; [|eapply ordered_ext; eauto].
      eapply Forall_impl; [|exact F]. intros a. apply res_ok_ext; auto. }
    assert (PUSH : e = 0 -> stack_ok (h', r :: stack)).
    { intros Z0. destruct KEEP as (_ & K2 & K3). cbn [fst snd] in *.
      split; [exact S1|]. split; [constructor; auto|]. exact (ordered_cons h' r stack K3 (S4 Z0)). }
    destruct (negb (e =? 0)) eqn:E.
    + cbn [bind]. destruct (e =? 0); [discriminate|auto].
    + assert (e = 0) by (destruct (e =? 0) eqn:X; [lia|discriminate]).
      assert (TA : exists b, resources_empty h' r = Ok b).
      { destruct S3 as [P4 P6 PA]. unfold resources_empty.
        destruct (cell_ok _ _ PA) as [x1 ->], (cell_ok _ _ P4) as [x2 ->], (cell_ok _ _ P6) as [x3 ->].
        cbn [bind]. eexists; reflexivity. }
      destruct TA as [b ->].
      destruct t; cbn [bind]; try (change (0 =? 0) with true; cbv iota; auto).
      destruct b; cbn [E_INVAL Z.eqb]; auto.
  - split; auto. cbn [fst snd]. split; [destruct stack; cbn [tl]; auto; inversion F; auto|apply ordered_tl; auto].
  - pose proof (cert_step h (peek_resources stack) p f CERTYPE_EE exts HO PO OK) as S. unfold ee_resources.
    destruct (certificate_get_resources h (resources_create p f) (peek_resources stack) CERTYPE_EE exts)
      as [[[h' r] e]| |]; cbn [bind]; auto; [|destruct S; split; auto].
    destruct S as (S1 & S2 & S3 & S4). split; auto. cbn [fst snd]. split; [|eapply ordered_ext; eauto].
    eapply Forall_impl; [|exact F]. intros a. apply res_ok_ext; auto.
Qed.

Lemma reachable_ok s : reachable s -> stack_ok s.
Proof.
  induction 1 as [|s o s' R IH OK E].
  - split; [|split].
    + constructor; cbn; constructor.
    + constructor.
    + intros i j ri rj L NI. destruct i; discriminate.
  - pose proof (stack_step_spec s o IH OK) as S. rewrite E in S. exact S.
Qed.
