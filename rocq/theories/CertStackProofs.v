(** Proofs about the traversal (C39). *)
From Verif Require Import Base CertStack CertStackSpec.
From Coq Require Import Lia Permutation.
Notation length := List.length.

Definition mk d x l n : cstack := {| defers := d; x509s := x; metas := x; log := l; moment := n |}.

Section Traversal.
  Variable E : checks.
  Variable max : nat.

  Lemma accepted_fun n pp u iss a b : accepted E max n pp u iss a -> accepted E max n pp u iss b -> a = b.
  Proof. unfold accepted. intros H K. destruct H as (_&_&_&_&_&_&_&_&_&H), K as (_&_&_&_&_&_&_&_&_&K). congruence. Qed.

  Lemma fold_push pp us : forall s, fold_left (fun s u => deferstack_push s pp u) us s =
    set_stacks s (map (Deferred pp) (rev us) ++ defers s) (x509s s) (metas s).
  Proof.
    induction us as [|u us IH]; intros s; cbn [fold_left rev].
    - destruct s; reflexivity.
    - rewrite IH. unfold deferstack_push, set_stacks. cbn. rewrite map_app, <- app_assoc. reflexivity.
  Qed.

  Lemma trav_step parent u d x l n :
    (exists e, (forall pp, ~ accepted E max n parent u x pp) /\ (parent = None -> e <> 0) /\
      certificate_traverse E max parent u (mk d x l n) = Ok (mk d x (l ++ [Cert parent u x]) (S n), e)) \/
    (exists pp, accepted E max n parent u x pp /\
      certificate_traverse E max parent u (mk d x l n) =
        Ok (mk (map (Deferred pp) (pp_certs pp) ++ Separator :: d) (u :: x)
              (l ++ Cert parent u x :: map (fun r => Roa pp r (u :: x)) (pp_roas pp) ++ map (fun g => Gbr pp g (u :: x)) (pp_gbrs pp)) (S n), 0)).
  Proof.
    assert (R : forall e, (forall pp, ~ accepted E max n parent u x pp) -> (parent = None -> e <> 0) ->
      certificate_traverse E max parent u (mk d x l n) = Ok (mk d x (l ++ [Cert parent u x]) (S n), e) -> 
      (exists e, (forall pp, ~ accepted E max n parent u x pp) /\ (parent = None -> e <> 0) /\
      certificate_traverse E max parent u (mk d x l n) = Ok (mk d x (l ++ [Cert parent u x]) (S n), e))) by (intros e A B C; exists e; auto).
    destruct (max <=? length x)%nat eqn:Hd.
    { left; apply (R (-22)); [|discriminate|unfold certificate_traverse; cbn [moment x509s mk]; rewrite Hd; reflexivity].
      apply Nat.leb_le in Hd. intros pp (H&_). lia. }
    Ltac ev Hd := unfold certificate_traverse; cbn [moment x509s mk]; rewrite Hd; cbn zeta.
    Ltac bad R e := left; apply (R e); [intros pp (_&K1&K2&K3&K4&K5&K6&K7&K8&K9); try congruence|intros _; try lia|].
    destruct (c_crl E n parent u x =? 0) eqn:E1; cbn [negb] in *; [apply Z.eqb_eq in E1|].
    2:{ assert (E1' := E1). apply Z.eqb_neq in E1'. bad R (c_crl E n parent u x). ev Hd. rewrite E1. reflexivity. }
    destruct (c_load E n parent u x =? 0) eqn:E2; cbn [negb] in *; [apply Z.eqb_eq in E2|].
    2:{ assert (E2' := E2). apply Z.eqb_neq in E2'. bad R (c_load E n parent u x). ev Hd. rewrite E1, E2. reflexivity. }
    destruct (c_chain E n parent u x =? 0) eqn:E3; cbn [negb] in *; [apply Z.eqb_eq in E3|].
    2:{ assert (E3' := E3). apply Z.eqb_neq in E3'. bad R (c_chain E n parent u x). ev Hd. rewrite E1, E2, E3. reflexivity. }
    assert (Ht : exists ot, ot = match parent with None => Some CERTYPE_TA | Some _ => c_ctype E n parent u x end) by eauto.
    destruct Ht as [ot Ht].
    destruct ot as [t|].
    2:{ bad R (-22).
        - destruct parent; [|discriminate]. destruct K5 as [[K5 _]|[K5 _]]; congruence.
        - ev Hd. rewrite E1, E2, E3, <- Ht. reflexivity. }
    assert (Hc : match t with CERTYPE_TA | CERTYPE_CA => True | _ => False end \/ (t = CERTYPE_BGPSEC \/ t = CERTYPE_EE)) by (destruct t; auto).
    destruct Hc as [Hc|Hc].
    2:{ left. apply (R 0).
        - intros pp (_&K1&K2&K3&K4&K5&K6). destruct parent; [|destruct Hc; congruence].
          destruct K5 as [[K5 _]|[K5 _]]; destruct Hc; congruence.
        - intros ->. destruct Hc; congruence.
        - ev Hd. rewrite E1, E2, E3, <- Ht. destruct Hc; subst t; reflexivity. }
    assert (Hx : exists e, e = match t with CERTYPE_TA => c_ext_ta E n parent u x | _ => c_ext_ca E n parent u x end) by eauto.
    destruct Hx as [e He].
    assert (Hacc : (match parent with
    | None => c_ext_ta E n parent u x = 0
    | Some _ => (c_ctype E n parent u x = Some CERTYPE_CA /\ c_ext_ca E n parent u x = 0) \/
                (c_ctype E n parent u x = Some CERTYPE_TA /\ c_ext_ta E n parent u x = 0)
    end) <-> e = 0).
    { destruct parent as [p|].
      - destruct t; try contradiction; rewrite He; split; intros K.
        + destruct K as [[K1 K2]|[K1 K2]]; congruence.
        + right. split; congruence.
        + destruct K as [[K1 K2]|[K1 K2]]; congruence.
        + left; split; congruence.
      - injection Ht as ->. rewrite He. reflexivity. }
    assert (Hgo : forall (A : Type) (a b : A), match t with CERTYPE_BGPSEC | CERTYPE_EE => a | CERTYPE_TA | CERTYPE_CA => b end = b) by (intros; destruct t; auto; contradiction).
    assert (Hgoal : forall P : res (cstack * Z) -> Prop, P (
      (let e0 := c_rfc6487 E n parent u x in if negb (e0 =? 0) then Ok (mk d x (l ++ [Cert parent u x]) (S n), e0) else
       if negb (e =? 0) then Ok (mk d x (l ++ [Cert parent u x]) (S n), e) else
          if negb (c_download E n parent u x) then Ok (mk d x (l ++ [Cert parent u x]) (S n), 22) else
          let '(s, e) := x509stack_push E n parent (mk d x (l ++ [Cert parent u x]) (S n)) u in
          if negb (e =? 0) then Ok (s, e) else
          match c_manifest E n parent u (x509s s) with
          | None => bind (x509stack_cancel s) (fun s => Ok (s, -22))
          | Some pp => Ok (rpp_traverse s pp, 0)
          end)) -> P (certificate_traverse E max parent u (mk d x l n))).
    { intros P HP. unfold certificate_traverse. cbn [moment x509s defers metas log mk].
      rewrite Hd, E1, E2, E3. cbn [Z.eqb negb]. rewrite <- Ht.
      destruct t; try contradiction; rewrite <- He; exact HP. }
    clear R. pattern (certificate_traverse E max parent u (mk d x l n)). apply Hgoal. clear Hgoal. cbn zeta.
    assert (R : forall e, (forall pp, ~ accepted E max n parent u x pp) -> (parent = None -> e <> 0) ->
      (exists e', (forall pp, ~ accepted E max n parent u x pp) /\ (parent = None -> e' <> 0) /\
       Ok (mk d x (l ++ [Cert parent u x]) (S n), e) = Ok (mk d x (l ++ [Cert parent u x]) (S n), e'))) by (intros e' A B; exists e'; auto).
    Ltac bad2 R := left; apply R; [intros pp (_&K1&K2&K3&K4&K5&K6&K7&K8&K9); try congruence|intros _; try lia].
    destruct (c_rfc6487 E n parent u x =? 0) eqn:E4; cbn [negb]; [apply Z.eqb_eq in E4|apply Z.eqb_neq in E4; bad2 R].
    destruct (e =? 0) eqn:E5; cbn [negb]; [apply Z.eqb_eq in E5|apply Z.eqb_neq in E5; bad2 R; tauto].
    destruct (c_download E n parent u x) eqn:E6; cbn [negb]; [|bad2 R].
    unfold x509stack_push. cbn [x509s defers metas mk].
    destruct (c_resources E n parent u x =? 0) eqn:E7; cbn [negb]; [apply Z.eqb_eq in E7|].
    2:{ rewrite E7. cbn [negb]. apply Z.eqb_neq in E7. bad2 R. }
    destruct (c_push E n parent u x) eqn:E8; cbn [negb]; [|cbn [Z.eqb negb]; bad2 R].
    cbn [Z.eqb negb set_stacks x509s].
    destruct (c_manifest E n parent u (u :: x)) as [pp|] eqn:E9.
    - right. exists pp. split; [split; [apply Nat.leb_gt, Hd|]; repeat (split; [first [assumption|apply Hacc, E5]|]); assumption|].
      unfold rpp_traverse, cert_traverse. rewrite fold_push, rev_involutive.
      unfold add_log, set_stacks, mk. cbn. rewrite <- !app_assoc. reflexivity.
    - cbn. bad2 R.
  Qed.

  Lemma tal_sep fuel d u x l n : tal_loop E max fuel (mk (Separator :: d) (u :: x) l n) = tal_loop E max fuel (mk d x l n).
  Proof. destruct fuel; reflexivity. Qed.
  Lemma tal_def fuel pp u d x l n : tal_loop E max (S fuel) (mk (Deferred pp u :: d) x l n) =
    match certificate_traverse E max (Some pp) u (mk d x l n) with UB => Some UB | Err e => Some (Err e) | Ok (s, _) => tal_loop E max fuel s end.
  Proof. reflexivity. Qed.

  Lemma loop_walks : forall k us pp iss rest l n, (max - length iss <= k)%nat ->
    exists es n' j, walks E max pp us iss n es n' /\
      forall fuel, tal_loop E max (j + fuel) (mk (map (Deferred pp) us ++ rest) iss l n) = tal_loop E max fuel (mk rest iss (l ++ es) n').
  Proof.
    induction k as [|k IHk]; intros us; induction us as [|u us IHu]; intros pp iss rest l n Hk.
    1,3: exists [], n, O; split; [constructor|]; intros fuel; rewrite app_nil_r; reflexivity.
    - destruct (trav_step (Some pp) u (map (Deferred pp) us ++ rest) iss l n) as [(e&Hn&_&Ht)|(pp'&Ha&_)].
      2:{ destruct Ha as (Ha&_). lia. }
      destruct (IHu pp iss rest (l ++ [Cert (Some pp) u iss]) (S n) Hk) as (es&n'&j&Hw&Hl).
      exists ([Cert (Some pp) u iss] ++ es), n', (S j). split.
      + econstructor; [apply wk_refused; exact Hn|exact Hw].
      + intros fuel. cbn [map app]. change (S j + fuel)%nat with (S (j + fuel)). rewrite tal_def, Ht, Hl, <- app_assoc. reflexivity.
    - destruct (trav_step (Some pp) u (map (Deferred pp) us ++ rest) iss l n) as [(e&Hn&_&Ht)|(pp'&Ha&Ht)].
      + destruct (IHu pp iss rest (l ++ [Cert (Some pp) u iss]) (S n) Hk) as (es&n'&j&Hw&Hl).
        exists ([Cert (Some pp) u iss] ++ es), n', (S j). split.
        * econstructor; [apply wk_refused; exact Hn|exact Hw].
        * intros fuel. cbn [map app]. change (S j + fuel)%nat with (S (j + fuel)). rewrite tal_def, Ht, Hl, <- app_assoc. reflexivity.
      + assert (Hk' : (max - length (u :: iss) <= k)%nat) by (destruct Ha as (Ha&_); cbn; lia).
        set (l1 := l ++ Cert (Some pp) u iss :: map (fun r => Roa pp' r (u :: iss)) (pp_roas pp') ++ map (fun g => Gbr pp' g (u :: iss)) (pp_gbrs pp')) in *.
        destruct (IHk (pp_certs pp') pp' (u :: iss) (Separator :: map (Deferred pp) us ++ rest) l1 (S n) Hk') as (es1&n1&j1&Hw1&Hl1).
        destruct (IHu pp iss rest (l1 ++ es1) n1 Hk) as (es&n'&j&Hw&Hl).
        exists ((Cert (Some pp) u iss :: map (fun r => Roa pp' r (u :: iss)) (pp_roas pp') ++ map (fun g => Gbr pp' g (u :: iss)) (pp_gbrs pp') ++ es1) ++ es), n', (S (j1 + j)).
        split.
        * econstructor; [eapply wk_accepted; eassumption|exact Hw].
        * intros fuel. cbn [map]. change ((Deferred pp u :: map (Deferred pp) us) ++ rest) with (Deferred pp u :: map (Deferred pp) us ++ rest).
          replace (S (j1 + j) + fuel)%nat with (S (j1 + (j + fuel))) by lia.
          rewrite tal_def, Ht, Hl1, tal_sep, Hl. f_equal. unfold l1, mk. f_equal. cbn [app]. rewrite <- !app_assoc. cbn [app]. rewrite <- !app_assoc. reflexivity.
  Qed.

  Lemma tal_empty fuel l n : tal_loop E max (S fuel) (mk [] [] l n) = Some (Ok (mk [] [] l n)).
  Proof. reflexivity. Qed.

  Lemma tal_mono : forall fuel k s r, tal_loop E max fuel s = Some r -> tal_loop E max (fuel + k) s = Some r.
  Proof.
    induction fuel as [|fuel IH]; intros k s r H; [discriminate|]. cbn in *.
    destruct (deferstack_pop s) as [[s1 [[pp u]|]]| |]; auto.
    destruct (certificate_traverse E max (Some pp) u s1) as [[s2 e]| |]; auto.
  Qed.

  Lemma root_walk u : exists es n', walk E max None u [] 0 es n' /\
    ( ((forall pp, ~ accepted E max 0 None u [] pp) /\ forall fuel, exists s, handle_tal_uri E max fuel u = Some (Ok (s, false)) /\ s = mk [] [] es n') \/
      ((exists pp, accepted E max 0 None u [] pp) /\ exists j, forall fuel, handle_tal_uri E max (S j + fuel) u = Some (Ok (mk [] [] es n', true))) ).
  Proof.
    unfold handle_tal_uri. change certstack_create with (mk [] [] [] 0).
    destruct (trav_step None u [] [] [] 0) as [(e&Hn&He&Ht)|(pp&Ha&Ht)]; rewrite Ht.
    - exists [Cert None u []], 1%nat. split; [apply wk_refused, Hn|]. left. split; [exact Hn|]. intros fuel.
      destruct (e =? 0) eqn:Hz; [apply Z.eqb_eq in Hz; exfalso; now apply He|]. eexists. split; reflexivity.
    - set (l1 := [] ++ Cert None u [] :: _ ++ _).
      destruct (loop_walks (max - 1) (pp_certs pp) pp [u] [Separator] l1 1 (le_n _)) as (es&n'&j&Hw&Hl).
      exists (l1 ++ es), n'. split.
      + unfold l1. cbn [app]. rewrite <- app_assoc. eapply wk_accepted; eassumption.
      + right. split; [eauto|]. exists j. intros fuel. cbn [Z.eqb negb].
        replace (S j + fuel)%nat with (j + S fuel)%nat by lia. rewrite Hl, tal_sep, tal_empty. reflexivity.
  Qed.

  Scheme walk_i := Induction for walk Sort Prop with walks_i := Induction for walks Sort Prop.
  Combined Scheme walk_mut from walk_i, walks_i.

  Lemma walk_fun_both :
    (forall pp u iss n es n' (W : walk E max pp u iss n es n'), forall es2 n2, walk E max pp u iss n es2 n2 -> es2 = es /\ n2 = n') /\
    (forall pp us iss n es n' (W : walks E max pp us iss n es n'), forall es2 n2, walks E max pp us iss n es2 n2 -> es2 = es /\ n2 = n').
  Proof.
    apply walk_mut; intros.
    - inversion H; subst; auto. exfalso. eapply n0; eauto.
    - inversion H0; subst; [exfalso; eapply H1; eauto|].
      match goal with A : accepted _ _ _ _ _ _ ?a, B : accepted _ _ _ _ _ _ ?b |- _ => 
        assert (a = b) by (eapply accepted_fun; eauto) end. subst.
      match goal with K : walks _ _ _ _ _ _ ?e ?m |- context [?m] => destruct (H _ _ K) as [-> ->] end. auto.
    - inversion H; auto.
    - inversion H1; subst.
      match goal with K : walk _ _ _ _ _ _ ?e ?m |- _ => destruct (H _ _ K); subst end.
      match goal with K : walks _ _ _ _ _ _ ?e ?m |- _ => destruct (H0 _ _ K); subst end. auto.
  Qed.

  (** [c], under [rest], was found at moment [m] and accepted, with publication point [pp]. *)
  Definition issuer_ok (es : list event) (pp : rpp) (c : uri) (rest : list uri) : Prop :=
    exists ppc m, In (Cert ppc c rest) es /\ accepted E max m ppc c rest pp.

  Definition ev_ok (es : list event) (e : event) : Prop :=
    match e with
    | Cert None _ i => i = []
    | Cert (Some pp) u i => exists c rest, i = c :: rest /\ In u (pp_certs pp) /\ issuer_ok es pp c rest
    | Roa pp u i => exists c rest, i = c :: rest /\ In u (pp_roas pp) /\ issuer_ok es pp c rest
    | Gbr pp u i => exists c rest, i = c :: rest /\ In u (pp_gbrs pp) /\ issuer_ok es pp c rest
    end.

  Lemma issuer_ok_mono es es' pp c rest : incl es es' -> issuer_ok es pp c rest -> issuer_ok es' pp c rest.
  Proof. intros Hi (ppc&m&H&K). exists ppc, m; auto. Qed.
  Lemma ev_ok_mono es es' e : incl es es' -> ev_ok es e -> ev_ok es' e.
  Proof.
    intros Hi. destruct e as [[pp|] u i|pp u i|pp u i]; cbn; auto; intros (c&rest&H1&H2&H3); exists c, rest; eauto using issuer_ok_mono.
  Qed.

  Lemma walk_chain_both :
    (forall pp u iss n es n' (W : walk E max pp u iss n es n'), forall full, incl es full ->
       (match pp with None => iss = [] | Some p => exists c rest, iss = c :: rest /\ In u (pp_certs p) /\ issuer_ok full p c rest end) ->
       Forall (ev_ok full) es) /\
    (forall pp us iss n es n' (W : walks E max pp us iss n es n'), forall full, incl es full -> incl us (pp_certs pp) ->
       (exists c rest, iss = c :: rest /\ issuer_ok full pp c rest) -> Forall (ev_ok full) es).
  Proof.
    apply walk_mut; intros.
    - constructor; [|constructor]. destruct pp; cbn; auto.
    - assert (Hok : issuer_ok full pp' u issuers). { exists pp, n. split; auto. apply H0. left; reflexivity. }
      assert (Hs : forall e, In e es -> In e full). { intros e He. apply H0. right. rewrite !in_app_iff. auto. }
      constructor; [destruct pp; cbn; auto|]. rewrite !Forall_app. repeat split.
      + apply Forall_map, Forall_forall. intros r Hr. cbn. exists u, issuers; auto.
      + apply Forall_map, Forall_forall. intros r Hr. cbn. exists u, issuers; auto.
      + apply H; auto. * apply incl_refl. * exists u, issuers; auto.
    - constructor.
    - apply Forall_app. destruct H3 as (c&rest&->&Hk). split.
      + apply H; [intros e He; apply H1, in_or_app; auto|]. exists c, rest. repeat split; auto. apply H2. left; reflexivity.
      + apply H0; [intros e He; apply H1, in_or_app; auto|intros v Hv; apply H2; right; auto|exists c, rest; auto].
  Qed.

  Lemma walk_depth_both :
    (forall pp u iss n es n' (W : walk E max pp u iss n es n'), (length iss <= max)%nat -> Forall (fun e => length (ev_issuers e) <= max)%nat es) /\
    (forall pp us iss n es n' (W : walks E max pp us iss n es n'), (length iss <= max)%nat -> Forall (fun e => length (ev_issuers e) <= max)%nat es).
  Proof.
    apply walk_mut; intros.
    - constructor; auto.
    - assert (length (u :: issuers) <= max)%nat by (destruct a as (a&_); cbn; lia).
      constructor; auto. rewrite !Forall_app. repeat split; auto; apply Forall_map, Forall_forall; auto.
    - constructor.
    - apply Forall_app; auto.
  Qed.

  Lemma all_kids_app n a b ka kb : all_kids E max n a ka -> all_kids E max (n + length a) b kb -> all_kids E max n (a ++ b) (ka ++ kb).
  Proof.
    intros H. revert b kb. induction H as [n|n c cs k ks Hk Hc IH]; intros b kb Hb; cbn in *.
    - rewrite Nat.add_0_r in Hb. exact Hb.
    - constructor; auto. apply IH. rewrite Nat.add_succ_r in Hb. exact Hb.
  Qed.
  Lemma certs_app a b : certs_of (a ++ b) = certs_of a ++ certs_of b.
  Proof. unfold certs_of. apply flat_map_app. Qed.
  Lemma certs_roa pp i l : certs_of (map (fun r => Roa pp r i) l) = [].
  Proof. induction l; auto. Qed.
  Lemma certs_gbr pp i l : certs_of (map (fun r => Gbr pp r i) l) = [].
  Proof. induction l; auto. Qed.

  Lemma walk_once_both :
    (forall pp u iss n es n' (W : walk E max pp u iss n es n'), exists rest ks, certs_of es = (pp, u, iss) :: rest /\
       n' = (n + length (certs_of es))%nat /\ all_kids E max n (certs_of es) ks /\ Permutation rest (concat ks)) /\
    (forall pp us iss n es n' (W : walks E max pp us iss n es n'), exists ks,
       n' = (n + length (certs_of es))%nat /\ all_kids E max n (certs_of es) ks /\
       Permutation (certs_of es) (map (fun v => (Some pp, v, iss)) us ++ concat ks)).
  Proof.
    apply walk_mut.
    - intros pp u iss n H. exists [], [[]]. cbn. repeat split; auto; try lia.
      constructor; [right; auto|constructor].
    - intros pp u iss n pp' es n' H W (ks&Hn&Hk&Hp).
      assert (Hc : certs_of (Cert pp u iss :: map (fun r => Roa pp' r (u :: iss)) (pp_roas pp') ++ map (fun g => Gbr pp' g (u :: iss)) (pp_gbrs pp') ++ es) = (pp, u, iss) :: certs_of es).
      { cbn. f_equal. change (certs_of (map (fun r => Roa pp' r (u :: iss)) (pp_roas pp') ++ map (fun g => Gbr pp' g (u :: iss)) (pp_gbrs pp') ++ es) = certs_of es).
        rewrite !certs_app, certs_roa, certs_gbr. reflexivity. }
      rewrite Hc. exists (certs_of es), (map (fun v => (Some pp', v, u :: iss)) (pp_certs pp') :: ks). cbn [concat length]. repeat split; auto; [lia|].
      constructor; auto. left. exists pp'. auto.
    - intros pp iss n. exists []. cbn. split; [lia|split; [constructor|constructor]].
    - intros pp u us iss n es n1 es' n' W (rest&ks&Hc&Hn&Hk&Hp) W' (ks'&Hn'&Hk'&Hp').
      exists (ks ++ ks'). rewrite certs_app, app_length. repeat split.
      + lia.
      + apply all_kids_app; auto. rewrite <- Hn. exact Hk'.
      + rewrite Hc, concat_app. cbn [map app]. constructor. rewrite Hp, Hp'.
        rewrite !app_assoc. apply Permutation_app_tail. apply Permutation_app_comm.
  Qed.
End Traversal.
