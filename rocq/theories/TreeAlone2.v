(** C77, continued: ROAs, certificates, and the whole tree. *)
From Coq Require Import String Permutation.
From Verif Require Import Base BaseLemmas CString Types DbTable Vrps VrpsSpec PathBuilder PathSpec PathProps Manifest ManifestSpec ManifestProofs ManifestProps SArray Asn1 Oid
  Resources ResourcesSpec ResourcesProofs2 ResourcesProofs4 ResourcesProps ResourcesSim Roa Objects CertBytes CertBytesProps
  SignedData SignedDataSpec Extensions ExtensionsSpec ExtensionsProps CertProfile CertProfileProps Tree TreeSpec TreeProofs TreeTotal TreeCrash TreeAloneSpec TreeAlone.
From Verif Require CertStack.
Notation length := List.length.

Section Alone.
  Context (W : world) (S : sane W) (Q : still W).

  (** *** ROAs *)
  Lemma roa_sim n m h1 h2 s1 s2 p1 p2 u db1 db2 : reachable (h1, map me_resources s1) -> reachable (h2, map me_resources s2) -> stacks h1 h2 s1 s2 -> pps p1 p2 ->
    both (fun x y => adding db1 (snd (fst x)) db2 (snd (fst y))) (Tree.roa_traverse W n s1 p1 u h1 db1) (Tree.roa_traverse W m s2 p2 u h2 db2).
  Proof.
    intros R1 R2 L ((cu & C1 & C2) & _ & _ & Sl). unfold Tree.roa_traverse. cbn zeta. unfold crl_uri. rewrite C1, C2, Sl.
    pose proof (decode_eq W Q (fun _ _ => 0) (fun _ _ => 0) n m u) as De. change (signed_object_decode W n u = signed_object_decode W m u) in De. rewrite De.
    destruct (signed_object_decode W m u) as [o| |]; cbn [bind]; [|apply adding_none|exact I].
    destruct (sd_econtent (snd o)) as [body|]; [|apply adding_none]. destruct (decode_roa (w_nobuf W) (w_turns W) body) as [roa|]; [|apply adding_none].
    pose proof (crl_eq W Q (fun _ _ => 0) (fun _ _ => 0) (n + 1) (m + 1) s1 s2 (Some (pp_slot p2)) (stacks_top _ _ _ _ L)) as Ce.
    change (crl_of W (n + 1) s1 (Some (pp_slot p2)) = crl_of W (m + 1) s2 (Some (pp_slot p2))) in Ce. rewrite Ce.
    destruct (crl_of W (m + 1) s2 _) as [[slot crl]| |]; cbn [bind]; [|apply adding_none|exact I]. destruct crl as [crl| |]; cbn [bind]; [|apply adding_none|exact I].
    pose proof (object_sim W Q (fun _ _ => 0) (fun _ _ => 0) (n + 1) (m + 1) h1 h2 s1 s2 crl OID_ROA false o R1 R2 L) as Os.
    change (both (fun x y => fst x = fst y /\ pair_same (snd x) (snd y)) (validate_object W (n + 1) s1 h1 crl OID_ROA false o) (validate_object W (m + 1) s2 h2 crl OID_ROA false o)) in Os.
    destruct (validate_object W (n + 1) s1 h1 crl OID_ROA false o) as [[refs1 [h1' r1]]| |], (validate_object W (m + 1) s2 h2 crl OID_ROA false o) as [[refs2 [h2' r2]]| |]; cbn [both fst snd] in Os; try contradiction; cbn [bind]; [|apply adding_none|exact I].
    destruct Os as (<- & Os). unfold pair_same in Os. cbn [fst snd] in Os.
    eapply both_bind; [apply handle_roa_sim; exact Os|]. intros [d1 e] [d2 e'] (K & E). cbn [fst snd] in K, E. subst e'.
    destruct (negb (e =? 0)); [exact K|]. destruct (refs_validate_ee refs1 _ _) as [x| |]; [exact K|exact K|exact I].
  Qed.
  Lemma roa_heap n h s p u db h' db' b : reachable (h, map me_resources s) -> Tree.roa_traverse W n s p u h db = Ok (h', db', b) -> ext_of h h' /\ reachable (h', map me_resources s).
  Proof.
    intros R H. unfold Tree.roa_traverse in H. cbn zeta in H.
    assert (I0 : ext_of h h /\ reachable (h, map me_resources s)) by (split; [apply ext_refl|exact R]).
    destruct (signed_object_decode W n u) as [o| |]; cbn [bind] in H; [|injection H as <- _ _; exact I0|discriminate H].
    destruct (sd_econtent (snd o)) as [body|]; [|injection H as <- _ _; exact I0]. destruct (decode_roa (w_nobuf W) (w_turns W) body) as [roa|]; [|injection H as <- _ _; exact I0].
    destruct (crl_of W (n + 1) s _) as [[slot crl]| |]; cbn [bind] in H; [|injection H as <- _ _; exact I0|discriminate H].
    destruct crl as [crl| |]; cbn [bind] in H; [|injection H as <- _ _; exact I0|discriminate H].
    destruct (validate_object W (n + 1) s h crl OID_ROA false o) as [[refs [h1 r]]| |] eqn:V; cbn [bind] in H; [|injection H as <- _ _; exact I0|discriminate H].
    apply (object_heap W S) in V; [|exact R]. destruct (handle_roa h1 r db roa) as [[d e]| |]; cbn [bind] in H; try discriminate H.
    destruct (negb (e =? 0)); [injection H as <- _ _; exact V|]. destruct (refs_validate_ee refs _ _); try discriminate H; injection H as <- _ _; exact V.
  Qed.

  (** The VRPs of a ROA below a path. *)
  Definition vrps_of (s : list meta) (h : heap) (p : pp) (u : rpki_uri) (v : vrp) : Prop :=
    exists x, Tree.roa_traverse W 0 s p u h db_table_create = Ok x /\ roas_of (snd (fst x)) v.
  Lemma roa_loop_char s2 h2 p2 : reachable (h2, map me_resources s2) -> forall l n h1 s1 p1 db1,
    reachable (h1, map me_resources s1) -> stacks h1 h2 s1 s2 -> pps p1 p2 ->
    match roa_loop W n s1 p1 l h1 db1 with
    | Ok (h', db') => ext_of h1 h' /\ reachable (h', map me_resources s1) /\ (forall u, In u l -> exists x, Tree.roa_traverse W 0 s2 p2 u h2 db_table_create = Ok x) /\
        forall v, roas_of db' v <-> roas_of db1 v \/ exists u, In u l /\ vrps_of s2 h2 p2 u v
    | _ => exists u, In u l /\ forall x, Tree.roa_traverse W 0 s2 p2 u h2 db_table_create <> Ok x
    end.
  Proof.
    intros R2. induction l as [|u l IH]; intros n h1 s1 p1 db1 R1 L P; cbn [roa_loop].
    - split; [apply ext_refl|]. split; [exact R1|]. split; [intros u []|]. intros v. split; [auto|intros [?|(u & [] & _)]; auto].
    - pose proof (roa_sim n 0 h1 h2 s1 s2 p1 p2 u db1 db_table_create R1 R2 L P) as K.
      destruct (Tree.roa_traverse W n s1 p1 u h1 db1) as [[[h' d] b]| |] eqn:T; cbn [bind].
      + destruct (Tree.roa_traverse W 0 s2 p2 u h2 db_table_create) as [x| |] eqn:T2; cbn [both] in K; try contradiction. cbn [fst snd] in K.
        destruct K as (A & A1 & A2). assert (A3 : forall v, vrps_of s2 h2 p2 u v <-> A v).
        { intros v. unfold vrps_of. rewrite T2. split; [intros (y & E & Hv); injection E as <-; apply A2 in Hv; destruct Hv as [[]|Hv]; exact Hv|intros Hv; exists x; split; [reflexivity|apply A2; auto]]. }
        destruct (roa_heap _ _ _ _ _ _ _ _ _ R1 T) as (X & R1').
        assert (L' : stacks h' h2 s1 s2) by (eapply stacks_ext; [exact X|apply ext_refl|apply reach_ok; assumption..|exact L]).
        specialize (IH (n + 2)%nat h' s1 p1 d R1' L' P). destruct (roa_loop W (n + 2) s1 p1 l h' d) as [[h'' d']| |].
        * destruct IH as (X' & R' & I1 & I2). split; [eapply ext_trans; eassumption|]. split; [exact R'|]. split; [intros w [->|Hw]; [eauto|auto]|].
          intros v. rewrite I2, A1. split.
          -- intros [[?|Hv]|(w & Hw & Hv)]; [auto|right; exists u; split; [left; reflexivity|apply A3; exact Hv]|right; exists w; split; [right; exact Hw|exact Hv]].
          -- intros [?|(w & [->|Hw] & Hv)]; [auto|left; right; apply A3; exact Hv|right; exists w; auto].
        * destruct IH as (w & Hw & N). exists w. split; [right; exact Hw|exact N].
        * destruct IH as (w & Hw & N). exists w. split; [right; exact Hw|exact N].
      + exists u. split; [left; reflexivity|]. intros x E. rewrite E in K. exact K.
      + exists u. split; [left; reflexivity|]. intros x E. rewrite E in K. exact K.
  Qed.
  Lemma same_refl h r : same h r h r.
  Proof. repeat split. Qed.
  Lemma stacks_refl h s : stacks h h s s.
  Proof. induction s; constructor; [|assumption]. repeat split. Qed.
  Lemma roa_loop_sim n m h1 h2 s1 s2 p1 p2 db1 db2 h1' db1' : reachable (h1, map me_resources s1) -> reachable (h2, map me_resources s2) -> stacks h1 h2 s1 s2 -> pps p1 p2 ->
    roa_loop W n s1 p1 (pp_roas (pp_files p1)) h1 db1 = Ok (h1', db1') ->
    exists h2' db2', roa_loop W m s2 p2 (pp_roas (pp_files p2)) h2 db2 = Ok (h2', db2') /\ adding db1 db1' db2 db2' /\
      ext_of h1 h1' /\ reachable (h1', map me_resources s1) /\ ext_of h2 h2' /\ reachable (h2', map me_resources s2).
  Proof.
    intros R1 R2 L P H. pose proof (roa_loop_char s2 h2 p2 R2 (pp_roas (pp_files p1)) n h1 s1 p1 db1 R1 L P) as C1. rewrite H in C1. destruct C1 as (X1 & R1' & A1 & B1).
    assert (P2 : pps p2 p2) by (destruct P as ((cu & C & C') & _); repeat split; [exists cu; auto|apply Permutation_refl..]).
    pose proof (roa_loop_char s2 h2 p2 R2 (pp_roas (pp_files p2)) m h2 s2 p2 db2 R2 (stacks_refl _ _) P2) as C2.
    destruct P as (_ & _ & Pr & _).
    assert (A2 : forall u, In u (pp_roas (pp_files p2)) -> exists x, Tree.roa_traverse W 0 s2 p2 u h2 db_table_create = Ok x).
    { intros u Hu. apply A1. eapply Permutation_in; [symmetry; exact Pr|exact Hu]. }
    destruct (roa_loop W m s2 p2 (pp_roas (pp_files p2)) h2 db2) as [[h2' db2']| |].
    - destruct C2 as (X2 & R2' & _ & B2). exists h2', db2'. split; [reflexivity|]. split; [|auto 10].
      exists (fun v => exists u, In u (pp_roas (pp_files p1)) /\ vrps_of s2 h2 p2 u v). split; [exact B1|]. intros v. rewrite B2.
      split; (intros [?|(u & Hu & Hv)]; [auto|right; exists u; split; [|exact Hv]]); (eapply Permutation_in; [|exact Hu]); [symmetry|]; exact Pr.
    - destruct C2 as (u & Hu & N). destruct (A2 u Hu) as (x & Hx). elim (N x Hx).
    - destruct C2 as (u & Hu & N). destruct (A2 u Hu) as (x & Hx). elim (N x Hx).
  Qed.

  (** *** Certificates *)
  Definition parents (p1 p2 : option pp) : Prop := match p1, p2 with None, None => True | Some p1, Some p2 => pps p1 p2 | _, _ => False end.
  Record alike (s1 s2 : state) : Prop := {
    al_reach1 : reachable (s_heap s1, map me_resources (s_stack s1));
    al_reach2 : reachable (s_heap s2, map me_resources (s_stack s2));
    al_stacks : stacks (s_heap s1) (s_heap s2) (s_stack s1) (s_stack s2);
  }.
  (** What happens to two states. *)
  Record changed (s1 s2 s1' s2' : state) (b : bool) : Prop := {
    ch_alike : alike s1' s2';
    ch_ext1 : ext_of (s_heap s1) (s_heap s1');
    ch_ext2 : ext_of (s_heap s2) (s_heap s2');
    ch_db : adding (s_db s1) (s_db s1') (s_db s2) (s_db s2');
    ch_stacks : (s_defers s1' = s_defers s1 /\ s_stack s1' = s_stack s1 /\ s_defers s2' = s_defers s2 /\ s_stack s2' = s_stack s2 /\ s_db s1' = s_db s1) \/
      (b = true /\ exists p1 p2 m1 m2, s_stack s1' = m1 :: s_stack s1 /\ s_stack s2' = m2 :: s_stack s2 /\ pps p1 p2 /\
        s_defers s1' = map (Deferred p1) (pp_certs (pp_files p1)) ++ Separator :: s_defers s1 /\
        s_defers s2' = map (Deferred p2) (pp_certs (pp_files p2)) ++ Separator :: s_defers s2);
  }.

  Lemma traverse_sim rnd1 rnd2 par1 par2 u s1 s2 s1' b : alike s1 s2 -> parents par1 par2 ->
    certificate_traverse (with_rnd W rnd1) par1 u s1 = Ok (s1', b) ->
    exists s2', certificate_traverse (with_rnd W rnd2) par2 u s2 = Ok (s2', b) /\ changed s1 s2 s1' s2' b.
  Proof.
    intros [R1 R2 L] Hpar H. set (W1 := with_rnd W rnd1) in *. set (W2 := with_rnd W rnd2) in *.
    assert (Halt : forall n1 n2 d,  changed s1 s2 {| s_defers := s_defers s1; s_stack := s_stack s1; s_heap := s_heap s1; s_db := s_db s1; s_clock := n1 |}
                                         {| s_defers := s_defers s2; s_stack := s_stack s2; s_heap := s_heap s2; s_db := s_db s2; s_clock := n2 |} d).
    { intros n1 n2 d. constructor; cbn [s_defers s_stack s_heap s_db s_clock]; [constructor; assumption|apply ext_refl|apply ext_refl|apply adding_none|auto 10]. }
    unfold certificate_traverse in *. cbn zeta in *. cbn [s_defers s_stack s_heap s_db s_clock] in *.
    change (w_max_depth W2) with (w_max_depth W). change (w_max_depth W1) with (w_max_depth W) in H.
    rewrite <- (stacks_length _ _ _ _ L). destruct (w_max_depth W <=? length (s_stack s1))%nat; [injection H as <- <-; eexists; split; [reflexivity|apply Halt]|].
    assert (Esl : option_map pp_slot par1 = option_map pp_slot par2) by (destruct par1, par2; try contradiction; [|reflexivity]; cbn; f_equal; apply Hpar).
    assert (Eb : match par1 with None => true | Some _ => false end = match par2 with None => true | Some _ => false end) by (destruct par1, par2; try contradiction; reflexivity).
    assert (Et : match par1 with None => Resources.CERTYPE_TA | Some _ => Resources.CERTYPE_CA end = match par2 with None => Resources.CERTYPE_TA | Some _ => Resources.CERTYPE_CA end) by (destruct par1, par2; try contradiction; reflexivity).
    rewrite (crl_eq W Q rnd1 rnd2 (s_clock s1) (s_clock s2) _ _ _ (stacks_top _ _ _ _ L)), Esl in H. fold W2 in H.
    destruct (crl_of W2 (s_clock s2) (s_stack s2) (option_map pp_slot par2)) as [[sl crl]| |]; cbn [bind] in *; try discriminate H.
    destruct crl as [crl| |]; cbn [attempt] in *; [|injection H as <- <-; eexists; split; [reflexivity|apply Halt]|discriminate H].
    rewrite (load_eq W Q rnd1 rnd2 (s_clock s1) (s_clock s2)) in H. fold W2 in H.
    destruct (certificate_load W2 (s_clock s2) u) as [c| |] eqn:Hload; cbn [attempt] in *; [|injection H as <- <-; eexists; split; [reflexivity|apply Halt]|discriminate H].
    pose proof (f_equal (fun f => f c) (chain_eq W Q rnd1 rnd2 (s_clock s1 + 1) (s_clock s2 + 1) _ _ crl (stacks_trusted _ _ _ _ L))) as Ce. cbv beta in Ce. fold W1 W2 in Ce. rewrite Ce in H. clear Ce.
    destruct (certificate_validate_chain W2 (s_clock s2 + 1) (s_stack s2) crl c) as [[]| |]; cbn [attempt] in *; [|injection H as <- <-; eexists; split; [reflexivity|apply Halt]|discriminate H].
    rewrite Eb in H. destruct (get_certificate_type c _) as [t| |]; cbn [attempt] in *; [|injection H as <- <-; eexists; split; [reflexivity|apply Halt]|discriminate H].
    destruct (CertStack_certype_cases t) as [->|[->|K]]; [injection H as <- <-; eexists; split; [reflexivity|apply Halt]..|].
    match type of H with match t with CertStack.CERTYPE_TA => ?body | _ => _ end = _ => assert (H' : body = Ok (s1', b)) by (destruct K; subst t; exact H) end.
    clear H. rename H' into H.
    match goal with |- exists s2', match t with CertStack.CERTYPE_TA => ?body | _ => _ end = _ /\ _ => enough (Gs : exists s2', body = Ok (s2', b) /\ changed s1 s2 s1' s2' b) by (destruct K; subst t; exact Gs) end.
    unfold validate_rfc6487 in *. rewrite (stacks_top _ _ _ _ L) in H. change (w_commonName W1) with (w_commonName W2) in H. change (w_serialNumber W1) with (w_serialNumber W2) in H.
    change (w_sha256WithRSA W1) with (w_sha256WithRSA W2) in H. change (w_rsa W1) with (w_rsa W2) in H. change (w_ec W1) with (w_ec W2) in H. change (w_p256 W1) with (w_p256 W2) in H.
    change (w_obj2nid W1) with (w_obj2nid W2) in H. change (w_d2i_PUBKEY W1) with (w_d2i_PUBKEY W2) in H. change (w_spki W1) with (w_spki W2) in H.
    destruct (certificate_validate_rfc6487 _ _ _ _ _ _ _ _ _ _ _ _) as [[]| |]; cbn [attempt] in *; [|injection H as <- <-; eexists; split; [reflexivity|apply Halt]|discriminate H].
    assert (Ex : match par1 with None => validate_ta W1 c | Some p => validate_ca W1 (s_stack s1) (crl_uri (pp_files p)) c end = match par2 with None => validate_ta W2 c | Some p => validate_ca W2 (s_stack s2) (crl_uri (pp_files p)) c end).
    { destruct par1 as [p1|], par2 as [p2|]; try contradiction; [|reflexivity]. destruct Hpar as ((cu & C1 & C2) & _). unfold crl_uri. rewrite C1, C2.
      unfold validate_ca. rewrite (stacks_top _ _ _ _ L). reflexivity. }
    rewrite Ex in H. clear Ex.
    assert (Hc : exists k bts, w_read W k (u_local u) = inr bts /\ w_load_X509 W bts = Some c).
    { unfold certificate_load in Hload. change (w_read W2) with (w_read W) in Hload. change (w_load_X509 W2) with (w_load_X509 W) in Hload.
      destruct (w_read W (s_clock s2) (u_local u)) as [|bts] eqn:E; [discriminate Hload|]. destruct (w_load_X509 W bts) as [c'|] eqn:E'; [|discriminate Hload]. injection Hload as ->. eauto. }
    destruct Hc as (k & bts & _ & Hx). destruct (sa_cert W S _ _ Hx) as (Tc & Rc). pose proof (read_exts W S _ Rc) as Fc.
    pose proof (exts_safe W S par2 (s_stack s2) c Tc) as Es. cbn zeta in Es.
    change (match par2 with None => validate_ta W c | Some p => validate_ca W (s_stack s2) (crl_uri (pp_files p)) c end) with (match par2 with None => validate_ta W2 c | Some p => validate_ca W2 (s_stack s2) (crl_uri (pp_files p)) c end) in Es.
    destruct (match par2 with None => validate_ta W2 c | Some p => validate_ca W2 (s_stack s2) (crl_uri (pp_files p)) c end) as [r| |]; cbn [attempt] in *; [|injection H as <- <-; eexists; split; [reflexivity|apply Halt]|discriminate H].
    assert (Hpc : forall p, par2 = Some p -> exists cu, pp_crl (pp_files p) = Some cu).
    { intros p ->. destruct par1; [|contradiction]. destruct Hpar as ((cu & _ & C2) & _). eauto. }
    destruct (proj2 (Es Hpc) r eq_refl) as (_ & mft & Hmft & Pm & Pr). clear Es.
    rewrite (download_eq W Q rnd1 rnd2 (s_clock s1 + 2) (s_clock s2 + 2)) in H. fold W2 in H.
    destruct (download_rpp W2 (s_clock s2 + 2) (r_rpp r)) as [dl|] eqn:Hdown; [|injection H as <- <-; eexists; split; [reflexivity|apply Halt]].
    destruct (with_policy r) as [[r0 pol]| |]; cbn [bind] in *; try discriminate H.
    rewrite Et in H. set (ty := match par2 with None => Resources.CERTYPE_TA | Some _ => Resources.CERTYPE_CA end) in *.
    change (read_resources W1 c) with (read_resources W c) in H. change (read_resources W2 c) with (read_resources W c).
    pose proof (init_resources_sim (s_heap s1) (top_resources (s_stack s1)) (s_heap s2) (top_resources (s_stack s2)) (policy_of pol) ty (read_resources W c)
      (reach_parent _ _ R1) (reach_parent _ _ R2) (stacks_resources _ _ _ _ L)) as Is.
    destruct (init_resources (s_heap s1) _ _ _ _) as [[[h1 rs1] e]| |] eqn:I1; cbn [bind] in H; try discriminate H.
    destruct (init_resources (s_heap s2) _ _ _ _) as [[[h2 rs2] e']| |] eqn:I2; cbn [both] in Is; try contradiction. destruct Is as (Hsame & <-). cbn [bind].
    assert (Grow : forall h s h' rs err, reachable (h, map me_resources s) -> init_resources h (top_resources s) (policy_of pol) ty (read_resources W c) = Ok (h', rs, err) ->
      ext_of h h' /\ reachable (h', if err =? 0 then rs :: map me_resources s else map me_resources s)).
    { clear - Fc. intros h s h' rs err R E. split.
      - destruct (init_inv _ _ _ _ _ _ _ _ E) as (e0 & Hget & _). destruct (reachable_ok _ R) as (Hh & _ & _). cbn [fst] in Hh.
        pose proof (cert_step h (top_resources s) (policy_of pol) false ty _ Hh (reach_parent _ _ R) Fc) as C. unfold read_resources in Hget. rewrite Hget in C. apply C.
      - eapply (reach_step _ (OpPush (policy_of pol) ty (read_resources W c))); [exact R|exact Fc|]. cbn [stack_step]. rewrite peek_map, E. cbn [bind]. reflexivity. }
    destruct (Grow _ _ _ _ _ R1 I1) as (X1 & G1). destruct (Grow _ _ _ _ _ R2 I2) as (X2 & G2). clear Grow.
    assert (L1 : stacks h1 h2 (s_stack s1) (s_stack s2)) by (eapply stacks_ext; [exact X1|exact X2|apply reach_ok; assumption..|exact L]).
    destruct (Z.eqb_spec e 0) as [Ez|Nz]; cbn [negb] in *.
    2:{ injection H as <- <-. eexists. split; [reflexivity|]. constructor; cbn [s_defers s_stack s_heap s_db s_clock]; [constructor; assumption|assumption|assumption|apply adding_none|auto 10]. }
    rewrite Hmft in *. set (notif := match u_type dl with UT_HTTPS => Some dl | _ => None end) in *.
    assert (Pn : forall nu, notif = Some nu -> printable (u_global nu)).
    { intros nu E. unfold notif in E. destruct (u_type dl); try discriminate E. injection E as <-. apply Pr. unfold download_rpp in Hdown.
      destruct (r_rpp r) as [|x l]; [discriminate Hdown|]. destruct (w_download W2 (s_clock s2 + 2) (x :: l)); [|discriminate Hdown]. eapply nth_error_In; exact Hdown. }
    set (st1 := {| me_uri := u; me_cert := c; me_resources := rs1 |} :: s_stack s1) in *. set (st2 := {| me_uri := u; me_cert := c; me_resources := rs2 |} :: s_stack s2) in *.
    assert (L2 : stacks h1 h2 st1 st2) by (constructor; [repeat split; apply Hsame|exact L1]).
    change (reachable (h1, map me_resources st1)) in G1. change (reachable (h2, map me_resources st2)) in G2.
    pose proof (manifest_sim W S Q rnd1 rnd2 (s_clock s1 + 3) (s_clock s2 + 3) h1 h2 st1 st2 mft notif G1 G2 L2 Pm Pn) as Ms. fold W1 W2 in Ms.
    destruct (handle_manifest W1 (s_clock s1 + 3) st1 h1 mft notif) as [[h1' p1]| |] eqn:M1, (handle_manifest W2 (s_clock s2 + 3) st2 h2 mft notif) as [[h2' p2]| |] eqn:M2; cbn [both snd] in Ms; try contradiction; [| |discriminate H].
    2:{ injection H as <- <-. cbn [tl]. eexists. split; [reflexivity|]. constructor; cbn [s_defers s_stack s_heap s_db s_clock tl st1 st2]; [|assumption|assumption|apply adding_none|auto 10].
        constructor; cbn [s_defers s_stack s_heap s_db s_clock]; [eapply (reach_step _ OpPop); [exact G1|exact I|reflexivity]|eapply (reach_step _ OpPop); [exact G2|exact I|reflexivity]|exact L1]. }
    destruct (manifest_heap W S rnd1 _ _ _ _ _ _ _ G1 M1) as (Y1 & H1). destruct (manifest_heap W S rnd2 _ _ _ _ _ _ _ G2 M2) as (Y2 & H2).
    assert (L3 : stacks h1' h2' st1 st2) by (eapply stacks_ext; [exact Y1|exact Y2|apply reach_ok; assumption..|exact L2]).
    unfold rpp_traverse in *. cbn [s_defers s_stack s_heap s_db s_clock] in *.
    change (roa_loop W1) with (roa_loop W) in H. change (roa_loop W2) with (roa_loop W).
    destruct (roa_loop W (s_clock s1 + 8) st1 p1 (pp_roas (pp_files p1)) h1' (s_db s1)) as [[h1'' db1']| |] eqn:RL; cbn [bind] in H; try discriminate H. injection H as <- <-.
    destruct (roa_loop_sim (s_clock s1 + 8) (s_clock s2 + 8) h1' h2' st1 st2 p1 p2 (s_db s1) (s_db s2) h1'' db1' H1 H2 L3 Ms RL) as (h2'' & db2' & -> & Ad & Z1 & J1 & Z2 & J2). cbn [bind].
    eexists. split; [reflexivity|]. constructor; cbn [s_defers s_stack s_heap s_db s_clock].
    - constructor; cbn [s_defers s_stack s_heap s_db s_clock]; [exact J1|exact J2|]. eapply stacks_ext; [exact Z1|exact Z2|apply reach_ok; assumption..|exact L3].
    - eapply ext_trans; [exact X1|]. eapply ext_trans; eassumption.
    - eapply ext_trans; [exact X2|]. eapply ext_trans; eassumption.
    - exact Ad.
    - right. split; [reflexivity|]. exists p1, p2. eexists _, _. split; [reflexivity|]. split; [reflexivity|]. split; [exact Ms|]. rewrite !fold_defers, !rev_involutive. auto.
  Qed.
End Alone.
