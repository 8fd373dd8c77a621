(** Proofs about Config.v: the command line, from its words to its settings. *)
From Coq Require Import String.
From Verif Require Import Base BaseLemmas CString Text TextSpec TextProps NtopSpec Slurm Manifest Incidence Config ConfigSpec ConfigProofs ConfigProofs2.
Notation length := List.length.

Opaque options manual long_opts short_opts getopt_long.
Section WithWorld.
  Variable w : world.
  Hypothesis loads : forall f j, w_load w f = Some j -> no_duplicates j.
  Notation ev args := (fst (getopt_long long_opts short_opts args)).
  Notation ops args := (snd (getopt_long long_opts short_opts args)).

  Definition outcome_of (args : list (list Z)) (s : state) (r : option state) : Prop :=
    exists items l s1, items_say w items l /\ exec_all l s = Ok s1 /\
    match r with
    | Some s' => s' = s1 /\ spells args items (ops args)
    | None => exists d rest, In d manual /\ is_stop (d_kind d) = true /\ spells args (items ++ [(d_name d, None)]) rest
    end.

  (** One more item in front. *)
  Lemma outcome_more args args0 o arg s r : In o options -> args_avail o = true ->
    opt_loop w ((id o, arg) :: ev args) s = Ok r ->
    (forall s r, opt_loop w (ev args) s = Ok r -> outcome_of args s r) ->
    ops args0 = ops args ->
    (forall l r, is_stop (kind_of o) = false -> spells args l r -> spells args0 ((name o, arg) :: l) r) ->
    (is_stop (kind_of o) = true -> spells args0 [(name o, None)] []) ->
    outcome_of args0 s r.
  Proof.
    intros I A H IH OP SP ST. cbn [opt_loop] in H. destruct (handle_opt w (id o) arg s) as [[s1|]| |] eqn:HO; cbn [bind] in H; try discriminate.
    - assert (NS : is_stop (kind_of o) = false). { destruct (is_stop (kind_of o)) eqn:S; auto. pose proof (proj2 (handle_opt_none w o arg s I A) S). congruence. }
      apply handle_opt_some in HO; auto. destruct HO as (l1&IS&E1). destruct (IH _ _ H) as (items&l2&s2&ISS&E2&R).
      exists ((name o, arg) :: items), (l1 ++ l2), s2. split; [constructor; auto|]. split; [rewrite exec_all_app, E1; exact E2|].
      destruct r as [s'|].
      + destruct R as [-> S]. split; auto. rewrite OP. apply SP; auto.
      + destruct R as (d&rest&ID&SD&S). exists d, rest. split; auto. split; auto. cbn [app]. apply SP; auto.
    - injection H as <-. apply (handle_opt_none w o arg s I A) in HO. exists [], [], s. split; [constructor|]. split; [reflexivity|]. exists (doc_of o), [].
      split; [apply manual_of; auto|]. split; [exact HO|]. cbn [app]. apply ST; auto.
  Qed.

  Lemma cluster_cases c s :
    match find_short short_opts c with
    | None => cluster short_opts (c :: s) = ([], CE_bad)
    | Some h => exists o, In o options /\ lettered c (doc_of o) /\ id o = c /\ args_avail o = true /\
        (is_stop (kind_of o) = true /\ (exists l e, cluster short_opts (c :: s) = ((c, None) :: l, e)) \/
         is_stop (kind_of o) = false /\ cluster short_opts (c :: s) = match s with [] => ([], CE_needs c) | _ => ([(c, Some s)], CE_done) end)
    end.
  Proof.
    destruct (find_short short_opts c) as [h|] eqn:F; cbn [cluster]; rewrite F; [|reflexivity].
    destruct (find_short_letters c h F) as (o&I&A&AN&<-). exists o. split; auto. split; [apply lettered_of; auto|]. split; auto. split; auto.
    rewrite (find_short_letter o I A AN) in F. destruct (is_stop (kind_of o)); injection F as <-; [left|right]; (split; [reflexivity|]).
    - destruct (cluster short_opts s) as [l e]. eauto.
    - reflexivity.
  Qed.

  Lemma classify_operand (a : list Z) : a = cstr "-" \/ hd_error a <> Some 45 -> classify a = W_operand.
  Proof. intros [->|H]; [reflexivity|]. destruct a as [|c [|c2 t]]; auto. cbn [classify]. destruct (Z.eqb_spec c 45) as [->|]; auto. cbn in H. congruence. Qed.

  Lemma sound_aux n : forall args s r, (length args <= n)%nat -> opt_loop w (ev args) s = Ok r -> outcome_of args s r.
  Proof.
    induction n as [|n IHn]; intros args s r LE H.
    - destruct args; [|cbn in LE; lia]. cbn in H. injection H as <-. exists [], [], s. split; [constructor|]. split; [reflexivity|]. split; [reflexivity|constructor].
    - destruct args as [|a args]; [cbn in H; injection H as <-; exists [], [], s; split; [constructor|]; split; [reflexivity|]; split; [reflexivity|constructor]|].
      cbn [length] in LE. assert (IH1 : forall s r, opt_loop w (ev args) s = Ok r -> outcome_of args s r) by (intros; apply IHn; auto; lia).
      pose proof (getopt_cons a args) as GC.
      pose proof (classify_spec a) as CS. destruct (classify a) as [| |body|sh] eqn:CA.
      + (* an operand *)
        rewrite GC in H. cbn [fst] in H. destruct (IH1 _ _ H) as (items&l&s1&IS&EX&R). exists items, l, s1. split; auto. split; auto. rewrite GC. cbn [snd].
        destruct r as [s'|]; [destruct R as [-> S]; split; auto; constructor; auto|]. destruct R as (d&rest&ID&SD&S). exists d, (a :: rest). split; auto. split; auto. constructor; auto.
      + rewrite GC in H. cbn in H. injection H as <-. subst a. exists [], [], s. split; [constructor|]. split; [reflexivity|]. split; [reflexivity|]. rewrite GC. apply sp_rest.
      + (* a long option *)
        destruct CS as [-> _].
        destruct (split_eq body) as [n0 v] eqn:SE. apply split_eq_spec in SE. destruct SE as [NE ->]. clear CA.
        destruct (find_long long_opts n0) as [lo|] eqn:FL; [|rewrite GC in H; cbn in H; discriminate].
        destruct (find_long_sound n0 lo FL) as (o&I&A&->&D). pose proof (has_arg_kind o I A) as HA. pose proof (takes_kind o I A) as TK.
        cbn [long_of lo_has_arg lo_val] in GC. rewrite HA in GC. destruct v as [v|].
        * destruct (is_stop (kind_of o)) eqn:S; [rewrite GC in H; cbn in H; discriminate|].
          assert (GC' : getopt_long long_opts short_opts ((45 :: 45 :: n0 ++ 61 :: v) :: args) = ((id o, Some v) :: ev args, ops args)) by (rewrite GC; destruct (wants_value (kind_of o)); reflexivity).
          rewrite GC' in H. eapply (outcome_more args _ o); eauto; [rewrite GC'; reflexivity| |congruence].
          intros l r' _ SP. apply (sp_long_equals (doc_of o) n0 v args l r'); auto.
        * rewrite app_nil_r in *. destruct (is_stop (kind_of o)) eqn:S.
          -- rewrite GC in H. eapply (outcome_more args _ o); eauto; [rewrite GC; reflexivity|congruence|]. intros _. apply (sp_long_stop (doc_of o) n0 args); auto.
          -- destruct (wants_value (kind_of o)) eqn:WV.
             ++ destruct args as [|v args]; [rewrite GC in H; cbn in H; discriminate|]. rewrite GC in H. cbn [length] in LE.
                eapply (outcome_more args _ o); eauto; [intros; apply IHn; auto; lia|rewrite GC; reflexivity| |congruence].
                intros l r' _ SP. apply (sp_long_space (doc_of o) n0 v args l r'); auto.
             ++ rewrite GC in H. eapply (outcome_more args _ o); eauto; [rewrite GC; reflexivity| |congruence].
                intros l r' _ SP. apply (sp_long_alone (doc_of o) n0 args l r'); auto.
      + (* short options *)
        destruct CS as (c&t&->&NC&->). clear CA. rename t into a. rename GC into GC'. pose proof (cluster_cases c a) as CC. destruct (find_short short_opts c) as [h|]; [|rewrite CC in GC'; rewrite GC' in H; cbn in H; discriminate].
        destruct CC as (o&I&LT&<-&A&CC). destruct CC as [(S&l0&e&CL)|(S&CL)].
        * (* it stops *)
          assert (EV : exists l', ev ((45 :: id o :: a) :: args) = (id o, None) :: l') by (rewrite GC', CL; destruct e; cbn [app fst]; eauto; destruct args; cbn [fst app]; eauto).
          destruct EV as (l'&EV). rewrite EV in H. cbn [opt_loop] in H. rewrite (proj2 (handle_opt_none w o None s I A) S) in H. cbn [bind] in H. injection H as <-.
          exists [], [], s. split; [constructor|]. split; [reflexivity|]. exists (doc_of o), []. split; [apply manual_of; auto|]. split; [exact S|]. apply (sp_short_stop (doc_of o) (id o) a args); auto.
        * rewrite CL in GC'. destruct a as [|c2 a].
          -- destruct args as [|v args]; [rewrite GC' in H; cbn in H; discriminate|]. rewrite GC' in H. cbn [app] in *. cbn [length] in LE.
             eapply (outcome_more args _ o); eauto; [intros; apply IHn; auto; lia|rewrite GC'; reflexivity| |congruence].
             intros l r' _ SP. apply (sp_short_space (doc_of o) (id o) v args l r'); auto.
          -- rewrite GC' in H. cbn [app] in *. eapply (outcome_more args _ o); eauto; [rewrite GC'; reflexivity| |congruence].
             intros l r' _ SP. apply (sp_short_joined (doc_of o) (id o) (c2 :: a) args l r'); auto. discriminate.
  Qed.
  Lemma getopt_sound args s r : opt_loop w (ev args) s = Ok r -> outcome_of args s r.
  Proof. apply (sound_aux (length args)). lia. Qed.

  (** The other way. *)
  Lemma getopt_long_form n v args o : In o options -> designates n (doc_of o) -> ~ In 61 n ->
    getopt_long long_opts short_opts ((45 :: 45 :: n ++ match v with None => [] | Some v => 61 :: v end) :: args) =
    match v, (if is_stop (kind_of o) then no_argument else if wants_value (kind_of o) then required_argument else optional_argument) with
    | Some _, no_argument => (bad, [])
    | None, required_argument => match args with [] => (bad, []) | v :: args => ((id o, Some v) :: ev args, ops args) end
    | _, _ => ((id o, v) :: ev args, ops args)
    end.
  Proof.
    intros I D NE. assert (A : args_avail o = true) by (destruct D as (_&A&_); exact A). pose proof (find_long_complete n o I D) as FL.
    assert (NN : n <> []). { intros ->. vm_compute in FL. discriminate. }
    assert (SE : split_eq (n ++ match v with None => [] | Some v => 61 :: v end) = (n, v)) by (apply split_eq_spec; auto).
    rewrite getopt_cons. match goal with |- context [classify ?a] => replace (classify a) with (W_long (n ++ match v with None => [] | Some v => 61 :: v end)) by (destruct n; [congruence|reflexivity]) end.
    rewrite SE, FL. cbn [long_of lo_has_arg lo_val]. rewrite (has_arg_kind o I A). reflexivity.
  Qed.
  Lemma getopt_short_form c a args o : In o options -> lettered c (doc_of o) ->
    getopt_long long_opts short_opts ((45 :: c :: a) :: args) =
          match cluster short_opts (c :: a) with
          | (l0, CE_bad) => (l0 ++ bad, [])
          | (l0, CE_done) => (l0 ++ ev args, ops args)
          | (l0, CE_needs o) => match args with [] => (l0 ++ bad, []) | v :: args => (l0 ++ (o, Some v) :: ev args, ops args) end
          end.
  Proof.
    intros I L. assert (NC : c <> 45). { apply lettered_of in L; auto. destruct L as (_&AN&E). intros ->. rewrite E in AN. discriminate. }
    rewrite getopt_cons. replace (classify (45 :: c :: a)) with (W_short (c :: a)); [reflexivity|]. cbn [classify]. change (45 =? 45) with true. cbn iota. destruct (Z.eqb_spec c 45); [congruence|reflexivity].
  Qed.
  Lemma cluster_letter c a o : In o options -> lettered c (doc_of o) ->
    is_stop (kind_of o) = true /\ (exists l e, cluster short_opts (c :: a) = ((c, None) :: l, e)) \/
    is_stop (kind_of o) = false /\ cluster short_opts (c :: a) = match a with [] => ([], CE_needs c) | _ => ([(c, Some a)], CE_done) end.
  Proof.
    intros I L. pose proof (cluster_cases c a) as CC. apply lettered_of in L; auto. destruct L as (A&AN&<-). rewrite (find_short_letter o I A AN) in CC.
    destruct CC as (o'&I'&L'&E'&A'&CC). assert (o' = o) by (apply same_id; auto). subst o'. exact CC.
  Qed.

  Lemma complete_more args args0 o arg l r s s' : In o options -> args_avail o = true ->
    getopt_long long_opts short_opts args0 = ((id o, arg) :: ev args, ops args) ->
    (forall l' s, items_say w l l' -> exec_all l' s = Ok s' -> opt_loop w (ev args) s = Ok (Some s') /\ ops args = r) ->
    forall l', items_say w ((name o, arg) :: l) l' -> exec_all l' s = Ok s' -> opt_loop w (ev args0) s = Ok (Some s') /\ ops args0 = r.
  Proof.
    intros I A E IH l' IS EX. inversion IS as [|i ll s1 s2 IS1 IS2]; subst. rewrite exec_all_app in EX. destruct (exec_all s1 s) as [s1'| |] eqn:E1; cbn [bind] in EX; try discriminate.
    destruct (IH _ _ IS2 EX) as [OL OR]. rewrite E. cbn [fst snd opt_loop]. rewrite (proj2 (handle_opt_some w loads o arg s s1' I A)) by eauto. cbn [bind]. auto.
  Qed.
  Lemma stop_says o l : In o options -> is_stop (kind_of o) = true -> ~ item_says w (name o, None) l.
  Proof. intros I S IS. apply item_of in IS; auto. destruct IS as [(v&_&SA&_)|(f&j&K&_)]; [destruct (kind_of o); try discriminate; destruct SA|rewrite K in S; discriminate]. Qed.

  Lemma getopt_complete args items r : spells args items r -> forall l s s', items_say w items l -> exec_all l s = Ok s' ->
    opt_loop w (ev args) s = Ok (Some s') /\ ops args = r.
  Proof.
    intros SP. induction SP; intros l0 st st' IS EX.
    - inversion IS; subst. cbn in EX. injection EX as <-. auto.
    - inversion IS; subst. cbn in EX. injection EX as <-. auto.
    - destruct (IHSP _ _ _ IS EX) as [OL OR]. assert (E : getopt_long long_opts short_opts (a :: args) = (ev args, a :: ops args)).
      { rewrite getopt_cons. rewrite classify_operand by auto. reflexivity. }
      rewrite E. cbn [fst snd]. split; auto. congruence.
    - destruct (manual_In d (proj1 H)) as (o&I&->). assert (A : args_avail o = true) by (destruct H as (_&A&_); exact A).
      eapply (complete_more args _ o (Some v) l r); eauto. pose proof (getopt_long_form n (Some v) args o I H H0) as F. cbn [doc_of d_kind] in H1. rewrite (takes_kind o I A) in H1.
      change (cstr "--" ++ n ++ cstr "=" ++ v) with (45 :: 45 :: n ++ 61 :: v). rewrite F. destruct (is_stop (kind_of o)); [discriminate|]. destruct (wants_value (kind_of o)); reflexivity.
    - destruct (manual_In d (proj1 H)) as (o&I&->). assert (A : args_avail o = true) by (destruct H as (_&A&_); exact A).
      eapply (complete_more args _ o (Some v) l r); eauto. pose proof (getopt_long_form n None (v :: args) o I H H0) as F. rewrite app_nil_r in F.
      change (cstr "--" ++ n) with (45 :: 45 :: n). rewrite F. cbn [doc_of d_kind] in H1. destruct (kind_of o); try discriminate; reflexivity.
    - destruct (manual_In d (proj1 H)) as (o&I&->). assert (A : args_avail o = true) by (destruct H as (_&A&_); exact A).
      eapply (complete_more args _ o None l r); eauto. pose proof (getopt_long_form n None args o I H H0) as F. rewrite app_nil_r in F.
      change (cstr "--" ++ n) with (45 :: 45 :: n). rewrite F. cbn [doc_of d_kind] in H1, H2. rewrite H1, H2. reflexivity.
    - destruct (manual_In d (proj1 H)) as (o&I&->). assert (A : args_avail o = true) by (destruct H as (_&A&_); exact A).
      eapply (complete_more args _ o (Some v) l r); eauto. change (cstr "-" ++ c :: v) with (45 :: c :: v). rewrite (getopt_short_form c v args o I H).
      cbn [doc_of d_kind] in H0. destruct (cluster_letter c v o I H) as [[S _]|[_ ->]]; [congruence|]. apply lettered_of in H; auto. destruct H as (_&_&<-). destruct v; [congruence|]. reflexivity.
    - destruct (manual_In d (proj1 H)) as (o&I&->). assert (A : args_avail o = true) by (destruct H as (_&A&_); exact A).
      eapply (complete_more args _ o (Some v) l r); eauto. change (cstr "-" ++ [c]) with (45 :: c :: []). rewrite (getopt_short_form c [] (v :: args) o I H).
      cbn [doc_of d_kind] in H0. destruct (cluster_letter c [] o I H) as [[S _]|[_ ->]]; [congruence|]. apply lettered_of in H; auto. destruct H as (_&_&<-). reflexivity.
    - destruct (manual_In d (proj1 H)) as (o&I&->). exfalso. inversion IS; subst. eapply stop_says; eauto.
    - destruct (manual_In d (proj1 H)) as (o&I&->). exfalso. inversion IS; subst. eapply stop_says; eauto.
  Qed.

  Lemma stop_more args args0 o arg items s s' : In o options -> args_avail o = true ->
    getopt_long long_opts short_opts args0 = ((id o, arg) :: ev args, ops args) ->
    forall l', items_say w ((name o, arg) :: items) l' -> exec_all l' s = Ok s' ->
    (forall l' s, items_say w items l' -> exec_all l' s = Ok s' -> opt_loop w (ev args) s = Ok None) -> opt_loop w (ev args0) s = Ok None.
  Proof.
    intros I A E l' IS EX IH. inversion IS as [|i ll s1 s2 IS1 IS2]; subst. rewrite exec_all_app in EX. destruct (exec_all s1 s) as [s1'| |] eqn:E1; cbn [bind] in EX; try discriminate.
    rewrite E. cbn [fst opt_loop]. rewrite (proj2 (handle_opt_some w loads o arg s s1' I A)) by eauto. cbn [bind]. eapply IH; eauto.
  Qed.
  Lemma getopt_stops args its r : spells args its r -> forall items d, its = items ++ [(d_name d, None)] -> In d manual -> is_stop (d_kind d) = true ->
    forall l s s', items_say w items l -> exec_all l s = Ok s' -> opt_loop w (ev args) s = Ok None.
  Proof.
    assert (NIL : forall (items : list (string * option (list Z))) x, [] <> items ++ [x]) by (intros items x E; destruct items; discriminate).
    (* the last item isn't another option *)
    assert (NOT : forall o (arg : option (list Z)) it d, In o options -> In d manual -> is_stop (d_kind d) = true -> is_stop (kind_of o) = false -> (name o, arg) :: it <> [] ++ [(d_name d, None)]).
    { intros o arg it d I ID S NS E. injection E as E _ _. destruct (manual_In d ID) as (o'&I'&->). cbn [doc_of d_name] in E. rewrite (same_name o o' I I' E) in NS. cbn [doc_of d_kind] in S. congruence. }
    intros SP. induction SP; intros items d0 EI ID SD l0 st st' IS EX.
    - exfalso. eapply NIL. eauto.
    - exfalso. eapply NIL. eauto.
    - assert (E : getopt_long long_opts short_opts (a :: args) = (ev args, a :: ops args)).
      { rewrite getopt_cons. rewrite classify_operand by auto. reflexivity. }
      rewrite E. eapply IHSP; eauto.
    - destruct (manual_In d (proj1 H)) as (o&I&->). assert (A : args_avail o = true) by (destruct H as (_&A&_); exact A).
      pose proof (getopt_long_form n (Some v) args o I H H0) as F. cbn [doc_of d_kind] in H1. rewrite (takes_kind o I A) in H1.
      destruct items as [|i items]; [exfalso; eapply (NOT o); eauto; destruct (is_stop (kind_of o)); auto|]. injection EI as <- EI.
      eapply (stop_more args _ o (Some v) items); eauto. change (cstr "--" ++ n ++ cstr "=" ++ v) with (45 :: 45 :: n ++ 61 :: v). rewrite F. destruct (is_stop (kind_of o)); [discriminate|]. destruct (wants_value (kind_of o)); reflexivity.
    - destruct (manual_In d (proj1 H)) as (o&I&->). assert (A : args_avail o = true) by (destruct H as (_&A&_); exact A).
      pose proof (getopt_long_form n None (v :: args) o I H H0) as F. rewrite app_nil_r in F. cbn [doc_of d_kind] in H1.
      destruct items as [|i items]; [exfalso; eapply (NOT o); eauto; destruct (kind_of o); auto; discriminate|]. injection EI as <- EI.
      eapply (stop_more args _ o (Some v) items); eauto. change (cstr "--" ++ n) with (45 :: 45 :: n). rewrite F. destruct (kind_of o); try discriminate; reflexivity.
    - destruct (manual_In d (proj1 H)) as (o&I&->). assert (A : args_avail o = true) by (destruct H as (_&A&_); exact A).
      pose proof (getopt_long_form n None args o I H H0) as F. rewrite app_nil_r in F. cbn [doc_of d_kind] in H1, H2.
      destruct items as [|i items]; [exfalso; eapply (NOT o); eauto|]. injection EI as <- EI.
      eapply (stop_more args _ o None items); eauto. change (cstr "--" ++ n) with (45 :: 45 :: n). rewrite F, H1, H2. reflexivity.
    - destruct (manual_In d (proj1 H)) as (o&I&->). assert (A : args_avail o = true) by (destruct H as (_&A&_); exact A).
      cbn [doc_of d_kind] in H0. destruct items as [|i items]; [exfalso; eapply (NOT o); eauto|]. injection EI as <- EI.
      eapply (stop_more args _ o (Some v) items); eauto. change (cstr "-" ++ c :: v) with (45 :: c :: v). rewrite (getopt_short_form c v args o I H).
      destruct (cluster_letter c v o I H) as [[S _]|[_ ->]]; [congruence|]. apply lettered_of in H; auto. destruct H as (_&_&<-). destruct v; [congruence|]. reflexivity.
    - destruct (manual_In d (proj1 H)) as (o&I&->). assert (A : args_avail o = true) by (destruct H as (_&A&_); exact A).
      cbn [doc_of d_kind] in H0. destruct items as [|i items]; [exfalso; eapply (NOT o); eauto|]. injection EI as <- EI.
      eapply (stop_more args _ o (Some v) items); eauto. change (cstr "-" ++ [c]) with (45 :: c :: []). rewrite (getopt_short_form c [] (v :: args) o I H).
      destruct (cluster_letter c [] o I H) as [[S _]|[_ ->]]; [congruence|]. apply lettered_of in H; auto. destruct H as (_&_&<-). reflexivity.
    - destruct (manual_In d (proj1 H)) as (o&I&->). assert (A : args_avail o = true) by (destruct H as (_&A&_); exact A). cbn [doc_of d_kind] in H1.
      pose proof (getopt_long_form n None args o I H H0) as F. rewrite app_nil_r in F. change (cstr "--" ++ n) with (45 :: 45 :: n). rewrite F, H1. cbn [fst opt_loop].
      rewrite (proj2 (handle_opt_none w o None st I A) H1). reflexivity.
    - destruct (manual_In d (proj1 H)) as (o&I&->). assert (A : args_avail o = true) by (destruct H as (_&A&_); exact A). cbn [doc_of d_kind] in H0.
      change (cstr "-" ++ c :: s) with (45 :: c :: s). rewrite (getopt_short_form c s args o I H).
      assert (HN : forall st0, handle_opt w c None st0 = Ok None). { intros st0. apply lettered_of in H; auto. destruct H as (_&_&<-). apply handle_opt_none; auto. }
      destruct (cluster_letter c s o I H) as [[S (l&e&CL)]|[S _]]; [|congruence]. rewrite CL. destruct e; [| |destruct args]; cbn [fst app opt_loop]; rewrite HN; reflexivity.
  Qed.
End WithWorld.
