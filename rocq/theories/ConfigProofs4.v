(** Proofs about Config.v: from the settings to what the program reads. *)
From Coq Require Import String.
From Verif Require Import Base BaseLemmas CString Text TextSpec TextProps NtopSpec Slurm Manifest Incidence Config ConfigSpec ConfigProofs ConfigProofs2 ConfigProofs3.
From Verif Require IncidenceSpec IncidenceProps.
Notation length := List.length.

(** ** The settings *)
Definition well_formed (x : setting) : Prop :=
  match x with S_value n v => exists o, In o options /\ stored o = true /\ n = name o /\ fits (kind_of o) v | S_incidences _ => True end.
Lemma argv_fits k arg v : says_argv k arg v -> fits k v.
Proof.
  destruct k; cbn; try tauto.
  - intros (s&_&N&->). exists (Some s). split; auto. congruence.
  - intros [[_ ->]|[_ ->]]; eauto.
  - intros (s&n&_&_&B&->). eauto.
  - intros (word&n&I&_&->). eauto.
  - intros (s&l&_&_&W&->). eauto.
Qed.
Lemma json_fits k j v : says_json k j v -> fits k v.
Proof.
  destruct k; cbn; try tauto.
  - intros [(_&_&->)|(s&_&N&->)]; [exists None; split; auto; discriminate|exists (Some s); split; auto; congruence].
  - intros (b&_&->). eauto.
  - intros (n&_&B&->). eauto.
  - intros (word&n&I&_&->). eauto.
  - intros (l&_&W&->). eauto.
Qed.
Lemma fits_stored o v : fits (kind_of o) v -> stored o = true.
Proof. unfold stored. destruct (kind_of o); cbn; tauto. Qed.
Lemma file_well_formed j ds l : file_says j ds l -> incl ds manual -> Forall well_formed l.
Proof.
  induction 1 as [|d ds l A H IH|d ds x v l A F S H IH|d ds x l A K F H IH]; intros I; constructor || (apply IH; intros y Y; apply I; right; auto).
  - destruct (manual_In d (I d (or_introl eq_refl))) as (o&IO&->). exists o. pose proof (json_fits _ _ _ S) as FT. cbn [doc_of d_kind d_name] in *.
    split; auto. split; [eapply fits_stored; eauto|]. auto.
  - apply IH. intros y Y. apply I. right. auto.
  - exact Logic.I.
  - apply IH. intros y Y. apply I. right. auto.
Qed.
Lemma items_well_formed w items l : items_say w items l -> Forall well_formed l.
Proof.
  induction 1 as [|i l s1 s2 A H IH]; [constructor|]. apply Forall_app. split; auto. destruct A as [d arg v I AV S|d f j l' I K L F].
  - constructor; [|constructor]. destruct (manual_In d I) as (o&IO&->). exists o. pose proof (argv_fits _ _ _ S) as FT. cbn [doc_of d_kind d_name] in *. split; auto. split; [eapply fits_stored; eauto|]. auto.
  - eapply file_well_formed; eauto. apply incl_refl.
Qed.

(** ** Executing them *)
Definition named (n m : string) (o : option_field) : bool := negb (stored o) || Bool.eqb (String.eqb (name o) n) (String.eqb (offset o) m).
Lemma named_ok : forallb (named "rsync.enabled" "rsync.enabled") options && forallb (named "http.enabled" "http.enabled") options &&
  forallb (named "work-offline" "work_offline") options = true.
Proof. vm_compute. reflexivity. Qed.
Lemma named_is n m o : forallb (named n m) options = true -> In o options -> stored o = true -> String.eqb (offset o) m = String.eqb (name o) n.
Proof. intros H I S. pose proof (proj1 (forallb_forall _ _) H o I) as K. unfold named in K. rewrite S in K. cbn in K. apply Bool.eqb_prop in K. auto. Qed.
Lemma offline_name o : In o options -> match type o with gt_work_offline => String.eqb (name o) "work-offline" | _ => negb (String.eqb (name o) "work-offline") end = true /\
  (type o = gt_work_offline -> kind_of o = K_bool).
Proof.
  assert (H : forallb (fun o => match type o with gt_work_offline => String.eqb (name o) "work-offline" && match kind_of o with K_bool => true | _ => false end
     | _ => negb (String.eqb (name o) "work-offline") end) options = true) by (vm_compute; reflexivity).
  intros I. pose proof (proj1 (forallb_forall _ _) H o I) as K. cbn beta in K. destruct (type o); (split; [|try discriminate]); try exact K; try (apply andb_prop in K; destruct K as [K1 K2]); auto.
  intros _. destruct (kind_of o); try discriminate. reflexivity.
Qed.

Lemma step_value x s s1 o : well_formed x -> exec x s = Ok s1 -> In o options -> stored o = true ->
  st_config s1 (offset o) = match gives (name o) x with Some v => v | None => st_config s (offset o) end.
Proof.
  intros WF E I S. destruct x as [n v|j].
  - destruct WF as (o1&I1&S1&->&FT). rewrite (exec_value o1 v s I1) in E. injection E as <-. cbn [gives].
    assert (EQ : String.eqb (offset o) (offset o1) = String.eqb (name o1) (name o)).
    { destruct (String.eqb_spec (name o1) (name o)) as [E|N]; [rewrite (same_name _ _ I1 I E); apply String.eqb_refl|].
      apply String.eqb_neq. intros E. apply N. rewrite (same_offset o o1 I I1 S S1 E). reflexivity. }
    unfold apply1. destruct (offline_name o1 I1) as [ON OK]. destruct (type o1) eqn:T; try (cbn [store st_config set]; unfold set; rewrite EQ; apply negb_true_iff in ON; rewrite ON; cbn [andb]; destruct (String.eqb (name o1) (name o)); reflexivity).
    specialize (OK eq_refl). rewrite OK in FT. destruct FT as (b&->). rewrite ON. cbn [as_bool andb]. unfold set_offline, store, set. cbn [st_config]. rewrite EQ.
    pose proof named_ok as NO. rewrite !andb_true_iff in NO. destruct NO as [[N1 N2] N3].
    rewrite (named_is _ _ o N1 I S), (named_is _ _ o N2 I S). destruct (String.eqb_spec (name o1) (name o)) as [E|N].
    + destruct (String.eqb_spec (name o) "http.enabled"); [exfalso; apply String.eqb_eq in ON; congruence|]. destruct (String.eqb_spec (name o) "rsync.enabled"); [exfalso; apply String.eqb_eq in ON; congruence|]. reflexivity.
    + destruct (String.eqb (name o) "http.enabled"), (String.eqb (name o) "rsync.enabled"); reflexivity.
  - cbn [exec] in E. destruct (incidence_update (st_incidences s) (to_json j)) as [[l e]| |]; cbn [bind] in E; try discriminate. destruct (e =? 0); [|discriminate]. injection E as <-. reflexivity.
Qed.
Lemma exec_config l : forall s s' o acc c0, Forall well_formed l -> exec_all l s = Ok s' -> In o options -> stored o = true ->
  st_config s (offset o) = match acc with Some v => v | None => c0 end ->
  st_config s' (offset o) = match fold_left (fun acc s => match gives (name o) s with Some v => Some v | None => acc end) l acc with Some v => v | None => c0 end.
Proof.
  induction l as [|x l IH]; intros s s' o acc c0 WF E I S A; cbn [exec_all fold_left] in *; [injection E as <-; exact A|].
  destruct (exec x s) as [s1| |] eqn:E1; cbn [bind] in E; try discriminate. inversion WF as [|? ? WX WL]; subst.
  eapply (IH s1 s' o _ c0); eauto. rewrite (step_value x s s1 o WX E1 I S). destruct (gives (name o) x); auto.
Qed.
Lemma manual_find o : In o options -> find (fun d => String.eqb (d_name d) (name o)) manual = Some (doc_of o).
Proof.
  intros I. rewrite manual_is. assert (G : forall l, find (fun d => String.eqb (d_name d) (name o)) (map doc_of l) = match find (fun o' => String.eqb (name o') (name o)) l with Some x => Some (doc_of x) | None => None end).
  { induction l as [|x l IH]; cbn [map find]; [reflexivity|]. cbn [doc_of d_name]. destruct (String.eqb (name x) (name o)); auto. }
  rewrite G, find_name by auto. reflexivity.
Qed.
Lemma exec_value_of l s s' o : Forall well_formed l -> exec_all l s = Ok s' -> st_config s = default_config -> In o options -> stored o = true ->
  st_config s' (offset o) = value_of l (name o).
Proof.
  intros WF E D I S. unfold value_of. rewrite (manual_find o I). cbn [doc_of d_default]. eapply exec_config; eauto. rewrite D. reflexivity.
Qed.
Lemma payload_free : forallb (fun o => negb (String.eqb "payload" (offset o))) options = true.
Proof. vm_compute. reflexivity. Qed.
Lemma exec_payload l : forall s s', Forall well_formed l -> exec_all l s = Ok s' -> st_config s' "payload"%string = st_config s "payload"%string.
Proof.
  induction l as [|x l IH]; intros s s' WF E; cbn [exec_all] in *; [injection E as <-; reflexivity|]. destruct (exec x s) as [s1| |] eqn:E1; cbn [bind] in E; try discriminate.
  inversion WF as [|? ? WX WL]; subst. rewrite (IH s1 s' WL E). destruct x as [n v|j].
  - destruct WX as (o1&I1&S1&->&FT). rewrite (exec_value o1 v s I1) in E1. injection E1 as <-. pose proof (proj1 (forallb_forall _ _) payload_free o1 I1) as P. apply negb_true_iff in P.
    unfold apply1, set_offline, store, set. destruct (type o1); cbn [st_config]; rewrite ?P; reflexivity.
  - cbn [exec] in E1. destruct (incidence_update (st_incidences s) (to_json j)) as [[l' e]| |]; cbn [bind] in E1; try discriminate. destruct (e =? 0); [|discriminate]. injection E1 as <-. reflexivity.
Qed.

(** ** Incidences *)
Lemma exec_incidences l : forall s js0 f, Forall well_formed l -> st_incidences s = IncidenceProps.table f ->
  (forall k, IncidenceSpec.configured k (IncidenceSpec.documented_default k) js0 (f k)) ->
  match exec_all l s with
  | Ok s' => exists js g, incidences_say l js /\ st_incidences s' = IncidenceProps.table g /\ forall k, IncidenceSpec.configured k (IncidenceSpec.documented_default k) (js0 ++ js) (g k)
  | Err _ => forall js, ~ incidences_say l js
  | UB => False
  end.
Proof.
  induction l as [|x l IH]; intros s js0 f WF T C; cbn [exec_all].
  - exists [], f. rewrite app_nil_r. split; [constructor|]. auto.
  - inversion WF as [|? ? WX WL]; subst. destruct x as [n v|j].
    + destruct WX as (o1&I1&S1&->&FT). rewrite (exec_value o1 v s I1). cbn [bind]. assert (T' : st_incidences (apply1 o1 v s) = IncidenceProps.table f) by (unfold apply1; destruct (type o1); exact T).
      specialize (IH _ js0 f WL T' C). destruct (exec_all l (apply1 o1 v s)) as [s'| |]; auto.
      * destruct IH as (js&g&IN&TG&CG). exists js, g. split; [constructor; auto|]. auto.
      * intros js IN. inversion IN; subst. eapply IH; eauto.
    + cbn [exec]. rewrite T. destruct (to_json j) as [m|js|m|m|m|] eqn:TJ; try (cbn [incidence_update bind Z.eqb]; intros js IN; inversion IN; congruence).
      cbn [incidence_update]. destruct (IncidenceProps.update_loop_spec js js0 IncidenceSpec.documented_default f C) as [(g&E&F&CG)|(g&a&j'&b&E&EJ&F&NS&CG)]; rewrite E; cbn [bind Z.eqb].
      * specialize (IH {| st_config := st_config s; st_incidences := IncidenceProps.table g |} (js0 ++ js) g WL eq_refl CG).
        destruct (exec_all l _) as [s'| |]; auto.
        -- destruct IH as (js'&g'&IN&TG&CG'). exists (js ++ js'), g'. split; [econstructor; eauto|]. split; auto. rewrite app_assoc. auto.
        -- intros js' IN. inversion IN; subst. eapply IH; eauto.
      * intros js' IN. inversion IN as [| |? js1 ? js2 TJ' SE _]; subst. rewrite TJ in TJ'. injection TJ' as TJ'. subst js1. apply Forall_app in SE. destruct SE as [_ SE]. inversion SE; contradiction.
Qed.

(** ** The values are of their kinds *)
Lemma protocols_bool o : In o options -> String.eqb (name o) "rsync.enabled" || String.eqb (name o) "http.enabled" = true -> kind_of o = K_bool.
Proof.
  assert (H : forallb (fun o => negb (String.eqb (name o) "rsync.enabled" || String.eqb (name o) "http.enabled") || match kind_of o with K_bool => true | _ => false end) options = true) by (vm_compute; reflexivity).
  intros I E. pose proof (proj1 (forallb_forall _ _) H o I) as K. cbn beta in K. rewrite E in K. cbn in K. destruct (kind_of o); try discriminate. reflexivity.
Qed.
Lemma gives_fits o x v : In o options -> well_formed x -> gives (name o) x = Some v -> fits (kind_of o) v.
Proof.
  intros I WF G. destruct x as [n w|j]; [|discriminate]. destruct WF as (o1&I1&S1&->&FT). cbn [gives] in G. destruct (String.eqb_spec (name o1) (name o)) as [E|N].
  - injection G as <-. rewrite (same_name _ _ I1 I E) in FT. exact FT.
  - destruct (String.eqb (name o1) "work-offline" && (String.eqb (name o) "rsync.enabled" || String.eqb (name o) "http.enabled"))%bool eqn:C; [|discriminate].
    apply andb_prop in C. destruct C as [_ C]. rewrite (protocols_bool o I C). destruct w; try discriminate. injection G as <-. cbn. eauto.
Qed.
Lemma given_fits o l v : In o options -> Forall well_formed l -> given l (name o) = Some v -> fits (kind_of o) v.
Proof.
  intros I WF. unfold given. assert (A : forall acc, (forall v, acc = Some v -> fits (kind_of o) v) -> fold_left (fun acc s => match gives (name o) s with Some v => Some v | None => acc end) l acc = Some v -> fits (kind_of o) v).
  { induction WF as [|x l WX WL IH]; intros acc A; cbn [fold_left]; [auto|]. apply IH. intros v' E. destruct (gives (name o) x) eqn:G; [|auto]. injection E as <-. eapply gives_fits; eauto. }
  apply A. discriminate.
Qed.
Definition default_ok (o : option_field) : bool :=
  match kind_of o, default_config (offset o) with
  | K_text _, VStr (Some []) => false
  | K_text _, VStr _ => true
  | K_bool, VBool _ => true
  | K_number lo hi, VUint n => (lo <=? n) && (n <=? hi)
  | K_word _, VEnum _ => true
  | K_list (Some n), VArr l => Z.of_nat (length l) <=? n
  | K_list None, VArr l => true
  | (K_stop | K_file | K_incidences), _ => true
  | _, _ => false
  end.
Lemma defaults_ok : forallb default_ok options = true.
Proof. vm_compute. reflexivity. Qed.
Lemma value_fits l o : Forall well_formed l -> In o options -> stored o = true ->
  fits (kind_of o) (value_of l (name o)) \/ exists words, kind_of o = K_word words /\ value_of l (name o) = default_config (offset o) /\ exists n, value_of l (name o) = VEnum n.
Proof.
  intros WF I S. unfold value_of. rewrite (manual_find o I). cbn [doc_of d_default]. destruct (given l (name o)) as [v|] eqn:G; [left; eapply given_fits; eauto|].
  pose proof (proj1 (forallb_forall _ _) defaults_ok o I) as D. unfold default_ok in D. unfold stored in S. destruct (kind_of o) as [| |nl| |lo hi|ws|lim|]; try discriminate; destruct (default_config (offset o)) as [t|b|n|a|n]; try discriminate; cbn [fits]; eauto 6.
  - left. exists t. split; auto. destruct t as [[|c t]|]; congruence.
  - left. exists n. split; auto. lia.
  - destruct lim; discriminate.
  - destruct lim; discriminate.
  - destruct lim; discriminate.
  - left. exists a. split; auto. destruct lim; cbn [within]; auto. lia.
  - destruct lim; discriminate.
Qed.

(** ** Reading them *)
Definition located (n m : string) (p : kind -> bool) : bool :=
  match find (fun o => String.eqb (name o) n) options with Some o => String.eqb (offset o) m && stored o && p (kind_of o) | None => false end.
Lemma located_is n m p : located n m p = true -> exists o, In o options /\ stored o = true /\ name o = n /\ offset o = m /\ p (kind_of o) = true.
Proof.
  unfold located. destruct (find _ options) as [o|] eqn:F; [|discriminate]. apply find_some in F. destruct F as [I E]. apply String.eqb_eq in E. rewrite !andb_true_iff. intros [[A B] C]. apply String.eqb_eq in A.
  exists o. auto.
Qed.
Definition is_text k := match k with K_text _ => true | _ => false end.
Definition is_bool k := match k with K_bool => true | _ => false end.
Definition is_number k := match k with K_number _ _ => true | _ => false end.
Definition is_word k := match k with K_word _ => true | _ => false end.
Lemma read_text l n m : Forall well_formed l -> located n m is_text = true -> exists s, value_of l n = VStr s.
Proof. intros WF L. destruct (located_is _ _ _ L) as (o&I&S&<-&_&P). destruct (value_fits l o WF I S) as [F|(ws&K&_)]; [destruct (kind_of o); try discriminate; destruct F as (s&->&_); eauto|rewrite K in P; discriminate]. Qed.
Lemma read_bool l n m : Forall well_formed l -> located n m is_bool = true -> exists b, value_of l n = VBool b.
Proof. intros WF L. destruct (located_is _ _ _ L) as (o&I&S&<-&_&P). destruct (value_fits l o WF I S) as [F|(ws&K&_)]; [destruct (kind_of o); try discriminate; destruct F as (s&->); eauto|rewrite K in P; discriminate]. Qed.
Lemma read_number l n m : Forall well_formed l -> located n m is_number = true -> exists b, value_of l n = VUint b.
Proof. intros WF L. destruct (located_is _ _ _ L) as (o&I&S&<-&_&P). destruct (value_fits l o WF I S) as [F|(ws&K&_)]; [destruct (kind_of o); try discriminate; destruct F as (s&->&_); eauto|rewrite K in P; discriminate]. Qed.
Lemma read_word l n m : Forall well_formed l -> located n m is_word = true -> exists b, value_of l n = VEnum b.
Proof. intros WF L. destruct (located_is _ _ _ L) as (o&I&S&<-&_&P). destruct (value_fits l o WF I S) as [F|(ws&K&_&E)]; [destruct (kind_of o); try discriminate; destruct F as (s&x&_&->); eauto|exact E]. Qed.

Lemma observed_outputs : Forall (fun p => exists m, located (fst p) m (fun _ => true) = true /\ (forall c, snd p c = c m) /\ m <> "log.output"%string /\ m <> "validation_log.output"%string) observed.
Proof.
  unfold observed. repeat (apply Forall_cons; [eexists; split; [|split; [cbn [snd]; intros c; reflexivity|split; discriminate]]; vm_compute; reflexivity|]). apply Forall_nil.
Qed.

Section WithWorld.
  Variable w : world.
  Variables (l : list setting) (operands : list (list Z)) (c : config).
  Hypothesis WF : Forall well_formed l.
  Hypothesis reads : forall o, In o options -> stored o = true -> c (offset o) = value_of l (name o).
  Hypothesis payload : c "payload"%string = VStr (hd_error operands).

  Lemma at_name n m p : located n m p = true -> c m = value_of l n.
  Proof. intros L. destruct (located_is _ _ _ L) as (o&I&S&<-&<-&_). auto. Qed.
  Ltac here := vm_compute; reflexivity.

  Lemma vfd f b : valid_file_or_dir w f b = true <-> if b then is_file_or_dir w f else is_dir w f.
  Proof.
    unfold valid_file_or_dir, is_file_or_dir, is_dir. destruct (w_stat w f) as [[]|], b; cbn; split; intros; try tauto; try discriminate; try (left; congruence); try (right; congruence); try (destruct H; congruence); congruence.
  Qed.
  Lemma at_most_spec a b ma mb : located a ma is_number = true -> located b mb is_number = true -> (at_most l a b <-> (as_uint (c mb) <? as_uint (c ma)) = false).
  Proof.
    intros A B. rewrite (at_name a ma _ A), (at_name b mb _ B). unfold at_most. destruct (read_number l a ma WF A) as (x&->), (read_number l b mb WF B) as (y&->). cbn [as_uint].
    rewrite Z.ltb_ge. split; [intros (x'&y'&E1&E2&H)|eauto]. injection E1 as <-. injection E2 as <-. auto.
  Qed.
  Lemma yes_spec a ma : located a ma is_bool = true -> (yes l a <-> as_bool (c ma) = true).
  Proof. intros A. rewrite (at_name a ma _ A). unfold yes. destruct (read_bool l a ma WF A) as (x&->). cbn. split; congruence. Qed.

  Lemma validate_spec : validate_config w c = true <-> consistent w l operands.
  Proof.
    unfold validate_config, consistent.
    rewrite (at_name "mode" "mode" is_word) by here. destruct (read_word l "mode" "mode" WF ltac:(here)) as (md&->). cbn [as_enum].
    destruct (Z.eqb_spec md PRINT_FILE) as [->|NP]; [tauto|].
    rewrite payload. cbn [as_str]. destruct operands as [|op ops]; cbn [hd_error].
    2:{ split; [discriminate|]. intros [H|[H _]]; [congruence|discriminate]. }
    rewrite (at_name "tal" "tal" is_text) by here. destruct (read_text l "tal" "tal" WF ltac:(here)) as (tal&->). cbn [as_str].
    destruct tal as [tal|].
    2:{ split; [discriminate|]. intros [H|(_&(t&H&_)&_)]; congruence. }
    pose proof (yes_spec "init-tals" "init_tals" ltac:(here)) as YS. destruct (as_bool (c "init_tals"%string)); cbn [negb].
    - assert (Y : yes l "init-tals") by (apply YS; reflexivity). destruct (valid_file_or_dir w tal false) eqn:V; cbn [negb].
      + split; auto. intros _. right. split; auto. split; auto. exists tal. split; auto. apply vfd in V. split; auto. right; auto.
      + split; [discriminate|]. intros [H|(_&(t&E&_&H)&_)]; [congruence|]. injection E as <-. apply H in Y. apply (vfd tal false) in Y. congruence.
    - assert (Y : ~ yes l "init-tals") by (intros Y; apply YS in Y; discriminate). destruct (valid_file_or_dir w tal true) eqn:V; cbn [negb].
      2:{ split; [discriminate|]. intros [H|(_&(t&E&H&_)&_)]; [congruence|]. injection E as <-. apply (vfd tal true) in H. congruence. }
      apply vfd in V.
      pose proof (at_most_spec "server.interval.refresh" "server.interval.expire" "server.interval.refresh" "server.interval.expire" ltac:(here) ltac:(here)) as R1.
      pose proof (at_most_spec "server.interval.retry" "server.interval.expire" "server.interval.retry" "server.interval.expire" ltac:(here) ltac:(here)) as R2.
      destruct (as_uint (c "server.interval.expire"%string) <? as_uint (c "server.interval.refresh"%string)); cbn [orb].
      { split; [discriminate|]. intros [H|(_&_&[H|(H&_)])]; [congruence|tauto|]. apply R1 in H. discriminate. }
      destruct (as_uint (c "server.interval.expire"%string) <? as_uint (c "server.interval.retry"%string)); cbn [orb].
      { split; [discriminate|]. intros [H|(_&_&[H|(_&H&_)])]; [congruence|tauto|]. apply R2 in H. discriminate. }
      rewrite (at_name "slurm" "slurm" is_text) by here. destruct (read_text l "slurm" "slurm" WF ltac:(here)) as (slurm&->). cbn [as_str].
      assert (T : exists t, VStr (Some tal) = VStr (Some t) /\ is_file_or_dir w t /\ (yes l "init-tals" -> is_dir w t)) by (exists tal; split; auto; split; auto; tauto).
      destruct slurm as [slurm|].
      + rewrite (vfd slurm true). split.
        * intros H. right. split; auto. split; auto. right. split; [apply R1; auto|]. split; [apply R2; auto|]. right. eauto.
        * intros [H|(_&_&[H|(_&_&[H|(f&E&H)])])]; [congruence|tauto|congruence|]. injection E as <-. auto.
      + split; auto. intros _. right. split; auto. split; auto. right. split; [apply R1; auto|]. split; [apply R2; auto|]. auto.
  Qed.
End WithWorld.
