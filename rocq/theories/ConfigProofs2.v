(** Proofs about Config.v: the command line. *)
From Coq Require Import String.
From Verif Require Import Base BaseLemmas CString Text TextSpec TextProps NtopSpec Slurm Manifest Incidence Config ConfigSpec ConfigProofs.
Notation length := List.length.

Definition args_avail (o : option_field) : bool := available AVAILABILITY_GETOPT o.
Definition long_of (o : option_field) : long_option := {| lo_name := cstr (name o); lo_has_arg := type_has_arg (type o); lo_val := id o |}.
Lemma long_opts_is : long_opts = map long_of (filter args_avail options).
Proof. reflexivity. Qed.
Lemma cnames_unique : NoDup (map (fun o => cstr (name o)) options).
Proof. apply (unique_NoDup streq); [intros; subst; apply streq_refl|vm_compute; reflexivity]. Qed.
Lemma same_cname x y : In x options -> In y options -> cstr (name x) = cstr (name y) -> x = y.
Proof. apply (NoDup_map_inj (fun o => cstr (name o))), cnames_unique. Qed.
Lemma options_NoDup : NoDup options.
Proof. eapply NoDup_map_inv. apply names_unique. Qed.

Lemma has_arg_kind o : In o options -> args_avail o = true ->
  type_has_arg (type o) = if is_stop (kind_of o) then no_argument else if wants_value (kind_of o) then required_argument else optional_argument.
Proof.
  assert (H : forallb (fun o => negb (args_avail o) ||
    match type_has_arg (type o), is_stop (kind_of o), wants_value (kind_of o) with no_argument, true, _ | required_argument, false, true | optional_argument, false, false => true | _, _, _ => false end) options = true)
    by (vm_compute; reflexivity).
  intros I A. pose proof (proj1 (forallb_forall _ _) H o I) as K. cbn beta in K. rewrite A in K. cbn [negb orb] in K.
  destruct (type_has_arg (type o)), (is_stop (kind_of o)), (wants_value (kind_of o)); try discriminate; reflexivity.
Qed.
Lemma takes_kind o : In o options -> args_avail o = true -> takes_value (kind_of o) = negb (is_stop (kind_of o)).
Proof.
  assert (H : forallb (fun o => negb (args_avail o) || Bool.eqb (takes_value (kind_of o)) (negb (is_stop (kind_of o)))) options = true) by (vm_compute; reflexivity).
  intros I A. pose proof (proj1 (forallb_forall _ _) H o I) as K. cbn beta in K. rewrite A in K. cbn [negb orb] in K. apply Bool.eqb_prop in K. exact K.
Qed.

Lemma manual_In d : In d manual -> exists o, In o options /\ d = doc_of o.
Proof. rewrite manual_is. intros H. apply in_map_iff in H. destruct H as (o&E&I). eauto. Qed.
Lemma manual_of o : In o options -> In (doc_of o) manual.
Proof. rewrite manual_is. apply in_map. Qed.
Lemma doc_of_inj o o' : In o options -> In o' options -> doc_of o = doc_of o' -> o = o'.
Proof. intros I I' E. apply same_name; auto. change (d_name (doc_of o) = d_name (doc_of o')). rewrite E. reflexivity. Qed.

Lemma starts_with_spec p s : reflect (exists r, s = p ++ r) (starts_with p s).
Proof.
  unfold starts_with. destruct (streq_spec p (firstn (length p) s)) as [E|N]; fold (streq p (firstn (length p) s)).
  - rewrite <- E, streq_refl. left. exists (skipn (length p) s). rewrite E at 2. rewrite <- (firstn_skipn (length p) s) at 1. f_equal; try congruence.
  - destruct (streq_spec p (firstn (length p) s)); [contradiction|]. right. intros (r&->). apply N. rewrite firstn_app, firstn_all, Nat.sub_diag. cbn. rewrite app_nil_r. reflexivity.
Qed.
Lemma filter_one {A} (f : A -> bool) l x : NoDup l -> In x l -> f x = true -> (forall y, In y l -> f y = true -> y = x) -> filter f l = [x].
Proof.
  intros N I F U. induction l as [|a l IH]; [destruct I|]. inversion N as [|? ? N1 N2]; subst. cbn [filter]. destruct I as [->|I].
  - rewrite F. f_equal. clear IH. assert (G : forall y, In y l -> f y = false). { intros y Y. destruct (f y) eqn:E; auto. exfalso. apply N1. rewrite <- (U y); auto. right. auto. }
    clear - G. induction l as [|b l IH]; [reflexivity|]. cbn [filter]. rewrite (G b) by (left; auto). apply IH. intros. apply G. right. auto.
  - destruct (f a) eqn:E; [exfalso; apply N1; rewrite (U a); auto; left; auto|]. apply IH; auto. intros. apply U; auto. right. auto.
Qed.
Lemma long_NoDup : NoDup long_opts.
Proof.
  rewrite long_opts_is. eapply (NoDup_map_inv lo_name). rewrite map_map. cbn [long_of lo_name].
  apply (unique_NoDup streq); [intros; subst; apply streq_refl|vm_compute; reflexivity].
Qed.
Lemma long_In lo : In lo long_opts -> exists o, In o options /\ args_avail o = true /\ lo = long_of o.
Proof. rewrite long_opts_is. intros H. apply in_map_iff in H. destruct H as (o&E&I). apply filter_In in I. destruct I. exists o. auto. Qed.
Lemma long_of_In o : In o options -> args_avail o = true -> In (long_of o) long_opts.
Proof. intros I A. rewrite long_opts_is. apply in_map, filter_In. auto. Qed.

Lemma find_long_sound n lo : find_long long_opts n = Some lo -> exists o, In o options /\ args_avail o = true /\ lo = long_of o /\ designates n (doc_of o).
Proof.
  unfold find_long. destruct (find _ long_opts) as [lo'|] eqn:F.
  - intros H. injection H as ->. apply find_some in F. destruct F as [I E]. change (streq (lo_name lo) n = true) in E. destruct (streq_spec (lo_name lo) n) as [<-|]; [|discriminate].
    destruct (long_In lo I) as (o&IO&A&->). exists o. split; [auto|]. split; [auto|]. split; [auto|]. split; [apply manual_of; auto|]. split; [exact A|]. left. reflexivity.
  - destruct (filter (fun o => starts_with n (lo_name o)) long_opts) as [|lo1 [|lo2 l]] eqn:FL; try discriminate. intros H. injection H as ->.
    assert (IF : In lo (filter (fun o => starts_with n (lo_name o)) long_opts)) by (rewrite FL; left; reflexivity). apply filter_In in IF. destruct IF as [I S].
    destruct (long_In lo I) as (o&IO&A&->). exists o. split; [auto|]. split; [auto|]. split; [auto|]. split; [apply manual_of; auto|]. split; [exact A|]. right. split; [|split].
    + intros d' I' A' ->. destruct (manual_In d' I') as (o'&IO'&->). pose proof (find_none _ _ F (long_of o') (long_of_In o' IO' A')) as K. change (streq (cstr (name o')) (cstr (name o')) = false) in K. rewrite streq_refl in K. discriminate.
    + change (starts_with n (cstr (name o)) = true) in S. destruct (starts_with_spec n (cstr (name o))); [auto|discriminate].
    + intros d' r I' A' E. destruct (manual_In d' I') as (o'&IO'&->). assert (IF : In (long_of o') (filter (fun o => starts_with n (lo_name o)) long_opts)).
      { apply filter_In. split; [apply long_of_In; auto|]. change (starts_with n (cstr (name o')) = true). destruct (starts_with_spec n (cstr (name o'))) as [|NS]; auto. exfalso. apply NS. exists r. exact E. }
      rewrite FL in IF. destruct IF as [IF|[]]. injection IF as E1 _ _. rewrite (same_cname o o' IO IO' E1). reflexivity.
Qed.
Lemma find_long_complete n o : In o options -> designates n (doc_of o) -> find_long long_opts n = Some (long_of o).
Proof.
  intros IO (_&A&D). change (args_avail o = true) in A. unfold find_long. destruct D as [->|(NE&(r&PX)&U)].
  - cbn [doc_of d_name]. destruct (find (fun o' => list_eqb Z.eqb (lo_name o') (cstr (name o))) long_opts) as [lo|] eqn:F.
    + apply find_some in F. destruct F as [I E]. change (streq (lo_name lo) (cstr (name o)) = true) in E. destruct (streq_spec (lo_name lo) (cstr (name o))) as [E1|]; [|discriminate].
      destruct (long_In lo I) as (o'&IO'&A'&->). cbn [long_of lo_name] in E1. rewrite (same_cname _ _ IO' IO E1). reflexivity.
    + pose proof (find_none _ _ F (long_of o) (long_of_In o IO A)) as K. change (streq (cstr (name o)) (cstr (name o)) = false) in K. rewrite streq_refl in K. discriminate.
  - cbn [doc_of d_name] in PX. destruct (find (fun o' => list_eqb Z.eqb (lo_name o') n) long_opts) as [lo|] eqn:F.
    + exfalso. apply find_some in F. destruct F as [I E]. change (streq (lo_name lo) n = true) in E. destruct (streq_spec (lo_name lo) n) as [E1|]; [|discriminate].
      destruct (long_In lo I) as (o'&IO'&A'&->). eapply (NE (doc_of o')); [apply manual_of; auto|exact A'|]. symmetry. exact E1.
    + rewrite (filter_one _ long_opts (long_of o)); [reflexivity|apply long_NoDup|apply long_of_In; auto| |].
      * cbn [long_of lo_name]. destruct (starts_with_spec n (cstr (name o))) as [|NS]; auto. exfalso. apply NS. eauto.
      * intros lo I S. destruct (long_In lo I) as (o'&IO'&A'&->). cbn [long_of lo_name] in S. destruct (starts_with_spec n (cstr (name o'))) as [(r'&E')|]; [|discriminate].
        f_equal. apply doc_of_inj; auto. eapply U; [apply manual_of; auto|exact A'|exact E'].
Qed.

Lemma split_eq_spec s n v : split_eq s = (n, v) <-> ~ In 61 n /\ s = n ++ match v with None => [] | Some v => 61 :: v end.
Proof.
  revert n. induction s as [|c s IH]; intros n; cbn [split_eq].
  - split; [intros H; injection H as <- <-; cbn; tauto|]. intros [_ H]. symmetry in H. apply app_eq_nil in H. destruct H as [-> H]. destruct v; [discriminate|reflexivity].
  - destruct (Z.eqb_spec c 61) as [->|NC].
    + split; [intros H; injection H as <- <-; cbn; tauto|]. intros [N H]. destruct n as [|x n]; [destruct v; [injection H as ->; reflexivity|discriminate]|]. injection H as E _. exfalso. apply N. left. auto.
    + destruct (split_eq s) as [n' v'] eqn:S. split.
      * intros H. injection H as <- <-. destruct (proj1 (IH n') eq_refl) as [N ->]. split; [|reflexivity]. intros [E|I]; [congruence|tauto].
      * intros [N H]. destruct n as [|x n]; [destruct v; [injection H as -> _; congruence|discriminate]|]. injection H as <- E. f_equal; [f_equal|].
        -- assert (G : (n', v') = (n, v)) by (apply IH; split; [intros I; apply N; right; auto|exact E]). congruence.
        -- assert (G : (n', v') = (n, v)) by (apply IH; split; [intros I; apply N; right; auto|exact E]). congruence.
Qed.

(** The letters. *)
Definition letter_ok (sh : list Z) (o : option_field) : bool :=
  negb (args_avail o) || negb (is_alphanumeric (id o)) ||
  match find_short sh (id o), is_stop (kind_of o) with Some no_argument, true | Some required_argument, false => true | _, _ => false end.
Lemma letter_ok_spec sh o : letter_ok sh o = true -> args_avail o = true -> is_alphanumeric (id o) = true ->
  find_short sh (id o) = Some (if is_stop (kind_of o) then no_argument else required_argument).
Proof.
  unfold letter_ok. intros K A AN. rewrite A, AN in K. cbn [negb orb] in K. destruct (find_short sh (id o)) as [[]|], (is_stop (kind_of o)); try discriminate; reflexivity.
Qed.
Lemma letters_ok : forallb (letter_ok short_opts) options = true.
Proof. vm_compute. reflexivity. Qed.
Lemma find_short_letter o : In o options -> args_avail o = true -> is_alphanumeric (id o) = true ->
  find_short short_opts (id o) = Some (if is_stop (kind_of o) then no_argument else required_argument).
Proof. intros I A AN. apply letter_ok_spec; auto. exact (proj1 (forallb_forall _ _) letters_ok o I). Qed.
Lemma find_short_In sh c h : find_short sh c = Some h -> In c sh /\ c <> 58.
Proof.
  induction sh as [|x sh IH]; cbn [find_short]; [discriminate|]. destruct ((x =? c) && negb (c =? 58) && negb (c =? 59)) eqn:E.
  - intros _. repeat rewrite andb_true_iff in E. destruct E as [[E1 E2] _]. apply Z.eqb_eq in E1. subst. split; [left; reflexivity|]. destruct (Z.eqb_spec c 58); [discriminate|auto].
  - intros H. destruct (IH H). split; auto. right. auto.
Qed.
Definition known_letter (c : Z) : bool := (c =? 58) || existsb (fun o => args_avail o && is_alphanumeric (id o) && (id o =? c)) options.
Lemma known_letters : forallb known_letter short_opts = true.
Proof. vm_compute. reflexivity. Qed.
Lemma find_short_letters c h : find_short short_opts c = Some h -> exists o, In o options /\ args_avail o = true /\ is_alphanumeric (id o) = true /\ id o = c.
Proof.
  intros H. destruct (find_short_In _ _ _ H) as [I N]. pose proof (proj1 (forallb_forall _ _) known_letters c I) as K. unfold known_letter in K.
  destruct (Z.eqb_spec c 58); [congruence|]. cbn [orb] in K. apply existsb_exists in K. destruct K as (o&IO&K). apply andb_prop in K. destruct K as [K K3]. apply andb_prop in K. destruct K as [K1 K2].
  apply Z.eqb_eq in K3. exists o. auto.
Qed.
Lemma lettered_of c o : In o options -> (lettered c (doc_of o) <-> args_avail o = true /\ is_alphanumeric (id o) = true /\ id o = c).
Proof.
  intros I. unfold lettered. cbn [doc_of d_argv d_short]. fold (args_avail o). destruct (is_alphanumeric (id o)).
  - split; [intros (_&A&E); injection E as E; auto|]. intros (A&_&<-). split; [apply manual_of; auto|auto].
  - split; [intros (_&_&E); discriminate|]. intros (_&E&_). discriminate.
Qed.

Section WithWorld.
  Variable w : world.
  Hypothesis loads : forall f j, w_load w f = Some j -> no_duplicates j.

  Lemma find_id o : In o options -> args_avail o = true -> find (fun f => id f =? id o) (foreach_option options AVAILABILITY_GETOPT) = Some o.
  Proof.
    intros I A. rewrite foreach_is. destruct (find (fun f => id f =? id o) (filter (available AVAILABILITY_GETOPT) options)) as [o'|] eqn:F.
    - apply find_some in F. destruct F as [I' E]. apply filter_In in I'. apply Z.eqb_eq in E. rewrite (same_id o' o); tauto.
    - exfalso. pose proof (find_none _ _ F o) as K. cbn beta in K. rewrite Z.eqb_refl in K. discriminate K. apply filter_In. auto.
  Qed.
  Lemma json_kind o : In o options -> handler o = Some handle_json -> kind_of o = K_file.
  Proof. unfold kind_of. intros _ ->. reflexivity. Qed.

  Lemma item_of o arg l : In o options -> item_says w (name o, arg) l ->
    (exists v, args_avail o = true /\ says_argv (kind_of o) arg v /\ l = [S_value (name o) v]) \/
    (exists f j, kind_of o = K_file /\ arg = Some f /\ w_load w f = Some j /\ file_says j manual l).
  Proof.
    intros I H. inversion H as [d a v ID AD SA E1 E2|d f j l' ID KD L FS E1 E2]; subst.
    - destruct (manual_In d ID) as (o'&I'&->). assert (o' = o) by (apply same_name; auto). subst o'. left. exists v. auto.
    - destruct (manual_In d ID) as (o'&I'&->). assert (o' = o) by (apply same_name; auto). subst o'. right. exists f, j. auto.
  Qed.

  Lemma handle_opt_some o arg s s' : In o options -> args_avail o = true ->
    (handle_opt w (id o) arg s = Ok (Some s') <-> exists l, item_says w (name o, arg) l /\ exec_all l s = Ok s').
  Proof.
    intros I A. unfold handle_opt. rewrite find_id by auto. destruct (handler o) as [h|] eqn:HO.
    - destruct h; cbn [run_handler].
      1,2,3: (split; [discriminate|]; intros (l&IS&_); exfalso; apply item_of in IS; auto; unfold kind_of in IS; rewrite HO in IS; destruct IS as [(v&_&[]&_)|(f&j&K&_)]; discriminate).
      pose proof (json_kind o I HO) as K. destruct arg as [f|].
      + unfold set_config_from_file. destruct (w_load w f) as [j|] eqn:L; cbn [bind].
        * split.
          -- destruct (json_to_config j s) as [s1| |] eqn:J; cbn [bind]; try discriminate. intros H. injection H as <-. apply json_to_config_spec in J; eauto. destruct J as (l&FS&E).
             exists l. split; auto. apply (is_file w (doc_of o) f j l); auto. apply manual_of; auto.
          -- intros (l&IS&E). apply item_of in IS; auto. destruct IS as [(v&_&SA&_)|(f'&j'&_&EF&L'&FS)].
             ++ rewrite K in SA. destruct SA.
             ++ injection EF as <-. assert (j' = j) by congruence. subst j'. rewrite (proj2 (json_to_config_spec j s s' (loads _ _ L))) by eauto. reflexivity.
        * split; [discriminate|]. intros (l&IS&E). apply item_of in IS; auto. destruct IS as [(v&_&SA&_)|(f'&j'&_&EF&L'&FS)]; [rewrite K in SA; destruct SA|]. injection EF as <-. congruence.
      + split; [discriminate|]. intros (l&IS&E). apply item_of in IS; auto. destruct IS as [(v&_&SA&_)|(f'&j'&_&EF&_)]; [rewrite K in SA; destruct SA|discriminate].
    - assert (NK : kind_of o <> K_stop /\ kind_of o <> K_file). { pose proof (proj1 (handled o I) HO) as K. split; intros E; rewrite E in K; discriminate. } split.
      + destruct (parse_argv o arg s) as [s1| |] eqn:P; cbn [bind]; try discriminate. intros H. injection H as <-. apply parse_argv_spec in P; auto. destruct P as (v&SA&->).
        exists [S_value (name o) v]. split; [apply (is_value w (doc_of o) arg v); auto; apply manual_of; auto|]. cbn [exec_all]. rewrite exec_value by auto. reflexivity.
      + intros (l&IS&E). apply item_of in IS; auto. destruct IS as [(v&_&SA&->)|(f'&j'&K&_)]; [|tauto]. cbn [exec_all] in E. rewrite exec_value in E by auto. cbn [bind] in E. injection E as <-.
        rewrite (proj2 (parse_argv_spec o arg s (apply1 o v s) I HO)) by eauto. reflexivity.
  Qed.
  Lemma handle_opt_none o arg s : In o options -> args_avail o = true -> (handle_opt w (id o) arg s = Ok None <-> is_stop (kind_of o) = true).
  Proof.
    intros I A. unfold handle_opt. rewrite find_id by auto. pose proof (handled o I) as HD. destruct (handler o) as [h|] eqn:HO.
    - unfold kind_of. rewrite HO. destruct h; cbn [run_handler is_stop]; try tauto.
      split; [|discriminate]. destruct arg as [f|]; [|discriminate]. destruct (set_config_from_file w f s); discriminate.
    - split; [destruct (parse_argv o arg s); discriminate|]. intros S. pose proof (proj1 HD eq_refl) as K. destruct (kind_of o); discriminate.
  Qed.
  Lemma handle_bad s : handle_opt w 63 None s = Err ESRCH.
  Proof. reflexivity. Qed.

  Notation ev args := (fst (getopt_long long_opts short_opts args)).
  Notation ops args := (snd (getopt_long long_opts short_opts args)).

  (** The forms of an argument. *)
  Lemma getopt_cons a args : getopt_long long_opts short_opts (a :: args) =
      match classify a with
      | W_end => ([], args)
      | W_long body =>
          let '(name, value) := split_eq body in
          match find_long long_opts name with
          | None => (bad, [])
          | Some o =>
              match value, lo_has_arg o with
              | Some _, no_argument => (bad, [])
              | None, required_argument =>
                  match args with
                  | [] => (bad, [])
                  | v :: args => ((lo_val o, Some v) :: ev args, ops args)
                  end
              | _, _ => ((lo_val o, value) :: ev args, ops args)
              end
          end
      | W_short s =>
          match cluster short_opts s with
          | (l0, CE_bad) => (l0 ++ bad, [])
          | (l0, CE_done) => (l0 ++ ev args, ops args)
          | (l0, CE_needs o) =>
              match args with
              | [] => (l0 ++ bad, [])
              | v :: args => (l0 ++ (o, Some v) :: ev args, ops args)
              end
          end
      | W_operand => (ev args, a :: ops args)
      end.
  Proof.
    generalize long_opts short_opts. intros longs shorts. cbn [getopt_long]. destruct (classify a) as [| |body|s].
    - destruct (getopt_long longs shorts args); reflexivity.
    - reflexivity.
    - destruct (split_eq body) as [n v]. destruct (find_long longs n) as [o|]; [|reflexivity].
      destruct v as [v|], (lo_has_arg o); try reflexivity; try (destruct (getopt_long longs shorts args); reflexivity).
      destruct args as [|v args]; [reflexivity|]. destruct (getopt_long longs shorts args); reflexivity.
    - destruct (cluster shorts s) as [l0 []]; try reflexivity; [destruct (getopt_long longs shorts args); reflexivity|].
      destruct args as [|v args]; [reflexivity|]. destruct (getopt_long longs shorts args); reflexivity.
  Qed.
  Lemma classify_spec a :
    match classify a with
    | W_operand => a = [45] \/ hd_error a <> Some 45
    | W_end => a = [45; 45]
    | W_long b => a = 45 :: 45 :: b /\ b <> []
    | W_short s => exists c t, s = c :: t /\ c <> 45 /\ a = 45 :: s
    end.
  Proof.
    destruct a as [|c [|c2 t]]; cbn [classify].
    - right. discriminate.
    - destruct (Z.eq_dec c 45) as [->|]; [auto|]. right. cbn. congruence.
    - destruct (Z.eqb_spec c 45) as [->|]; [|right; cbn; congruence]. destruct (Z.eqb_spec c2 45) as [->|]; [|eauto 6]. destruct t; auto. split; auto. discriminate.
  Qed.
End WithWorld.
