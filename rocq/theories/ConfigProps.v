(** * C91: the configuration is what the command line and the file ask for *)
From Coq Require Import String.
From Verif Require Import Base BaseLemmas CString Text TextSpec TextProps NtopSpec Slurm Manifest Incidence Config ConfigSpec ConfigProofs ConfigProofs2 ConfigProofs3 ConfigProofs4 ConfigProofs5.
From Verif Require IncidenceSpec IncidenceProps.
Notation length := List.length.

Notation main_config w args := (handle_flags_config w (incidence_init incidences) args).
Notation initial := {| st_config := default_config; st_incidences := incidence_init incidences |}.
Opaque options manual long_opts short_opts getopt_long.

Lemma said_exec l js : Forall well_formed l -> incidences_say l js -> exists s, exec_all l initial = Ok s.
Proof. intros WF IN. pose proof (initial_incidences l WF) as H. destruct (exec_all l initial); [eauto|destruct (H js IN)|destruct H]. Qed.
Lemma exec_said l s : Forall well_formed l -> exec_all l initial = Ok s -> exists js, incidences_say l js.
Proof. intros WF E. pose proof (initial_incidences l WF) as H. rewrite E in H. destruct H as (js&H&_). eauto. Qed.
Lemma asks_finish w args l operands : rejects_duplicates w -> asks w args l operands -> exists s, Forall well_formed l /\ exec_all l initial = Ok s /\ finish w l operands s (main_config w args).
Proof.
  intros D (items&js&SP&IS&IN). pose proof (items_well_formed w items l IS) as WF. destruct (said_exec l js WF IN) as (s&E). exists s. split; auto. split; auto.
  destruct (getopt_complete w D args items operands SP l initial s IS E) as [OL <-]. apply finishes; auto.
Qed.
Lemma yes_dec l n : {yes l n} + {~ yes l n}.
Proof. unfold yes. destruct (value_of l n) as [s|[]|k|a|k]; (left; congruence) || (right; congruence). Qed.
Lemma not_yes l n : ~ yes l n -> as_bool (value_of l n) = false.
Proof. unfold yes. destruct (value_of l n) as [s|[]|k|a|k]; cbn; congruence. Qed.

(** What every outcome comes from. *)
Lemma outcomes w args r : rejects_duplicates w -> main_config w args = Ok r ->
  match opt_loop w (fst (getopt_long long_opts short_opts args)) initial with
  | Ok (Some s) => exists l operands, asks w args l operands /\ Forall well_formed l /\ exec_all l initial = Ok s /\ finish w l operands s (Ok r)
  | Ok None => asks_help w args /\ r = Exited 0
  | Err _ => exists e, e <> 0 /\ r = Failed e
  | UB => False
  end.
Proof.
  intros D H. destruct (opt_loop w _ initial) as [[s|]|e|] eqn:OL.
  - destruct (getopt_sound w D args initial _ OL) as (items&l&s1&IS&E&->&SP). pose proof (items_well_formed w items l IS) as WF. destruct (exec_said l s1 WF E) as (js&IN).
    exists l, (snd (getopt_long long_opts short_opts args)). split; [exists items, js; auto|]. split; auto. split; auto. rewrite <- H. apply finishes; auto.
  - destruct (getopt_sound w D args initial _ OL) as (items&l&s1&IS&E&d&rest&ID&SD&SP). pose proof (items_well_formed w items l IS) as WF. destruct (exec_said l s1 WF E) as (js&IN).
    split; [exists items, l, js, d, rest; auto|]. unfold handle_flags_config in H. destruct (getopt_long long_opts short_opts args) as [opts operands]. cbn [fst] in OL. rewrite OL in H. congruence.
  - unfold handle_flags_config in H. destruct (getopt_long long_opts short_opts args) as [opts operands]. cbn [fst] in OL. rewrite OL in H. injection H as <-. eexists. split; [|reflexivity]. destruct e; discriminate.
  - unfold handle_flags_config in H. destruct (getopt_long long_opts short_opts args) as [opts operands]. cbn [fst] in OL. rewrite OL in H. discriminate.
Qed.

(** ** A program that runs has the configuration that its command line and files ask for, and it makes sense. *)
Theorem C91_started : forall w args s, rejects_duplicates w -> main_config w args = Ok (Started s) ->
  exists l operands, asks w args l operands /\ consistent w l operands /\ ~ yes l "init-tals" /\ ~ yes l "init-as0-tals" /\ runs_with l operands s.
Proof.
  intros w args s D H. pose proof (outcomes w args _ D H) as O. destruct (opt_loop w _ initial) as [[s0|]|e|]; [|destruct O as [_ O]; discriminate|destruct O as (x&_&O); discriminate|destruct O].
  destruct O as (l&operands&A&WF&E&F1&F2&F3). exists l, operands. split; auto.
  assert (C : consistent w l operands).
  { destruct (operand_reads l s0 operands WF E) as (R&P&_). apply (validate_spec w l operands (st_config (with_operand operands s0)) WF R P).
    destruct (validate_config w (st_config (with_operand operands s0))) eqn:V; auto. discriminate F1. intros C. apply (validate_spec w l operands _ WF R P) in C. congruence. }
  split; auto. destruct (yes_dec l "init-tals") as [Y|N1]; [discriminate F2; auto|]. destruct (yes_dec l "init-as0-tals") as [Y|N2]; [discriminate F2; auto|]. split; auto. split; auto.
  specialize (F3 C N1 N2). destruct (as_bool (value_of l "daemon") && negb (w_daemonize w =? 0)); [discriminate|]. injection F3 as ->. apply runs; auto.
Qed.
Print Assumptions C91_started.

(** ** And every such request is served. *)
Theorem C91_starts : forall w args l operands, rejects_duplicates w -> asks w args l operands -> consistent w l operands ->
  ~ yes l "init-tals" -> ~ yes l "init-as0-tals" -> (yes l "daemon" -> w_daemonize w = 0) ->
  exists s, main_config w args = Ok (Started s) /\ runs_with l operands s.
Proof.
  intros w args l operands D A C N1 N2 DM. destruct (asks_finish w args l operands D A) as (s&WF&E&_&_&F3). specialize (F3 C N1 N2).
  replace (as_bool (value_of l "daemon") && negb (w_daemonize w =? 0)) with false in F3.
  - eexists. split; [exact F3|]. apply runs; auto.
  - destruct (yes_dec l "daemon") as [Y|N]; [rewrite (DM Y); destruct (as_bool (value_of l "daemon")); reflexivity|rewrite not_yes by auto; reflexivity].
Qed.
Print Assumptions C91_starts.

(** ** --init-tals and --init-as0-tals download them, and that's all; the status is the first that isn't 0. *)
Theorem C91_init : forall w args l operands, rejects_duplicates w -> asks w args l operands -> consistent w l operands ->
  (yes l "init-tals" -> w_tals w <> 0 -> main_config w args = Ok (Exited (w_tals w))) /\
  (~ (yes l "init-tals" /\ w_tals w <> 0) -> yes l "init-as0-tals" -> main_config w args = Ok (Exited (w_tal0s w))) /\
  (yes l "init-tals" -> w_tals w = 0 -> ~ yes l "init-as0-tals" -> main_config w args = Ok (Exited 0)).
Proof.
  intros w args l operands D A C. destruct (asks_finish w args l operands D A) as (s&WF&E&_&F2&_). specialize (F2 C). split; [|split].
  - intros Y N. rewrite F2 by auto. unfold yes in Y. rewrite Y. destruct (Z.eqb_spec (w_tals w) 0); [congruence|reflexivity].
  - intros N Y. rewrite F2 by auto. unfold yes in Y. rewrite Y. destruct (yes_dec l "init-tals") as [Y1|N1].
    + destruct (Z.eqb_spec (w_tals w) 0); [|tauto]. rewrite andb_false_r. reflexivity.
    + rewrite (not_yes l "init-tals" N1). reflexivity.
  - intros Y Z0 N. rewrite F2 by auto. rewrite (not_yes _ _ N), Z0. rewrite andb_false_r. reflexivity.
Qed.
Print Assumptions C91_init.

(** ** --help and the like end the program, successfully. *)
Theorem C91_help : forall w args, rejects_duplicates w -> asks_help w args -> main_config w args = Ok (Exited 0).
Proof.
  intros w args D (items&l&js&d&rest&ID&SD&SP&IS&IN). pose proof (items_well_formed w items l IS) as WF. destruct (said_exec l js WF IN) as (s&E).
  pose proof (getopt_stops w D args _ rest SP items d eq_refl ID SD l initial s IS E) as OL. unfold handle_flags_config. destruct (getopt_long long_opts short_opts args) as [opts operands]. cbn [fst] in OL. rewrite OL. reflexivity.
Qed.
Print Assumptions C91_help.

(** ** Anything else is refused; provided no file has a null for one of a list of words (see [C91_null_refuted]). *)
Theorem C91_refused : forall w args, rejects_duplicates w -> (forall f j, w_load w f = Some j -> ~ null_word j) ->
  ~ asks_help w args -> (forall l operands, asks w args l operands -> ~ consistent w l operands) ->
  exists e, e <> 0 /\ main_config w args = Ok (Failed e).
Proof.
  intros w args D NW NH NC. assert (NU : opt_loop w (fst (getopt_long long_opts short_opts args)) initial <> UB).
  { apply (safe_aux w (fun f j L => conj (D f j L) (NW f j L)) (length args)); auto. exists IncidenceSpec.documented_default. apply IncidenceProps.init_table. }
  assert (T : exists r, main_config w args = Ok r).
  { unfold handle_flags_config. destruct (getopt_long long_opts short_opts args) as [opts operands]. cbn [fst] in NU. destruct (opt_loop w opts initial) as [[s|]|e|]; eauto; [|congruence]. cbv zeta.
    repeat match goal with |- context [if ?b then _ else _] => destruct b; eauto end. }
  destruct T as (r&T). pose proof (outcomes w args r D T) as O. destruct (opt_loop w _ initial) as [[s0|]|e|]; [|tauto|destruct O as (e'&N&->); eauto|destruct O].
  destruct O as (l&operands&A&WF&E&F1&_). rewrite T. exists (-22). split; [discriminate|]. apply F1. eauto.
Qed.
Print Assumptions C91_refused.

(** ** The outcome is always defined, under the same proviso. *)
Theorem C91_defined : forall w args, rejects_duplicates w -> (forall f j, w_load w f = Some j -> ~ null_word j) -> main_config w args <> UB.
Proof.
  intros w args D NW. assert (NU : opt_loop w (fst (getopt_long long_opts short_opts args)) initial <> UB).
  { apply (safe_aux w (fun f j L => conj (D f j L) (NW f j L)) (length args)); auto. exists IncidenceSpec.documented_default. apply IncidenceProps.init_table. }
  unfold handle_flags_config. destruct (getopt_long long_opts short_opts args) as [opts operands]. cbn [fst] in NU. destruct (opt_loop w opts initial) as [[s|]|e|]; try discriminate; [|congruence]. cbv zeta.
  repeat match goal with |- context [if ?b then _ else _] => destruct b; try discriminate end.
Qed.
Print Assumptions C91_defined.

(** ** Every number the program reads is within the documented range, and unless it only prints a file, the expiration interval is at least the others. *)
Theorem C91_ranges : forall w args s, rejects_duplicates w -> main_config w args = Ok (Started s) ->
  (forall d lo hi get, In d manual -> d_kind d = K_number lo hi -> In (d_name d, get) observed -> exists n, get (st_config s) = VUint n /\ lo <= n <= hi) /\
  (config_get_mode (st_config s) <> VEnum PRINT_FILE -> exists refresh retry expire,
     config_get_interval_refresh (st_config s) = VUint refresh /\ config_get_interval_retry (st_config s) = VUint retry /\ config_get_interval_expire (st_config s) = VUint expire /\
     refresh <= expire /\ retry <= expire /\ 1 <= refresh <= 86400 /\ 1 <= retry <= 7200 /\ 600 <= expire <= 172800).
Proof.
  intros w args s D H. destruct (C91_started w args s D H) as (l&operands&(items&js&SP&IS&IN)&C&N1&N2&R&_). pose proof (items_well_formed w items l IS) as WF.
  assert (G : forall d lo hi get, In d manual -> d_kind d = K_number lo hi -> In (d_name d, get) observed -> exists n, get (st_config s) = VUint n /\ lo <= n <= hi).
  { intros d lo hi get I K O. rewrite (R _ _ O). destruct (manual_In d I) as (o&IO&->). cbn [doc_of d_kind d_name] in *. destruct (value_fits l o WF IO) as [F|(ws&KW&_)]; [unfold stored; rewrite K; reflexivity|rewrite K in F; exact F|congruence]. }
  split; [exact G|]. intros NP. unfold consistent in C. destruct C as [C|(_&_&C)]; [exfalso; apply NP; rewrite (R "mode"%string config_get_mode) by (left; reflexivity); exact C|].
  destruct C as [C|((x&y&X&Y&XY)&(x'&y'&X'&Y'&XY')&_)]; [contradiction|]. rewrite Y in Y'. injection Y' as <-.
  assert (O1 : In ("server.interval.refresh"%string, config_get_interval_refresh) observed) by (cbn; tauto). assert (O2 : In ("server.interval.retry"%string, config_get_interval_retry) observed) by (cbn; tauto).
  assert (O3 : In ("server.interval.expire"%string, config_get_interval_expire) observed) by (cbn; tauto).
  assert (M : forall n k, find (fun d => String.eqb (d_name d) n) manual = Some k -> In k manual /\ d_name k = n) by (intros n k F; apply find_some in F; destruct F as [F E]; apply String.eqb_eq in E; auto).
  exists x, x', y. rewrite (R _ _ O1), (R _ _ O2), (R _ _ O3). repeat (split; [assumption|]).
  destruct (M "server.interval.refresh"%string _ ltac:(vm_compute; reflexivity)) as [I1 E1]. destruct (M "server.interval.retry"%string _ ltac:(vm_compute; reflexivity)) as [I2 E2]. destruct (M "server.interval.expire"%string _ ltac:(vm_compute; reflexivity)) as [I3 E3].
  destruct (G _ 1 86400 config_get_interval_refresh I1 eq_refl O1) as (a&A&A1). destruct (G _ 1 7200 config_get_interval_retry I2 eq_refl O2) as (b&B&B1). destruct (G _ 600 172800 config_get_interval_expire I3 eq_refl O3) as (c&C&C1).
  rewrite (R _ _ O1) in A. rewrite (R _ _ O2) in B. rewrite (R _ _ O3) in C. rewrite X in A. rewrite X' in B. rewrite Y in C. injection A as <-. injection B as <-. injection C as <-. auto.
Qed.
Print Assumptions C91_ranges.

Lemma located_option c : c = 102 -> exists o, In o options /\ args_avail o = true /\ id o = c /\ handler o = Some handle_json /\ lettered c (doc_of o).
Proof.
  intros ->. destruct (find (fun o => (id o =? 102) && args_avail o && match handler o with Some handle_json => true | _ => false end) options) as [o|] eqn:F; [|vm_compute in F; discriminate].
  apply find_some in F. destruct F as [I E]. rewrite !andb_true_iff in E. destruct E as [[E A] HO]. apply Z.eqb_eq in E. exists o. split; auto. split; auto. split; auto.
  split; [destruct (handler o) as [[]|]; congruence|]. apply lettered_of; auto. rewrite E. auto.
Qed.
(** ** A file without any of the documented names, such as one that isn't an object, or one with a misspelled or dotted name, changes nothing. *)
Theorem C91_ignored : forall w args f j, rejects_duplicates w -> w_load w f = Some j -> (forall d x, In d manual -> d_json d = true -> ~ found j (path (d_name d)) x) ->
  main_config w (cstr "-f" :: f :: args) = main_config w args.
Proof.
  intros w args f j D L N. assert (J : forall s, json_to_config j s = Ok s).
  { intros s. apply (json_to_config_spec j s s (D f j L)). exists []. split; [|reflexivity]. assert (G : forall ds, incl ds manual -> file_says j ds []).
    { induction ds as [|d ds IH]; intros I; constructor; [|apply IH; intros x X; apply I; right; auto]. destruct (d_json d) eqn:DJ; auto. right. intros x. apply N; auto. apply I. left. auto. }
    apply G, incl_refl. }
  destruct (located_option 102 eq_refl) as (o&I&A&E&HO&LT). unfold handle_flags_config. change (cstr "-f") with [45; 102]. rewrite (getopt_short_form 102 [] (f :: args) o I LT).
  destruct (cluster_letter 102 [] o I LT) as [[S _]|[_ ->]]; [exfalso; unfold kind_of in S; rewrite HO in S; discriminate|]. cbn [app fst snd]. cbn [opt_loop]. unfold handle_opt. rewrite <- E, find_id by auto. rewrite HO. cbn [run_handler]. unfold set_config_from_file. rewrite L, J. cbn [bind].
  destruct (getopt_long long_opts short_opts args) as [opts operands]. reflexivity.
Qed.
Print Assumptions C91_ignored.

(** A world with TALs in /tals, the files [files], and nothing else. *)
Definition a_world (files : list (list Z * cjson)) : world :=
  {| w_load f := match find (fun p => streq (fst p) f) files with Some (_, j) => Some j | None => None end;
     w_stat f := if streq f (cstr "/tals") then Some KDir else None; w_tals := 0; w_tal0s := 0; w_daemonize := 0 |}.
Lemma no_files : rejects_duplicates (a_world []).
Proof. intros f j H. discriminate H. Qed.
Lemma one_file f j : no_duplicates j -> rejects_duplicates (a_world [(f, j)]).
Proof. intros N f' j' H. unfold a_world in H. cbn [w_load find fst] in H. destruct (streq f f'); [injection H as <-; exact N|discriminate]. Qed.
Ltac nodup := repeat first [apply nd_obj; [repeat (apply NoDup_cons; [cbn; intuition discriminate|]); apply NoDup_nil|cbn [In]; intros ? ? ?; repeat match goal with H : _ \/ _ |- _ => destruct H as [H|H] | H : False |- _ => destruct H | H : (_, _) = (_, _) |- _ => injection H as <- <- end]
  |apply nd_arr; cbn [In]; intros ? ?; repeat match goal with H : _ \/ _ |- _ => destruct H as [H|H] | H : False |- _ => destruct H | H : _ = _ |- _ => rewrite <- H; clear H end|apply nd_other; discriminate].

(** The file, then the command line, then the file again: the last one wins. *)
Example C91_example :
  let file := CObj [(cstr "server", CObj [(cstr "port", CStr (cstr "8323")); (cstr "interval", CObj [(cstr "retry", CInt 30)])]);
                    (cstr "log", CObj [(cstr "level", CStr (cstr "debug"))]); (cstr "unknown", CNull);
                    (cstr "incidences", CArr [CObj [(cstr "name", CStr (cstr "incid-crl-stale")); (cstr "action", CStr (cstr "warn"))]])] in
  let w := a_world [(cstr "fort.json", file)] in
  let args := map cstr ["--tal"; "/tals"; "--server.port=323"; "-f"; "fort.json"; "--server.interval.ret=40"; "--daemon"; "--work-offline=true"; "--log.output=console"; "-ctrue"]%string in
  rejects_duplicates w /\ (forall f j, w_load w f = Some j -> ~ null_word j) /\
  exists s, main_config w args = Ok (Started s) /\ config_get_tal (st_config s) = text "/tals" /\ config_get_server_port (st_config s) = text "8323" /\
    config_get_interval_retry (st_config s) = VUint 40 /\ config_get_op_log_level (st_config s) = VEnum LOG_DEBUG /\ config_get_op_log_output (st_config s) = VEnum SYSLOG /\
    config_get_rsync_enabled (st_config s) = VBool false /\ config_get_op_log_color_output (st_config s) = VBool true /\ config_get_interval_expire (st_config s) = VUint 7200 /\
    incidence_get_action (st_incidences s) (IncidenceSpec.id IncidenceSpec.CrlStale) = Ok INAC_WARN.
Proof.
  cbv zeta. split; [apply one_file; nodup|]. split.
  { intros f j H (d&words&I&DJ&K&F). unfold a_world in H. cbn [w_load find fst] in H. destruct (streq _ f); [|discriminate]. injection H as <-.
    apply found_path in F; [|nodup]. revert d I DJ K F. match goal with |- context [get_path ?j _] => assert (C : forallb (fun d => match d_kind d with K_word _ => match get_path j (path (d_name d)) with Some CNull => false | _ => true end | _ => true end) manual = true) by (vm_compute; reflexivity) end.
    intros d I DJ K F. pose proof (proj1 (forallb_forall _ _) C d I) as X. cbn beta in X. rewrite K, F in X. discriminate. }
  match goal with |- context [handle_flags_config ?w ?i ?a] => destruct (handle_flags_config w i a) as [[s|e|e]|e|] eqn:H; [|vm_compute in H; discriminate..] end.
  exists s. split; [reflexivity|].
  match type of H with handle_flags_config ?w ?i ?a = _ => assert (X : match handle_flags_config w i a with Ok (Started s) =>
    config_get_tal (st_config s) = text "/tals" /\ config_get_server_port (st_config s) = text "8323" /\
    config_get_interval_retry (st_config s) = VUint 40 /\ config_get_op_log_level (st_config s) = VEnum LOG_DEBUG /\ config_get_op_log_output (st_config s) = VEnum SYSLOG /\
    config_get_rsync_enabled (st_config s) = VBool false /\ config_get_op_log_color_output (st_config s) = VBool true /\ config_get_interval_expire (st_config s) = VUint 7200 /\
    incidence_get_action (st_incidences s) (IncidenceSpec.id IncidenceSpec.CrlStale) = Ok INAC_WARN | _ => False end) by (vm_compute; repeat split; reflexivity) end.
  rewrite H in X. exact X.
Qed.
(** And the hypotheses of the others: what is asked for, and help; what isn't. *)
Example C91_example_help : main_config (a_world []) (map cstr ["--tal=/nowhere"; "x"; "-h"; "--bad"]%string) = Ok (Exited 0) /\
  main_config (a_world []) (map cstr ["--tal=/nowhere"]%string) = Ok (Failed (-22)) /\ main_config (a_world []) (map cstr ["--tal=/tals"; "--log"]%string) = Ok (Failed (-3)) /\
  main_config (a_world []) (map cstr ["--tal=/tals"; "--init-tals"]%string) = Ok (Exited 0) /\ main_config (a_world []) (map cstr ["--tal=/tals"; "--server.interval.expire=600"]%string) = Ok (Failed (-22)).
Proof. vm_compute. repeat split; reflexivity. Qed.

(** ** Refuted: a configuration file is accepted or refused, whatever is in it.  A null in place of "server", "syslog" and the like is strcmp()'d. *)
Theorem C91_null_refuted : exists w f, rejects_duplicates w /\ w_load w f = Some (CObj [(cstr "mode", CNull)]) /\ main_config w [cstr "-f"; f] = UB.
Proof.
  exists (a_world [(cstr "fort.json", CObj [(cstr "mode", CNull)])]), (cstr "fort.json"). split; [apply one_file; nodup|]. split; reflexivity.
Qed.
Print Assumptions C91_null_refuted.

(** ** Refuted: a protocol that is disabled, and nothing enables by name, stays disabled.  --work-offline=false enables both. *)
Theorem C91_disabled_refuted : exists w args s, rejects_duplicates w /\ args = map cstr ["--tal=/tals"; "--rsync.enabled=false"; "--work-offline=false"]%string /\
  main_config w args = Ok (Started s) /\ config_get_rsync_enabled (st_config s) = VBool true.
Proof.
  exists (a_world []), (map cstr ["--tal=/tals"; "--rsync.enabled=false"; "--work-offline=false"]%string).
  destruct (handle_flags_config (a_world []) (incidence_init incidences) (map cstr ["--tal=/tals"; "--rsync.enabled=false"; "--work-offline=false"]%string)) as [[s|e|e]|e|] eqn:H; [|vm_compute in H; discriminate..].
  exists s. split; [apply no_files|]. split; [reflexivity|]. split; [reflexivity|].
  assert (X : match handle_flags_config (a_world []) (incidence_init incidences) (map cstr ["--tal=/tals"; "--rsync.enabled=false"; "--work-offline=false"]%string) with Ok (Started s) => config_get_rsync_enabled (st_config s) = VBool true | _ => False end) by (vm_compute; reflexivity).
  rewrite H in X. exact X.
Qed.
Print Assumptions C91_disabled_refuted.

(** ** Refuted: a file that says something it shouldn't is refused.  The one with the option's name as its only key, and one that is not an object, are accepted and ignored. *)
Theorem C91_unknown_refuted : forall args, let typo := CObj [(cstr "server.port", CStr (cstr "8323"))] in
  main_config (a_world [(cstr "fort.json", typo)]) (map cstr ["-f"; "fort.json"]%string ++ args) = main_config (a_world [(cstr "fort.json", typo)]) args /\
  main_config (a_world [(cstr "fort.json", CArr [])]) (map cstr ["-f"; "fort.json"]%string ++ args) = main_config (a_world [(cstr "fort.json", CArr [])]) args.
Proof.
  assert (G : forall j, no_duplicates j -> forallb (fun d => match get_path j (path (d_name d)) with None => true | _ => false end) manual = true ->
    forall args, main_config (a_world [(cstr "fort.json", j)]) (map cstr ["-f"; "fort.json"]%string ++ args) = main_config (a_world [(cstr "fort.json", j)]) args).
  { intros j ND C args. cbn [map app]. apply (C91_ignored _ args _ j); [apply one_file; exact ND|reflexivity|]. intros d x I _ F. apply found_path in F; auto. pose proof (proj1 (forallb_forall _ _) C d I) as K. cbn beta in K. rewrite F in K. discriminate. }
  intros args. cbv zeta. split; apply G; try nodup; vm_compute; reflexivity.
Qed.
Print Assumptions C91_unknown_refuted.

(** ** Refuted: docs/usage.md's range of thread-pool.validation.max, [1, 100]. *)
Theorem C91_documented_refuted : exists w args s, rejects_duplicates w /\ args = map cstr ["--tal=/tals"; "--thread-pool.validation.max=0"]%string /\ main_config w args = Ok (Started s).
Proof.
  exists (a_world []), (map cstr ["--tal=/tals"; "--thread-pool.validation.max=0"]%string).
  destruct (handle_flags_config (a_world []) (incidence_init incidences) (map cstr ["--tal=/tals"; "--thread-pool.validation.max=0"]%string)) as [[s|e|e]|e|] eqn:H; [|vm_compute in H; discriminate..].
  exists s. split; [apply no_files|]. split; reflexivity.
Qed.
Print Assumptions C91_documented_refuted.
