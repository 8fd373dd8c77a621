(** Proofs about Config.v: no undefined behavior, and the whole. *)
From Coq Require Import String.
From Verif Require Import Base BaseLemmas CString Text TextSpec TextProps NtopSpec Slurm Manifest Incidence Config ConfigSpec ConfigProofs ConfigProofs2 ConfigProofs3 ConfigProofs4.
From Verif Require IncidenceSpec IncidenceProps.
Notation length := List.length.
Opaque options manual long_opts short_opts getopt_long.

Definition tabled (s : state) : Prop := exists f, st_incidences s = IncidenceProps.table f.
Definition fine (r : res state) : Prop := match r with Ok s => tabled s | Err _ => True | UB => False end.

Lemma apply1_tabled o v s : tabled s -> tabled (apply1 o v s).
Proof. intros (f&T). exists f. unfold apply1. destruct (type o); exact T. Qed.
Lemma parse_json_safe o j s : In o options -> handler o = None -> type o <> gt_callback -> (forall ws, kind_of o = K_word ws -> j <> CNull) -> tabled s -> fine (parse_json o j s).
Proof.
  intros I HN NC NW T. destruct (kind_of o) eqn:K.
  8:{ rewrite parse_json_incidences by auto. destruct T as (f&T). rewrite T. destruct (to_json j) as [m|js|m|m|m|]; try exact Logic.I. cbn [incidence_update].
      destruct (IncidenceProps.update_loop_spec js [] f f (fun k => IncidenceSpec.conf_none _ _)) as [(g&E&_)|(g&a&j'&b&E&_)]; rewrite E; cbn [bind Z.eqb]; [exists g; reflexivity|exact Logic.I]. }
  all: assert (NI : kind_of o <> K_incidences) by (rewrite K; discriminate); destruct (parse_json o j s) as [s'| |] eqn:P; cbn [fine]; auto;
    try (apply parse_json_spec in P; auto; destruct P as (v&_&->); apply apply1_tabled; exact T); exfalso.
  all: assert (W : forall f ws, word_parser (type o) = Some (f, ws) -> bind (parse_json_string j) (fun str => bind (f str) (fun n => Ok (store s (offset o) (VEnum n)))) <> UB) by
    (intros f ws E; pose proof (word_kind o f ws HN E) as KW; rewrite KW in K; try discriminate; destruct (word_parser_is _ _ _ E) as (_&F&_); destruct j; cbn [parse_json_string bind]; try discriminate; first [rewrite F; destruct (lookup ws s0); cbn [bind]; discriminate|exfalso; eapply NW; reflexivity]).
  all: unfold parse_json in P; unfold kind_of in K; rewrite HN in K; destruct (type o) eqn:TY; try discriminate; try congruence; try (eapply W; [reflexivity|exact P]).
  - unfold string_parse_json in P. destruct j; cbn [parse_json_string bind] in P; try discriminate; [destruct s0; cbn [string_parse_argv bind] in P|destruct (json_null_allowed o); cbn [bind] in P]; discriminate.
  - destruct j; cbn [parse_json_bool bind] in P; discriminate.
  - destruct j; cbn [parse_json_bool bind] in P; discriminate.
  - destruct j; cbn [parse_json_uint bind] in P; try discriminate. destruct ((n <? min o) || (max o <? n))%bool; discriminate.
  - unfold string_array_parse_json in P. destruct j; cbn [bind] in P; try discriminate. destruct elements as [|e es] eqn:EL; [discriminate|]. rewrite <- EL in *. clear EL e es.
    destruct ((0 <? max o) && (max o <? Z.of_nat (length elements)))%bool; [discriminate|]. assert (N : strings_of elements <> UB).
    { clear. induction elements as [|x l IH]; cbn [strings_of]; [discriminate|]. destruct x; try discriminate. destruct (strings_of l); cbn [bind]; congruence. }
    destruct (strings_of elements); cbn [bind] in P; congruence.
Qed.
Lemma not_callback o : In o options -> available AVAILABILITY_JSON o = true -> type o <> gt_callback.
Proof.
  assert (H : forallb (fun o => negb (available AVAILABILITY_JSON o) || match type o with gt_callback => false | _ => true end) options = true) by (vm_compute; reflexivity).
  intros I A E. pose proof (proj1 (forallb_forall _ _) H o I) as K. cbn beta in K. rewrite A, E in K. discriminate.
Qed.
Lemma json_loop_safe root opts : no_duplicates root -> ~ null_word root -> incl opts options -> forall s, tabled s -> fine (json_loop (filter (available AVAILABILITY_JSON) opts) root s).
Proof.
  intros ND NW. induction opts as [|o opts IH]; intros INC s T; cbn [filter json_loop]; [exact T|]. assert (I : In o options) by (apply INC; left; auto). assert (INC' : incl opts options) by (intros x X; apply INC; right; auto).
  destruct (available AVAILABILITY_JSON o) eqn:A; [|apply IH; auto]. cbn [json_loop]. rewrite (find_json_path o root I). destruct (get_path root (path (name o))) as [child|] eqn:G; [|apply IH; auto].
  apply found_path in G; auto. pose proof (parse_json_safe o child s I (json_handler o I A) (not_callback o I A)) as P.
  assert (W : forall ws, kind_of o = K_word ws -> child <> CNull) by (intros ws K ->; apply NW; exists (doc_of o), ws; split; [apply manual_of; auto|]; auto). specialize (P W T).
  destruct (parse_json o child s) as [s'| |]; cbn [bind fine] in *; auto.
Qed.

Section WithWorld.
  Variable w : world.
  Hypothesis loads : forall f j, w_load w f = Some j -> no_duplicates j /\ ~ null_word j.
  Notation ev args := (fst (getopt_long long_opts short_opts args)).

  Lemma handle_opt_safe o arg s : In o options -> args_avail o = true -> (wants_value (kind_of o) = true -> arg <> None) -> tabled s ->
    match handle_opt w (id o) arg s with Ok (Some s') => tabled s' | Ok None | Err _ => True | UB => False end.
  Proof.
    intros I A NA T. unfold handle_opt. rewrite find_id by auto. destruct (handler o) as [h|] eqn:HO.
    - destruct h; cbn [run_handler]; auto. destruct arg as [f|]; [|apply NA; auto; unfold kind_of; rewrite HO; reflexivity].
      unfold set_config_from_file. destruct (w_load w f) as [j|] eqn:L; cbn [bind]; [|exact Logic.I]. destruct (loads f j L) as [ND NW].
      assert (F : fine (json_to_config j s)) by (unfold json_to_config; rewrite foreach_is; apply json_loop_safe; auto; apply incl_refl).
      destruct (json_to_config j s); cbn [fine bind] in *; auto.
    - pose proof (parse_argv_safe o arg s I A HO NA) as P. destruct (parse_argv o arg s) as [s'| |] eqn:PA; cbn [bind]; [|exact Logic.I|congruence]. apply parse_argv_spec in PA; auto. destruct PA as (v&_&->). apply apply1_tabled; auto.
  Qed.
  Lemma loop_more args o arg s : In o options -> args_avail o = true -> (wants_value (kind_of o) = true -> arg <> None) -> tabled s ->
    (forall s, tabled s -> opt_loop w (ev args) s <> UB) -> opt_loop w ((id o, arg) :: ev args) s <> UB.
  Proof.
    intros I A NA T IH. cbn [opt_loop]. pose proof (handle_opt_safe o arg s I A NA T) as H. destruct (handle_opt w (id o) arg s) as [[s'|]| |]; cbn [bind]; auto; discriminate.
  Qed.
  Lemma bad_safe s : opt_loop w bad s <> UB.
  Proof. cbn. discriminate. Qed.
  Lemma safe_aux n : forall args s, (length args <= n)%nat -> tabled s -> opt_loop w (ev args) s <> UB.
  Proof.
    induction n as [|n IHn]; intros args s LE T.
    - destruct args; [|cbn in LE; lia]. cbn. discriminate.
    - destruct args as [|a args]; [cbn; discriminate|]. cbn [length] in LE. assert (IH1 : forall s, tabled s -> opt_loop w (ev args) s <> UB) by (intros; apply IHn; auto; lia).
      pose proof (getopt_cons a args) as GC. pose proof (classify_spec a) as CS. destruct (classify a) as [| |body|sh] eqn:CA.
      + rewrite GC. cbn [fst]. auto.
      + rewrite GC. cbn. discriminate.
      + destruct CS as [-> _]. destruct (split_eq body) as [n0 v] eqn:SE. clear CA.
        destruct (find_long long_opts n0) as [lo|] eqn:FL; [|rewrite GC; apply bad_safe].
        destruct (find_long_sound n0 lo FL) as (o&I&A&->&D). pose proof (has_arg_kind o I A) as HA. cbn [long_of lo_has_arg lo_val] in GC. rewrite HA in GC. destruct v as [v|].
        * destruct (is_stop (kind_of o)); [rewrite GC; apply bad_safe|]. destruct (wants_value (kind_of o)); rewrite GC; cbn [fst]; apply loop_more; auto; discriminate.
        * destruct (is_stop (kind_of o)) eqn:S; [rewrite GC; cbn [fst]; apply loop_more; auto; destruct (kind_of o); discriminate|]. destruct (wants_value (kind_of o)) eqn:WV.
          -- destruct args as [|v args]; [rewrite GC; apply bad_safe|]. rewrite GC. cbn [fst]. cbn [length] in LE. apply loop_more; auto; [discriminate|]. intros; apply IHn; auto; lia.
          -- rewrite GC. cbn [fst]. apply loop_more; auto. congruence.
      + destruct CS as (c&t&->&NC&->). clear CA. pose proof (cluster_cases c t) as CC. destruct (find_short short_opts c) as [h|]; [|rewrite CC in GC; rewrite GC; apply bad_safe].
        destruct CC as (o&I&LT&<-&A&CC). destruct CC as [(S&l0&e&CL)|(S&CL)].
        * assert (EV : exists l', ev ((45 :: id o :: t) :: args) = (id o, None) :: l') by (rewrite GC, CL; destruct e; cbn [app fst]; eauto; destruct args; cbn [fst app]; eauto).
          destruct EV as (l'&EV). rewrite EV. cbn [opt_loop]. rewrite (proj2 (handle_opt_none w o None s I A) S). cbn [bind]. discriminate.
        * rewrite CL in GC. destruct t as [|c2 t].
          -- destruct args as [|v args]; [rewrite GC; apply bad_safe|]. rewrite GC. cbn [app fst]. cbn [length] in LE. apply loop_more; auto; [discriminate|]. intros; apply IHn; auto; lia.
          -- rewrite GC. cbn [app fst]. apply loop_more; auto; discriminate.
  Qed.
End WithWorld.

(** ** The whole *)
Section Whole.
  Variable w : world.
  Hypothesis loads : forall f j, w_load w f = Some j -> no_duplicates j.
  Notation initial := {| st_config := default_config; st_incidences := incidence_init incidences |}.
  Notation ops args := (snd (getopt_long long_opts short_opts args)).
  Notation ev args := (fst (getopt_long long_opts short_opts args)).

  Lemma initial_incidences l : Forall well_formed l ->
    match exec_all l initial with
    | Ok s' => exists js, incidences_say l js /\ forall k a, IncidenceSpec.configured k (IncidenceSpec.documented_default k) js a -> incidence_get_action (st_incidences s') (IncidenceSpec.id k) = Ok a
    | Err _ => forall js, ~ incidences_say l js
    | UB => False
    end.
  Proof.
    intros WF. pose proof (exec_incidences l initial [] IncidenceSpec.documented_default WF IncidenceProps.init_table (fun k => IncidenceSpec.conf_none _ _)) as E.
    destruct (exec_all l initial) as [s'| |]; auto. destruct E as (js&g&IN&T&C). exists js. split; auto. intros k a H. rewrite T, IncidenceProps.get_table. f_equal. cbn [app] in C.
    eapply IncidenceProps.conf_func; eauto.
  Qed.

  Definition with_operand (operands : list (list Z)) (s : state) : state := match operands with [] => s | a :: _ => store s "payload" (VStr (Some a)) end.
  Definition as_daemon (s : state) : state := store (store s "log.output" (VEnum SYSLOG)) "validation_log.output" (VEnum SYSLOG).
  Lemma operand_reads l s operands : Forall well_formed l -> exec_all l initial = Ok s ->
    (forall o, In o options -> stored o = true -> st_config (with_operand operands s) (offset o) = value_of l (name o)) /\
    st_config (with_operand operands s) "payload"%string = VStr (hd_error operands) /\ st_incidences (with_operand operands s) = st_incidences s.
  Proof.
    intros WF E. split; [|split].
    - intros o I S. rewrite <- (exec_value_of l initial s o WF E eq_refl I S). destruct operands as [|a r]; [reflexivity|]. unfold with_operand, store, set. cbn [st_config].
      pose proof (proj1 (forallb_forall _ _) payload_free o I) as P. cbn beta in P. apply negb_true_iff in P. rewrite String.eqb_sym, P. reflexivity.
    - destruct operands as [|a r]; cbn [with_operand hd_error]; [rewrite (exec_payload l _ _ WF E)|]; reflexivity.
    - destruct operands; reflexivity.
  Qed.
  Ltac here := vm_compute; reflexivity.

  Lemma runs l s operands : Forall well_formed l -> exec_all l initial = Ok s ->
    runs_with l operands (if as_bool (value_of l "daemon") then as_daemon (with_operand operands s) else with_operand operands s).
  Proof.
    intros WF E. destruct (operand_reads l s operands WF E) as (R&P&IN). pose proof (initial_incidences l WF) as II. rewrite E in II. rewrite <- IN in II. clear IN.
    set (s1 := with_operand operands s) in *. clearbody s1. set (b := as_bool (value_of l "daemon")).
    assert (C : forall n m p, located n m p = true -> m <> "log.output"%string -> m <> "validation_log.output"%string -> st_config (if b then as_daemon s1 else s1) m = value_of l n).
    { intros n m p L N1 N2. rewrite <- (at_name l (st_config s1) R n m p L). destruct b; auto. unfold as_daemon, store, set. cbn [st_config]. apply String.eqb_neq in N1, N2. rewrite N1, N2. reflexivity. }
    unfold runs_with. cbv zeta. fold b. repeat split.
    - intros n get I. pose proof (proj1 (Forall_forall _ _) observed_outputs _ I) as (m&L&G&N1&N2). cbn [fst snd] in *. rewrite G. eapply C; eauto.
    - destruct (read_bool l "work-offline" "work_offline" WF ltac:(here)) as (off&E1), (read_bool l "rsync.enabled" "rsync.enabled" WF ltac:(here)) as (rs&E2), (read_bool l "http.enabled" "http.enabled" WF ltac:(here)) as (ht&E3).
      exists off, rs, ht. split; [exact E1|]. split; [exact E2|]. split; [exact E3|]. unfold config_get_rsync_enabled, config_get_http_enabled.
      rewrite (C "work-offline"%string "work_offline"%string (fun _ => true)) by (try here; discriminate). rewrite (C "rsync.enabled"%string "rsync.enabled"%string (fun _ => true)) by (try here; discriminate).
      rewrite (C "http.enabled"%string "http.enabled"%string (fun _ => true)) by (try here; discriminate). rewrite E1, E2, E3. split; reflexivity.
    - unfold config_get_op_log_output. destruct b; [reflexivity|]. apply (at_name l (st_config s1) R "log.output" "log.output" (fun _ => true)). here.
    - unfold config_get_val_log_output. destruct b; [reflexivity|]. apply (at_name l (st_config s1) R "validation-log.output" "validation_log.output" (fun _ => true)). here.
    - unfold config_get_payload. destruct b; exact P.
    - replace (st_incidences (if b then as_daemon s1 else s1)) with (st_incidences s1) by (destruct b; reflexivity). exact II.
  Qed.

  (** What follows the command line. *)
  Definition finish (l : list setting) (operands : list (list Z)) (s : state) (r : res outcome) : Prop :=
    (~ consistent w l operands -> r = Ok (Failed (-22))) /\
    (consistent w l operands -> yes l "init-tals" \/ yes l "init-as0-tals" ->
       r = Ok (Exited (if as_bool (value_of l "init-tals") && negb (w_tals w =? 0) then w_tals w else if as_bool (value_of l "init-as0-tals") then w_tal0s w else 0))) /\
    (consistent w l operands -> ~ yes l "init-tals" -> ~ yes l "init-as0-tals" ->
       r = if as_bool (value_of l "daemon") && negb (w_daemonize w =? 0) then Ok (Failed (w_daemonize w))
           else Ok (Started (if as_bool (value_of l "daemon") then as_daemon (with_operand operands s) else with_operand operands s))).
  Lemma finishes args l s : Forall well_formed l -> exec_all l initial = Ok s -> opt_loop w (ev args) initial = Ok (Some s) ->
    finish l (ops args) s (handle_flags_config w (incidence_init incidences) args).
  Proof.
    intros WF E OL. unfold handle_flags_config. destruct (getopt_long long_opts short_opts args) as [opts operands]. cbn [fst snd] in *. rewrite OL.
    change (match operands with [] => s | a :: _ => store s "payload" (VStr (Some a)) end) with (with_operand operands s).
    destruct (operand_reads l s operands WF E) as (R&P&IN). unfold finish. set (s1 := with_operand operands s) in *. clearbody s1.
    pose proof (validate_spec w l operands (st_config s1) WF R P) as V.
    pose proof (yes_spec l (st_config s1) WF R "init-tals" "init_tals" ltac:(here)) as Y1. pose proof (yes_spec l (st_config s1) WF R "init-as0-tals" "init_tal0s" ltac:(here)) as Y2.
    pose proof (at_name l (st_config s1) R "init-tals" "init_tals" (fun _ => true) ltac:(here)) as A1. pose proof (at_name l (st_config s1) R "init-as0-tals" "init_tal0s" (fun _ => true) ltac:(here)) as A2.
    pose proof (at_name l (st_config s1) R "daemon" "daemon" (fun _ => true) ltac:(here)) as A3.
    rewrite <- A1, <- A2, <- A3. rewrite Y1, Y2, <- V. cbv zeta. change (store (store s1 "log.output" (VEnum SYSLOG)) "validation_log.output" (VEnum SYSLOG)) with (as_daemon s1).
    destruct (validate_config w (st_config s1)); cbn [negb]; (split; [intros; congruence|]); (split; [intros; try discriminate|intros; try discriminate]).
    - destruct (as_bool (st_config s1 "init_tals"%string)), (as_bool (st_config s1 "init_tal0s"%string)); cbn [orb andb]; try (destruct H0; discriminate); destruct (Z.eqb_spec (w_tals w) 0) as [E0|]; rewrite ?E0; cbn; reflexivity.
    - destruct (as_bool (st_config s1 "init_tals"%string)); [congruence|]. destruct (as_bool (st_config s1 "init_tal0s"%string)); [congruence|]. cbn [orb]. destruct (as_bool (st_config s1 "daemon"%string)); cbn [andb]; [|reflexivity].
      destruct (w_daemonize w =? 0); reflexivity.
  Qed.
End Whole.
