(** * C107: the configuration that is shown is the one in use *)
From Coq Require Import String.
From Verif Require Import Base BaseLemmas CString Text TextSpec TextProps OidSpec Oid OidProofs NtopSpec Slurm Manifest Incidence Config ConfigSpec ConfigProofs ConfigProofs2 ConfigProofs3 ConfigProofs4 ConfigProofs5 ConfigProps Shown ShownSpec.
From Verif Require IncidenceSpec IncidenceProps.
Notation length := List.length.
Open Scope list_scope.
Open Scope Z_scope.

(** ** Words *)
Definition word_printer (t : global_type) : option ((Z -> list Z) * list (string * Z)) :=
  match t with
  | gt_mode => Some (print_mode, modes)
  | gt_log_output => Some (print_log_output, outputs)
  | gt_log_level => Some (print_log_level, levels)
  | gt_log_facility => Some (print_log_facility, facilities)
  | gt_filename_format => Some (print_filename_format, filename_formats)
  | gt_output_format => Some (print_output_format, formats)
  | gt_file_type => Some (print_file_type, file_types)
  | _ => None
  end.
Lemma printer_ok t p ws : word_printer t = Some (p, ws) -> forall w n, In (w, n) ws -> p n = cstr w.
Proof.
  intros H. assert (C : forallb (fun '(w, n) => list_eqb Z.eqb (p n) (cstr w)) ws = true) by (destruct t; try discriminate; injection H as <- <-; vm_compute; reflexivity).
  intros w n I. pose proof (proj1 (forallb_forall _ _) C (w, n) I) as K. cbn beta iota in K. apply (list_eqb_spec Z.eqb Z.eqb_eq) in K. exact K.
Qed.

(** ** Numbers *)
Lemma number_same ds : TextSpec.number ds = OidSpec.number ds.
Proof.
  unfold TextSpec.number, OidSpec.number. generalize 0. induction ds as [|d ds IH]; intros a; cbn [fold_left]; [reflexivity|]. rewrite IH. f_equal. lia.
Qed.
Lemma udec_reading n : 0 <= n <= UINT_MAX -> reading (udec (wrap32 n)) n.
Proof.
  unfold UINT_MAX. intros H. replace (wrap32 n) with n by (unfold wrap32; rewrite Z.mod_small; lia).
  destruct (udec_spec n ltac:(unfold is_u32; lia)) as (N & F & V & _). exists [], [], (udec n).
  assert (E : TextSpec.number (udec n) = n) by (rewrite number_same; exact V).
  split; [reflexivity|]. split; [constructor|]. split; [split; assumption|]. rewrite E. split; [unfold CLib.ULONG_MAX; lia|]. left. auto.
Qed.

(** ** One option *)
Definition has_value (o : option_field) (v : value) : Prop := fits (kind_of o) v \/ type o = gt_file_type /\ v = VEnum FT_UNK.
Lemma field_shows inc o s : In o options -> is_setting (doc_of o) = true -> st_incidences s = IncidenceProps.table inc ->
  (stored o = true -> has_value o (st_config s (offset o))) ->
  exists b, is_rpki_config_field o = true /\ print_field o s = Ok b /\ forall v, (stored o = true -> v = st_config s (offset o)) -> block inc (name o) (kind_of o) v b.
Proof.
  intros I S T V. unfold is_setting in S. cbn [doc_of d_kind] in S.
  assert (HN : handler o = None) by (apply handled; auto; destruct (kind_of o); auto).
  pose proof (bounds o I) as B. unfold is_rpki_config_field. rewrite HN. unfold has_value in V.
  assert (K : kind_of o = match type o with
      | gt_callback => K_stop
      | gt_string => K_text (json_null_allowed o)
      | gt_bool | gt_work_offline => K_bool
      | gt_uint => K_number (min o) (max o)
      | gt_mode => K_word modes
      | gt_string_array => K_list (if 0 <? max o then Some (max o) else None)
      | gt_log_output => K_word outputs
      | gt_log_level => K_word levels
      | gt_log_facility => K_word facilities
      | gt_filename_format => K_word filename_formats
      | gt_output_format => K_word formats
      | gt_file_type => K_word file_types
      | gt_incidences => K_incidences
      end) by (unfold kind_of; rewrite HN; reflexivity).
  assert (ST : stored o = match kind_of o with K_stop | K_file | K_incidences => false | _ => true end) by reflexivity.
  assert (W : forall p ws, word_printer (type o) = Some (p, ws) -> kind_of o = K_word ws -> forall v n, fits (K_word ws) v -> v = VEnum n ->
    value_text (K_word ws) v (p n)).
  { intros p ws P KW v n (w & m & IW & ->) [= ->]. left. exists w, n. split; [exact IW|]. split; [|reflexivity]. rewrite (printer_ok _ _ _ P w n IW). reflexivity. }
  rewrite K in *. clear K. unfold print_field. destruct (type o) eqn:TY; cbn [word_printer] in *; rewrite ?ST in *; try discriminate;
    try (destruct (V eq_refl) as [F|[Q _]]; [|discriminate]; cbn [fits] in F).
  - (* string *) destruct F as (x & F & NE). rewrite F. destruct x as [x|]; eexists; (split; [reflexivity|]; split; [reflexivity|]); intros v E; rewrite (E eq_refl).
    + apply bl_value; [exact Logic.I|]. left. exists x. split; [reflexivity|]. split; [congruence|reflexivity].
    + apply bl_value; [exact Logic.I|]. right. split; [left; reflexivity|reflexivity].
  - (* bool *) destruct F as (x & F). rewrite F. eexists. split; [reflexivity|]. split; [reflexivity|]. intros v E. rewrite (E eq_refl).
    apply bl_value; [exact Logic.I|]. left. destruct x; [left|right]; auto.
  - (* uint *) destruct F as (x & F & R). rewrite F. eexists. split; [reflexivity|]. split; [reflexivity|]. intros v E. rewrite (E eq_refl).
    apply bl_value; [exact Logic.I|]. left. eexists. exists x. split; [reflexivity|]. split; [apply udec_reading; lia|auto].
  - (* mode *) pose proof F as (w & n & IW & E0). rewrite E0 in *. eexists. split; [reflexivity|]. split; [reflexivity|]. intros v E. rewrite (E eq_refl). apply bl_value; [exact Logic.I|]. eapply W; eauto.
  - (* offline *) destruct F as (x & F). rewrite F. eexists. split; [reflexivity|]. split; [reflexivity|]. intros v E. rewrite (E eq_refl).
    apply bl_value; [exact Logic.I|]. left. destruct x; [left|right]; auto.
  - (* array *) destruct F as (x & F & R). rewrite F. eexists. split; [reflexivity|]. split; [reflexivity|]. intros v E. rewrite (E eq_refl).
    destruct x as [|x0 x]; [apply bl_empty|]. apply (bl_list inc (name o) _ (x0 :: x)). discriminate.
  - pose proof F as (w & n & IW & E0). rewrite E0 in *. eexists. split; [reflexivity|]. split; [reflexivity|]. intros v E. rewrite (E eq_refl). apply bl_value; [exact Logic.I|]. eapply W; eauto.
  - pose proof F as (w & n & IW & E0). rewrite E0 in *. eexists. split; [reflexivity|]. split; [reflexivity|]. intros v E. rewrite (E eq_refl). apply bl_value; [exact Logic.I|]. eapply W; eauto.
  - pose proof F as (w & n & IW & E0). rewrite E0 in *. eexists. split; [reflexivity|]. split; [reflexivity|]. intros v E. rewrite (E eq_refl). apply bl_value; [exact Logic.I|]. eapply W; eauto.
  - pose proof F as (w & n & IW & E0). rewrite E0 in *. eexists. split; [reflexivity|]. split; [reflexivity|]. intros v E. rewrite (E eq_refl). apply bl_value; [exact Logic.I|]. eapply W; eauto.
  - pose proof F as (w & n & IW & E0). rewrite E0 in *. eexists. split; [reflexivity|]. split; [reflexivity|]. intros v E. rewrite (E eq_refl). apply bl_value; [exact Logic.I|]. eapply W; eauto.
  - (* file type *) destruct (V eq_refl) as [F|[_ F]].
    + pose proof F as (w & n & IW & E0). rewrite E0 in *. eexists. split; [reflexivity|]. split; [reflexivity|]. intros v E. rewrite (E eq_refl). apply bl_value; [exact Logic.I|]. eapply W; eauto.
    + rewrite F. eexists. split; [reflexivity|]. split; [reflexivity|]. intros v E. rewrite (E eq_refl). apply bl_value; [exact Logic.I|]. right.
      split; [|reflexivity]. right. exists file_types, FT_UNK. split; [reflexivity|]. split; [reflexivity|]. cbn. unfold FT_UNK, FT_ROA, FT_MFT, FT_GBR, FT_CER, FT_CRL. lia.
  - (* incidences *) eexists. split; [reflexivity|]. split; [reflexivity|]. intros v _. unfold incidence_print. rewrite T.
    apply bl_incidences with (ds := descriptions); [|reflexivity]. unfold IncidenceProps.table, IncidenceProps.kinds, all_kinds, descriptions. cbn [map combine in_name in_action].
    repeat (apply Forall2_cons; [cbn [in_name in_action]; unfold IncidenceSpec.documented_action, action2str; match goal with |- context [inc ?k] => destruct (inc k) end; reflexivity|]). constructor.
Qed.

(** ** All of them *)
Lemma fields_show inc val s : st_incidences s = IncidenceProps.table inc ->
  (forall o, In o options -> stored o = true -> has_value o (st_config s (offset o)) /\ val (name o) = st_config s (offset o)) ->
  forall opts, incl opts options -> exists bs, print_fields opts s = Ok (concat bs) /\
    Forall2 (fun d b => block inc (d_name d) (d_kind d) (val (d_name d)) b) (filter is_setting (map doc_of opts)) bs.
Proof.
  intros T V. induction opts as [|o opts IH]; intros L; [exists []; split; [reflexivity|constructor]|].
  destruct IH as (bs & E & F); [intros x X; apply L; right; auto|]. pose proof (L o (or_introl eq_refl)) as I. cbn [print_fields map filter].
  destruct (is_setting (doc_of o)) eqn:S.
  - destruct (field_shows inc o s I S T (fun H => proj1 (V o I H))) as (b & R & P & G). rewrite R, P, E. cbn [bind]. exists (b :: bs). split; [reflexivity|]. constructor; auto.
    cbn [doc_of d_name d_kind]. apply G. intros H. apply (V o I H).
  - assert (R : is_rpki_config_field o = false).
    { unfold is_rpki_config_field. destruct (handler o) eqn:H; [reflexivity|]. apply (handled o I) in H. unfold is_setting in S. cbn [doc_of d_kind] in S. destruct (kind_of o); discriminate. }
    rewrite R. exists bs. auto.
Qed.
Lemma default_words : forallb (fun o => match kind_of o with K_word ws => match type o with gt_file_type => true | _ => match default_config (offset o) with VEnum n => existsb (fun x => snd x =? n) ws | _ => false end end | _ => true end) options = true.
Proof. vm_compute. reflexivity. Qed.
Lemma default_file_type : forallb (fun o => match type o with gt_file_type => match default_config (offset o) with VEnum n => n =? FT_UNK | _ => false end | _ => true end) options = true.
Proof. vm_compute. reflexivity. Qed.
Lemma value_has l o : Forall well_formed l -> In o options -> stored o = true -> has_value o (value_of l (name o)).
Proof.
  intros WF I S. destruct (value_fits l o WF I S) as [F|(ws & K & E & _)]; [left; exact F|]. rewrite E.
  pose proof (proj1 (forallb_forall _ _) default_words o I) as D. pose proof (proj1 (forallb_forall _ _) default_file_type o I) as FT. cbn beta in D, FT. rewrite K in D. unfold has_value. rewrite K.
  destruct (type o); try (destruct (default_config (offset o)) as [| | | |n]; try discriminate; left; apply existsb_exists in D; destruct D as ([w m] & IW & EQ); cbn [snd] in EQ; apply Z.eqb_eq in EQ; subst m; exists w, n; auto; fail).
  right. destruct (default_config (offset o)) as [| | | |n]; try discriminate. apply Z.eqb_eq in FT. subst n. auto.
Qed.
Lemma log_outputs : forallb (fun o => negb (stored o) || (Bool.eqb (String.eqb (name o) "log.output") (String.eqb (offset o) "log.output") && Bool.eqb (String.eqb (name o) "validation-log.output") (String.eqb (offset o) "validation_log.output")
  && (if String.eqb (name o) "log.output" || String.eqb (name o) "validation-log.output" then match kind_of o with K_word ws => existsb (fun x => snd x =? SYSLOG) ws | _ => false end else true))) options = true.
Proof. vm_compute. reflexivity. Qed.

(** When the program runs, what it shows is the version, and each option with
    its value: what one would have to say in the command line to have it; in the
    order of the manual. *)
Theorem C107_shown : forall w args s versions, rejects_duplicates w -> main_config w args = Ok (Started s) ->
  exists l operands inc messages, asks w args l operands /\ (exists js, incidences_say l js /\ forall k, IncidenceSpec.configured k (IncidenceSpec.documented_default k) js (inc k)) /\
    shows_all l inc messages /\ print_config versions s = Ok (versions ++ [cstr "Configuration {"] ++ messages ++ [cstr "}"]).
Proof.
  intros w args s versions D H. pose proof (outcomes w args _ D H) as O. destruct (opt_loop w _ initial) as [[s0|]|e|]; [|destruct O as [_ O]; discriminate|destruct O as (x&_&O); discriminate|destruct O].
  destruct O as (l&operands&A&WF&E&F1&F2&F3).
  assert (C : consistent w l operands).
  { destruct (operand_reads l s0 operands WF E) as (R&P&_). apply (validate_spec w l operands (st_config (with_operand operands s0)) WF R P).
    destruct (validate_config w (st_config (with_operand operands s0))) eqn:V; auto. discriminate F1. intros C. apply (validate_spec w l operands _ WF R P) in C. congruence. }
  destruct (yes_dec l "init-tals") as [Y|N1]; [discriminate F2; auto|]. destruct (yes_dec l "init-as0-tals") as [Y|N2]; [discriminate F2; auto|].
  specialize (F3 C N1 N2). destruct (as_bool (value_of l "daemon") && negb (w_daemonize w =? 0)); [discriminate|]. injection F3 as ->.
  pose proof (exec_incidences l initial [] IncidenceSpec.documented_default WF IncidenceProps.init_table (fun k => IncidenceSpec.conf_none _ _)) as X. rewrite E in X. destruct X as (js & inc & IN & T & CF).
  destruct (operand_reads l s0 operands WF E) as (R & _ & EI). set (s1 := with_operand operands s0) in *. rewrite <- EI in T. clearbody s1.
  set (b := as_bool (value_of l "daemon")) in *.
  assert (V : forall o, In o options -> stored o = true -> has_value o (st_config (if b then as_daemon s1 else s1) (offset o)) /\ in_use l (name o) = st_config (if b then as_daemon s1 else s1) (offset o)).
  { intros o I S. unfold in_use. fold b. pose proof (proj1 (forallb_forall _ _) log_outputs o I) as LO. cbn beta in LO. rewrite S in LO. cbn [negb orb] in LO. rewrite !andb_true_iff in LO. destruct LO as [[L1 L2] L3]. apply Bool.eqb_prop in L1, L2.
    destruct b; cbn [andb]; [|rewrite (R o I S); split; [apply value_has; auto|reflexivity]].
    unfold as_daemon, store, set. cbn [st_config]. rewrite <- L2, <- L1.
    destruct (String.eqb (name o) "validation-log.output") eqn:Q2, (String.eqb (name o) "log.output") eqn:Q1; cbn [orb] in *; try (split; [|reflexivity]; left; destruct (kind_of o); try discriminate;
      apply existsb_exists in L3; destruct L3 as ([w0 m] & IW & EQ); cbn [snd] in EQ; apply Z.eqb_eq in EQ; subst m; exists w0, SYSLOG; auto; fail).
    rewrite (R o I S). split; [apply value_has; auto|reflexivity]. }
  assert (T' : st_incidences (if b then as_daemon s1 else s1) = IncidenceProps.table inc) by (destruct b; exact T).
  destruct (fields_show inc (in_use l) _ T' V options (incl_refl _)) as (bs & P & F2').
  exists l, operands, inc, (concat bs). split; [exact A|]. split; [exists js; split; [exact IN|exact CF]|]. split; [exists bs; split; [rewrite manual_is; exact F2'|reflexivity]|].
  unfold print_config. assert (FO : foreach_option options 65535 = options) by (vm_compute; reflexivity). rewrite FO, P. reflexivity.
Qed.

(** ** Not claimed: that different configurations look different.  null is shown as the text "(null)". *)
Theorem C107_null_ambiguous : exists args s s', main_config (a_world []) [cstr "--tal=/tals"] = Ok (Started s) /\ main_config (a_world []) args = Ok (Started s') /\
  config_get_output_roa (st_config s) <> config_get_output_roa (st_config s') /\ forall versions, print_config versions s = print_config versions s'.
Proof.
  exists [cstr "--tal=/tals"; cstr "--output.roa=(null)"].
  assert (X : match main_config (a_world []) [cstr "--tal=/tals"], main_config (a_world []) [cstr "--tal=/tals"; cstr "--output.roa=(null)"] with
    | Ok (Started s), Ok (Started s') => config_get_output_roa (st_config s) = VStr None /\ config_get_output_roa (st_config s') = VStr (Some (cstr "(null)")) /\
        print_fields (foreach_option options 65535) s = print_fields (foreach_option options 65535) s'
    | _, _ => False end) by (vm_compute; auto).
  destruct (main_config (a_world []) [cstr "--tal=/tals"]) as [[s|?|?]|?|]; try contradiction.
  destruct (main_config (a_world []) [cstr "--tal=/tals"; cstr "--output.roa=(null)"]) as [[s'|?|?]|?|]; try contradiction. destruct X as (A & B & C).
  exists s, s'. split; [reflexivity|]. split; [reflexivity|]. split; [congruence|]. intros versions. unfold print_config. rewrite C. reflexivity.
Qed.

Example C107_nonvacuous : exists s l, rejects_duplicates (a_world []) /\
  main_config (a_world []) (map cstr ["--tal=/tals"; "--server.address=::1,127.0.0.1"; "--log.level=info"; "--daemon"])%string = Ok (Started s) /\
  print_config [] s = Ok l /\ Forall (fun x => In (cstr x) l) ["tal: /tals"; "server.address:"; "  ::1"; "  127.0.0.1"; "log.level: info"; "log.output: syslog"; "daemon: true";
    "http.ca-path: (null)"; "  incid-crl-stale (The current time is after the nextUpdate field at the CRL): error"; "server.interval.validation: 3600"]%string.
Proof.
  assert (X : match main_config (a_world []) (map cstr ["--tal=/tals"; "--server.address=::1,127.0.0.1"; "--log.level=info"; "--daemon"])%string with
    | Ok (Started s) => match print_config [] s with
        | Ok l => forallb (fun x => existsb (list_eqb Z.eqb (cstr x)) l) ["tal: /tals"; "server.address:"; "  ::1"; "  127.0.0.1"; "log.level: info"; "log.output: syslog"; "daemon: true";
    "http.ca-path: (null)"; "  incid-crl-stale (The current time is after the nextUpdate field at the CRL): error"; "server.interval.validation: 3600"]%string = true
        | _ => False end
    | _ => False end) by (vm_compute; reflexivity).
  destruct (main_config (a_world []) _) as [[s|?|?]|?|]; try contradiction. destruct (print_config [] s) as [l|?|] eqn:P; try contradiction.
  exists s, l. split; [apply no_files|]. split; [reflexivity|]. split; [exact P|]. apply Forall_forall. intros x I. pose proof (proj1 (forallb_forall _ _) X x I) as K. cbn beta in K.
  apply existsb_exists in K. destruct K as (y & IY & EQ). apply (list_eqb_spec Z.eqb Z.eqb_eq) in EQ. rewrite EQ. exact IY.
Qed.
Print Assumptions C107_shown. Print Assumptions C107_null_ambiguous.
