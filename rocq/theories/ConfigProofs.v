(** Proofs about Config.v: parsers and the configuration file. *)
From Coq Require Import String.
From Verif Require Import Base BaseLemmas CString Text TextSpec TextProps NtopSpec Slurm Manifest Incidence Config ConfigSpec.
Notation length := List.length.

Lemma streq_spec a b : reflect (a = b) (streq a b).
Proof. unfold streq. apply iff_reflect. symmetry. apply list_eqb_spec. intros. apply Z.eqb_eq. Qed.
Lemma streq_refl a : streq a a = true.
Proof. destruct (streq_spec a a); congruence. Qed.

(** ** The table is the manual *)
Definition kind_of (o : option_field) : kind :=
  match handler o with
  | Some handle_json => K_file
  | Some _ => K_stop
  | None =>
      match type o with
      | gt_callback => K_stop
      | gt_string => K_text (json_null_allowed o)
      | gt_bool | gt_work_offline => K_bool
      | gt_uint => K_number (min o) (max o)
      | gt_mode => K_word modes
      | gt_string_array => K_list (if 0 <? max o then Some (max o) else None)
      | gt_log_output => K_word outputs
      | gt_log_level => K_word levels
      | gt_log_facility => K_word facilities
      | gt_filename_format => K_word filename_formats
      | gt_output_format => K_word formats
      | gt_file_type => K_word file_types
      | gt_incidences => K_incidences
      end
  end.
Definition available (t : Z) (o : option_field) : bool := (availability o =? 0) || negb (Z.land (availability o) t =? 0).
Definition doc_of (o : option_field) : documented :=
  {| d_name := name o; d_short := if is_alphanumeric (id o) then Some (id o) else None; d_argv := available AVAILABILITY_GETOPT o;
     d_json := available AVAILABILITY_JSON o; d_kind := kind_of o; d_default := default_config (offset o) |}.
Lemma manual_is : manual = map doc_of options.
Proof. vm_compute. reflexivity. Qed.
Lemma foreach_is t : foreach_option options t = filter (available t) options.
Proof. reflexivity. Qed.

(** What else is needed of each option. *)
Definition bounds_ok (o : option_field) : bool := (0 <=? min o) && (min o <=? max o) && (max o <=? UINT_MAX).
Lemma bounds o : In o options -> 0 <= min o /\ max o <= UINT_MAX.
Proof.
  assert (H : forallb bounds_ok options = true) by (vm_compute; reflexivity).
  intros I. pose proof (proj1 (forallb_forall _ _) H o I) as K. unfold bounds_ok in K. repeat rewrite andb_true_iff in K. lia.
Qed.
Definition unique {A} (eqb : A -> A -> bool) (l : list A) : bool :=
  (fix go l := match l with [] => true | x :: l => negb (existsb (eqb x) l) && go l end) l.
Lemma unique_NoDup {A} (eqb : A -> A -> bool) (l : list A) : (forall x y, x = y -> eqb x y = true) -> unique eqb l = true -> NoDup l.
Proof.
  intros E. induction l as [|x l IH]; intros H; [constructor|]. cbn in H. apply andb_prop in H. destruct H as [H1 H2]. constructor; auto.
  intros I. rewrite negb_true_iff in H1. enough (existsb (eqb x) l = true) by congruence. apply existsb_exists. exists x. auto.
Qed.
Lemma names_unique : NoDup (map name options).
Proof. apply (unique_NoDup String.eqb); [intros; subst; apply String.eqb_refl|vm_compute; reflexivity]. Qed.
Lemma ids_unique : NoDup (map id options).
Proof. apply (unique_NoDup Z.eqb); [intros; subst; apply Z.eqb_refl|vm_compute; reflexivity]. Qed.
Definition stored (o : option_field) : bool := match kind_of o with K_stop | K_file | K_incidences => false | _ => true end.
Lemma offsets_unique : NoDup (map offset (filter stored options)).
Proof. apply (unique_NoDup String.eqb); [intros; subst; apply String.eqb_refl|vm_compute; reflexivity]. Qed.

Lemma NoDup_map_inj {A B} (f : A -> B) l x y : NoDup (map f l) -> In x l -> In y l -> f x = f y -> x = y.
Proof.
  induction l as [|a l IH]; intros N I J E; [destruct I|]. inversion N as [|? ? N1 N2]; subst. destruct I as [->|I], J as [->|J]; auto.
  - exfalso. apply N1. rewrite E. apply in_map. auto.
  - exfalso. apply N1. rewrite <- E. apply in_map. auto.
Qed.
Lemma same_name x y : In x options -> In y options -> name x = name y -> x = y.
Proof. apply (NoDup_map_inj name), names_unique. Qed.
Lemma same_id x y : In x options -> In y options -> id x = id y -> x = y.
Proof. apply (NoDup_map_inj id), ids_unique. Qed.
Lemma same_offset x y : In x options -> In y options -> stored x = true -> stored y = true -> offset x = offset y -> x = y.
Proof. intros. eapply (NoDup_map_inj offset); [apply offsets_unique| | |]; auto; apply filter_In; auto. Qed.
Lemma handled o : In o options -> handler o = None <-> match kind_of o with K_stop | K_file => false | _ => true end = true.
Proof.
  assert (H : forallb (fun o => Bool.eqb (match handler o with None => true | _ => false end) (match kind_of o with K_stop | K_file => false | _ => true end)) options = true)
    by (vm_compute; reflexivity).
  intros I. pose proof (proj1 (forallb_forall _ _) H o I) as K. apply Bool.eqb_prop in K. rewrite <- K. destruct (handler o); split; congruence.
Qed.

(** ** Words *)
Fixpoint lookup (ws : list (string * Z)) (s : list Z) : option Z :=
  match ws with
  | [] => None
  | (w, n) :: ws => if streq s (cstr w) then Some n else lookup ws s
  end.
Definition word_parser (t : global_type) : option ((option (list Z) -> res Z) * list (string * Z)) :=
  match t with
  | gt_mode => Some (parse_argv_mode, modes)
  | gt_log_output => Some (parse_argv_log_output, outputs)
  | gt_log_level => Some (parse_argv_log_level, levels)
  | gt_log_facility => Some (parse_argv_log_facility, facilities)
  | gt_filename_format => Some (parse_argv_filename_format, filename_formats)
  | gt_output_format => Some (parse_argv_output_format, formats)
  | gt_file_type => Some (parse_argv_file_type, file_types)
  | _ => None
  end.
Lemma word_parser_is t f ws : word_parser t = Some (f, ws) ->
  f None = UB /\ (forall s, f (Some s) = match lookup ws s with Some n => Ok n | None => Err EINVAL end) /\
  forallb (fun '(w, n) => match lookup ws (cstr w) with Some m => m =? n | None => false end) ws = true.
Proof.
  destruct t; cbn [word_parser]; intros H; try discriminate; injection H as <- <-; (split; [reflexivity|]; split; [intros s|vm_compute; reflexivity]);
    unfold parse_argv_mode, parse_argv_log_output, parse_argv_log_level, parse_argv_log_facility, parse_argv_filename_format, parse_argv_output_format, parse_argv_file_type,
      modes, outputs, levels, facilities, filename_formats, formats, file_types; cbn [lookup]; repeat destruct (streq s _); reflexivity.
Qed.
Lemma lookup_In ws s n : lookup ws s = Some n -> exists w, In (w, n) ws /\ s = cstr w.
Proof.
  induction ws as [|(w, m) ws IH]; cbn [lookup]; [discriminate|]. destruct (streq_spec s (cstr w)) as [->|N]; intros H.
  - injection H as <-. exists w. cbn. auto.
  - destruct (IH H) as (w'&I&E). exists w'. cbn. auto.
Qed.
Lemma word_spec t f ws s n : word_parser t = Some (f, ws) -> (f (Some s) = Ok n <-> exists w, In (w, n) ws /\ s = cstr w).
Proof.
  intros H. destruct (word_parser_is t f ws H) as (_&E&C). rewrite E. split.
  - destruct (lookup ws s) as [m|] eqn:L; [|discriminate]. intros K. injection K as ->. apply lookup_In; auto.
  - intros (w&I&->). pose proof (proj1 (forallb_forall _ _) C (w, n) I) as K. cbn in K. destruct (lookup ws (cstr w)) as [m|]; [|discriminate].
    apply Z.eqb_eq in K. subst. reflexivity.
Qed.
Lemma word_kind o f ws : handler o = None -> word_parser (type o) = Some (f, ws) -> kind_of o = K_word ws.
Proof. unfold kind_of. intros ->. destruct (type o); cbn [word_parser]; intros H; try discriminate; injection H as <- <-; reflexivity. Qed.

(** ** Parsers *)
Definition apply1 (o : option_field) (v : value) (s : state) : state :=
  match type o with gt_work_offline => set_offline s (offset o) (as_bool v) | _ => store s (offset o) v end.

Lemma all_written_map l : all_written (map Some l) = Ok l.
Proof. induction l as [|a l IH]; cbn; auto. rewrite IH. reflexivity. Qed.
Lemma tokens_exist sep s : exists l, tokens sep s l.
Proof. destruct (C47_tokens sep s []) as (l&T&_). eauto. Qed.
Lemma tokens_unique sep s l l' : tokens sep s l -> tokens sep s l' -> l = l'.
Proof. destruct (C47_tokens sep s []) as (l0&_&U&_). intros A B. rewrite (U _ A), (U _ B). reflexivity. Qed.
Lemma within_limit mx (l : list (list Z)) : within (if 0 <? mx then Some mx else None) l <-> (0 <? mx) && (mx <? Z.of_nat (length l)) = false.
Proof. destruct (Z.ltb_spec 0 mx); cbn [within andb]; [|tauto]. destruct (Z.ltb_spec mx (Z.of_nat (length l))); split; intros; try congruence; lia. Qed.

Lemma bool_argv arg b : parse_argv_bool arg = Ok b <-> says_argv K_bool arg (VBool b).
Proof.
  unfold parse_argv_bool, says_argv. destruct arg as [s|].
  - destruct s as [|c s0] eqn:ES.
    + split; [intros H; injection H as <-; auto 6|]. intros [[_ H]|[H _]]; [injection H as ->; reflexivity|discriminate].
    + rewrite <- ES. destruct (streq_spec s (cstr "true")) as [->|N1]; [|destruct (streq_spec s (cstr "false")) as [->|N2]].
      * split; [intros H; injection H as <-; auto|]. intros [[_ H]|[H _]]; [injection H as ->; reflexivity|discriminate].
      * split; [intros H; injection H as <-; auto|]. intros [[[H|[H|H]] _]|[_ H]]; [discriminate..|injection H as ->; reflexivity].
      * split; [discriminate|]. intros [[[H|[H|H]] _]|[H _]]; congruence.
  - split; [intros H; injection H as <-; auto|]. intros [[_ H]|[H _]]; [injection H as ->; reflexivity|discriminate].
Qed.
Lemma bool_argv_val arg v : says_argv K_bool arg v -> exists b, v = VBool b.
Proof. cbn. intros [[_ ->]|[_ ->]]; eauto. Qed.

Lemma parse_argv_spec o arg s s' : In o options -> handler o = None ->
  (parse_argv o arg s = Ok s' <-> exists v, says_argv (kind_of o) arg v /\ s' = apply1 o v s).
Proof.
  intros I HN.
  assert (W : forall f ws, word_parser (type o) = Some (f, ws) ->
    (bind (f arg) (fun n => Ok (store s (offset o) (VEnum n))) = Ok s' <-> exists v, says_argv (K_word ws) arg v /\ s' = store s (offset o) v)).
  { intros f ws E. destruct arg as [a|].
    - split.
      + destruct (f (Some a)) as [n| |] eqn:F; cbn [bind]; try discriminate. intros H. injection H as <-. apply (word_spec _ _ _ _ _ E) in F. destruct F as (w&IW&->).
        exists (VEnum n). split; [|reflexivity]. exists w, n. auto.
      + intros (v&(w&n&IW&EA&->)&->). injection EA as ->. rewrite (proj2 (word_spec _ _ _ (cstr w) n E)); [reflexivity|eauto].
    - destruct (word_parser_is _ _ _ E) as (U&_). rewrite U. cbn [bind]. split; [discriminate|]. intros (v&(w&n&_&H&_)&_). discriminate. }
  unfold parse_argv, kind_of, apply1. rewrite HN. destruct (type o) eqn:T.
  - split; [discriminate|]. intros (v&[]&_).
  - unfold string_parse_argv. destruct arg as [[|c a]|]; cbn [bind]; split; try discriminate.
    + intros (v&(x&E&N&_)&_). injection E as <-. congruence.
    + intros H. injection H as <-. exists (VStr (Some (c :: a))). split; [|reflexivity]. exists (c :: a). split; [|split]; congruence.
    + intros (v&(x&E&N&->)&->). injection E as <-. reflexivity.
    + intros (v&(x&E&_)&_). discriminate.
  - split.
    + destruct (parse_argv_bool arg) as [b| |] eqn:B; cbn [bind]; try discriminate. intros H. injection H as <-. apply bool_argv in B. eauto.
    + intros (v&H&->). destruct (bool_argv_val _ _ H) as (b&->). apply bool_argv in H. rewrite H. reflexivity.
  - destruct (bounds o I) as [B1 B2]. destruct arg as [a|]; split; try discriminate.
    + destruct (parse_argv_uint (min o) (max o) a) as [n| |] eqn:P; cbn [bind]; try discriminate. intros H. injection H as <-.
      apply C49_argv in P; auto. exists (VUint n). split; [|reflexivity]. exists a, n. tauto.
    + intros (v&(x&n&E&R&L&->)&->). injection E as <-. rewrite (proj2 (C49_argv (min o) (max o) a n B1 B2)); [reflexivity|auto].
    + intros (v&(x&n&E&_)&_). discriminate.
  - exact (W _ _ eq_refl).
  - split.
    + destruct (parse_argv_bool arg) as [b| |] eqn:B; cbn [bind]; try discriminate. intros H. injection H as <-. apply bool_argv in B. exists (VBool b). auto.
    + intros (v&H&->). destruct (bool_argv_val _ _ H) as (b&->). apply bool_argv in H. rewrite H. reflexivity.
  - destruct arg as [a|]; [|split; [discriminate|intros (v&(x&l&E&_)&_); discriminate]]. destruct (tokens_exist 44 a) as (l&TK).
    rewrite (C47_option (max o) a l TK). pose proof (within_limit (max o) l) as WL. destruct ((0 <? max o) && (max o <? Z.of_nat (length l))); cbn [bind]; split; try discriminate.
    + intros (v&(x&l'&E&T'&W'&_)&_). injection E as <-. rewrite (tokens_unique _ _ _ _ T' TK) in W'. apply WL in W'. discriminate.
    + rewrite all_written_map. cbn [bind]. intros H. injection H as <-. exists (VArr l). split; [|reflexivity]. exists a, l. split; [|split; [|split]]; auto. apply WL. reflexivity.
    + intros (v&(x&l'&E&T'&W'&->)&->). injection E as <-. rewrite (tokens_unique _ _ _ _ T' TK). rewrite all_written_map. reflexivity.
  - exact (W _ _ eq_refl).
  - exact (W _ _ eq_refl).
  - exact (W _ _ eq_refl).
  - exact (W _ _ eq_refl).
  - exact (W _ _ eq_refl).
  - exact (W _ _ eq_refl).
  - split; [discriminate|]. intros (v&[]&_).
Qed.
(** Crashes: only if there's no argument where one is wanted. *)
Lemma parse_argv_safe o arg s : In o options -> available AVAILABILITY_GETOPT o = true -> handler o = None -> (wants_value (kind_of o) = true -> arg <> None) -> parse_argv o arg s <> UB.
Proof.
  intros I AV HN A.
  assert (W : forall f ws, word_parser (type o) = Some (f, ws) -> bind (f arg) (fun n => Ok (store s (offset o) (VEnum n))) <> UB).
  { intros f ws E. rewrite (word_kind _ _ _ HN E) in A. destruct arg as [a|]; [|exfalso; apply A; auto]. destruct (word_parser_is _ _ _ E) as (_&F&_). rewrite F.
    destruct (lookup ws a); cbn [bind]; discriminate. }
  assert (IC : type o <> gt_incidences /\ type o <> gt_callback).
  { assert (H : forallb (fun o => negb (available AVAILABILITY_GETOPT o) || match handler o with None => false | _ => true end || match type o with gt_incidences | gt_callback => false | _ => true end) options = true) by (vm_compute; reflexivity).
    pose proof (proj1 (forallb_forall _ _) H o I) as K. cbn beta in K. rewrite AV, HN in K. cbn in K. split; intros E; rewrite E in K; discriminate. }
  unfold parse_argv. unfold kind_of in A. rewrite HN in A. destruct (type o) eqn:T; try (exact (W _ _ eq_refl)); try tauto.
  - unfold string_parse_argv. destruct arg as [[|c a]|]; cbn [bind]; discriminate.
  - unfold parse_argv_bool. destruct arg as [[|c a]|]; cbn [bind]; try discriminate. destruct (streq _ _); [|destruct (streq _ _)]; cbn [bind]; discriminate.
  - destruct arg as [a|]; [|discriminate]. unfold parse_argv_uint. destruct a; [discriminate|]. destruct (CLib.strtoul _) as ((p&e)&t). destruct e; [discriminate|].
    destruct t; [|discriminate]. destruct ((p <? min o) || (max o <? p)); discriminate.
  - unfold parse_argv_bool. destruct arg as [[|c a]|]; cbn [bind]; try discriminate. destruct (streq _ _); [|destruct (streq _ _)]; cbn [bind]; discriminate.
  - destruct arg as [a|]; [|exfalso; apply A; auto]. destruct (tokens_exist 44 a) as (l&TK). rewrite (C47_option (max o) a l TK).
    destruct ((0 <? max o) && (max o <? Z.of_nat (length l))); cbn [bind]; [discriminate|]. rewrite all_written_map. discriminate.
Qed.

Lemma strings_of_spec l r : strings_of l = Ok r <-> l = map CStr r.
Proof.
  revert r. induction l as [|j l IH]; intros r.
  - cbn. split; [intros H; injection H as <-; reflexivity|]. intros H. symmetry in H. apply map_eq_nil in H. subst. reflexivity.
  - destruct j; cbn [strings_of]; try (split; [discriminate|destruct r; discriminate]). split.
    + destruct (strings_of l) as [r'| |]; cbn [bind]; try discriminate. intros H. injection H as <-. cbn [map]. f_equal. apply IH. reflexivity.
    + destruct r as [|x r]; [discriminate|]. cbn [map]. intros H. injection H as -> ->. rewrite (proj2 (IH r) eq_refl). reflexivity.
Qed.

Lemma parse_json_spec o j s s' : In o options -> handler o = None -> kind_of o <> K_incidences ->
  (parse_json o j s = Ok s' <-> exists v, says_json (kind_of o) j v /\ s' = apply1 o v s).
Proof.
  intros I HN NI.
  assert (W : forall f ws, word_parser (type o) = Some (f, ws) ->
    (bind (parse_json_string j) (fun str => bind (f str) (fun n => Ok (store s (offset o) (VEnum n)))) = Ok s' <-> exists v, says_json (K_word ws) j v /\ s' = store s (offset o) v)).
  { intros f ws E. destruct (word_parser_is _ _ _ E) as (U&_). split.
    - destruct j; cbn [parse_json_string bind]; try discriminate.
      + destruct (f (Some s0)) as [n| |] eqn:F; cbn [bind]; try discriminate. intros H. injection H as <-. apply (word_spec _ _ _ _ _ E) in F. destruct F as (w&IW&->).
        exists (VEnum n). split; [|reflexivity]. exists w, n. auto.
      + rewrite U. discriminate.
    - intros (v&(w&n&IW&->&->)&->). cbn [parse_json_string bind]. rewrite (proj2 (word_spec _ _ _ (cstr w) n E)); [reflexivity|eauto]. }
  unfold parse_json, kind_of, apply1 in *. rewrite HN in *. destruct (type o) eqn:T.
  - split; [discriminate|]. intros (v&[]&_).
  - unfold string_parse_json. destruct j; cbn [parse_json_string bind string_parse_argv].
    1,2,4,5,7: (split; [discriminate|]; intros (v&[[H _]|(x&H&_)]&_); discriminate).
    + destruct s0 as [|c a]; cbn [string_parse_argv bind]; split; try discriminate.
      * intros (v&[[H _]|(x&H&N&_)]&_); [discriminate|]. injection H as <-. congruence.
      * intros H. injection H as <-. exists (VStr (Some (c :: a))). split; [|reflexivity]. right. exists (c :: a). split; [|split]; congruence.
      * intros (v&[[H _]|(x&H&N&->)]&->); [discriminate|]. injection H as <-. reflexivity.
    + destruct (json_null_allowed o); cbn [bind]; split; try discriminate.
      * intros H. injection H as <-. exists (VStr None). split; [|reflexivity]. left. auto.
      * intros (v&[(_&_&->)|(x&H&_)]&->); [reflexivity|discriminate].
      * intros (v&[(_&H&_)|(x&H&_)]&_); discriminate.
  - destruct j; cbn [parse_json_bool bind]; (split; [try discriminate|intros (v&(b'&E&->)&->); try discriminate]).
    + intros H. injection H as <-. exists (VBool b). split; [|reflexivity]. exists b. auto.
    + injection E as <-. reflexivity.
  - destruct (bounds o I) as [B1 B2]. unfold UINT_MAX in B2. destruct j; cbn [parse_json_uint bind]; (split; [try discriminate|intros (v&(n'&E&L&->)&->); try discriminate]).
    + destruct (Z.ltb_spec n (min o)); [discriminate|]. destruct (Z.ltb_spec (max o) n); [discriminate|]. cbn [orb bind]. intros H1. injection H1 as <-.
      rewrite wrap32_id by (unfold is_u32; lia). exists (VUint n). split; [|reflexivity]. exists n. auto.
    + injection E as <-. destruct (Z.ltb_spec n (min o)); [lia|]. destruct (Z.ltb_spec (max o) n); [lia|]. cbn [orb bind]. rewrite wrap32_id by (unfold is_u32; lia). reflexivity.
  - exact (W _ _ eq_refl).
  - destruct j; cbn [parse_json_bool bind]; (split; [try discriminate|intros (v&(b'&E&->)&->); try discriminate]).
    + intros H. injection H as <-. exists (VBool b). split; [|reflexivity]. exists b. auto.
    + injection E as <-. reflexivity.
  - unfold string_array_parse_json. destruct j; cbn [bind]; try (split; [discriminate|intros (v&(l'&E&_)&_); discriminate]). split.
    + destruct elements as [|e0 e1] eqn:EE; cbn [bind].
      * intros H. injection H as <-. exists (VArr []). split; [|reflexivity]. exists []. split; [reflexivity|]. split; [|reflexivity]. apply within_limit. cbn [length]. destruct (Z.ltb_spec 0 (max o)); cbn; [|reflexivity]. destruct (Z.ltb_spec (max o) 0); auto; lia.
      * rewrite <- EE. destruct ((0 <? max o) && (max o <? Z.of_nat (length elements))) eqn:L; cbn [bind]; [discriminate|].
        destruct (strings_of elements) as [r| |] eqn:S; cbn [bind]; try discriminate. intros H. injection H as <-. apply strings_of_spec in S.
        exists (VArr r). split; [|reflexivity]. exists r. split; [congruence|]. split; [|reflexivity]. apply within_limit. rewrite S, map_length in L. exact L.
    + intros (v&(l'&E&WI&->)&->). injection E as ->. apply within_limit in WI. destruct l' as [|x l']; [reflexivity|]. cbn [map]. change (CStr x :: map CStr l') with (map CStr (x :: l')).
      rewrite map_length, WI. rewrite (proj2 (strings_of_spec (map CStr (x :: l')) (x :: l')) eq_refl). reflexivity.
  - exact (W _ _ eq_refl).
  - exact (W _ _ eq_refl).
  - exact (W _ _ eq_refl).
  - exact (W _ _ eq_refl).
  - exact (W _ _ eq_refl).
  - exact (W _ _ eq_refl).
  - congruence.
Qed.
Lemma parse_json_incidences o j s : handler o = None -> kind_of o = K_incidences ->
  parse_json o j s = bind (incidence_update (st_incidences s) (to_json j)) (fun '(l, e) => if e =? 0 then Ok {| st_config := st_config s; st_incidences := l |} else Err EINVAL).
Proof. intros HN K. unfold parse_json. unfold kind_of in K. rewrite HN in K. destruct (type o); try discriminate. reflexivity. Qed.

(** ** Paths *)
Fixpoint iter_tok (fuel : nat) (s : list Z) : list (list Z) :=
  match fuel with
  | O => []
  | S fuel => match CLib.strtok 46 s with (Some t, r) => t :: iter_tok fuel r | (None, _) => [] end
  end.
Fixpoint get_path (j : cjson) (p : list (list Z)) : option cjson :=
  match p with
  | [] => Some j
  | k :: p => match json_object_get j k with Some j => get_path j p | None => None end
  end.
Lemma find_loop_none fuel tok s : find_loop fuel None tok s = None.
Proof. destruct fuel; reflexivity. Qed.
Lemma find_loop_iter fuel : forall j s, (length (iter_tok fuel s) < fuel)%nat ->
  find_loop (S fuel) (Some j) (fst (CLib.strtok 46 s)) (snd (CLib.strtok 46 s)) = get_path j (iter_tok fuel s).
Proof.
  induction fuel as [|fuel IH]; intros j s L; [cbn in L; lia|]. cbn [iter_tok] in *. destruct (CLib.strtok 46 s) as [[t|] r]; cbn [fst snd]; [|reflexivity].
  cbn [length] in L. cbn [get_path]. change (find_loop (S (S fuel)) (Some j) (Some t) r) with (let '(tok', save') := CLib.strtok 46 r in find_loop (S fuel) (json_object_get j t) tok' save').
  specialize (fun j' => IH j' r ltac:(lia)). destruct (CLib.strtok 46 r) as [tok' save']. cbn [fst snd] in IH. destruct (json_object_get j t) as [j'|]; [apply IH|apply find_loop_none].
Qed.
Lemma find_json_path o root : In o options -> find_json root (cstr (name o)) = get_path root (path (name o)).
Proof.
  assert (H : forallb (fun o => list_eqb (list_eqb Z.eqb) (iter_tok (S (length (cstr (name o)))) (cstr (name o))) (path (name o)) &&
     (length (iter_tok (S (length (cstr (name o)))) (cstr (name o))) <? S (length (cstr (name o))))%nat) options = true) by (vm_compute; reflexivity).
  intros I. pose proof (proj1 (forallb_forall _ _) H o I) as K. apply andb_prop in K. destruct K as [K1 K2]. apply Nat.ltb_lt in K2.
  apply list_eqb_spec in K1; [|intros; apply list_eqb_spec; intros; apply Z.eqb_eq].
  unfold find_json. rewrite <- K1. pose proof (find_loop_iter _ root _ K2) as F. destruct (CLib.strtok 46 (cstr (name o))) as [tok save]. exact F.
Qed.
Lemma cassoc_In k l j : cassoc k l = Some j -> In (k, j) l.
Proof. induction l as [|(k', v) l IH]; cbn [cassoc]; [discriminate|]. destruct (streq_spec k k') as [->|N]; intros H; [injection H as ->; left; reflexivity|right; auto]. Qed.
Lemma cassoc_unique k l j : NoDup (map fst l) -> In (k, j) l -> cassoc k l = Some j.
Proof.
  induction l as [|(k', v) l IH]; cbn [cassoc map fst]; intros N I; [destruct I|]. inversion N as [|? ? N1 N2]; subst. destruct I as [E|I].
  - injection E as -> ->. rewrite streq_refl. reflexivity.
  - destruct (streq_spec k k') as [->|NE]; [|auto]. exfalso. apply N1. apply in_map_iff. exists (k', j). auto.
Qed.
Lemma found_path j p v : no_duplicates j -> (found j p v <-> get_path j p = Some v).
Proof.
  revert j. induction p as [|k p IH]; intros j ND; cbn [get_path].
  - split; [intros H; inversion H; reflexivity|]. intros H. injection H as <-. constructor.
  - split.
    + intros H. inversion H as [|ms k0 j0 p0 v0 IN FD E1 E2 E3]; subst. inversion ND as [l N R E| |? C1 C2]; subst; [|exfalso; eapply C1; reflexivity]. cbn [json_object_get]. rewrite (cassoc_unique _ _ _ N IN). apply IH; auto. eapply R; eauto.
    + destruct j; cbn [json_object_get]; try discriminate. destruct (cassoc k members) as [j|] eqn:A; [|discriminate]. intros H. apply cassoc_In in A.
      inversion ND as [l N R E| |? C1 C2]; subst; [|exfalso; eapply C1; reflexivity]. econstructor; eauto. apply IH; eauto.
Qed.

(** ** Settings *)
Definition exec (x : setting) (s : state) : res state :=
  match x with
  | S_value n v => match find (fun o => String.eqb (name o) n) options with Some o => Ok (apply1 o v s) | None => UB end
  | S_incidences j => bind (incidence_update (st_incidences s) (to_json j)) (fun '(l, e) =>
      if e =? 0 then Ok {| st_config := st_config s; st_incidences := l |} else Err EINVAL)
  end.
Fixpoint exec_all (l : list setting) (s : state) : res state := match l with [] => Ok s | x :: l => bind (exec x s) (exec_all l) end.
Lemma exec_all_app l1 l2 s : exec_all (l1 ++ l2) s = bind (exec_all l1 s) (exec_all l2).
Proof. revert s. induction l1 as [|x l1 IH]; intros s; [reflexivity|]. cbn [app exec_all]. destruct (exec x s); cbn [bind]; auto. Qed.
Lemma find_name o : In o options -> find (fun o' => String.eqb (name o') (name o)) options = Some o.
Proof.
  intros I. destruct (find (fun o' => String.eqb (name o') (name o)) options) as [o'|] eqn:F.
  - apply find_some in F. destruct F as [I' E]. apply String.eqb_eq in E. rewrite (same_name _ _ I' I E). reflexivity.
  - exfalso. pose proof (find_none _ _ F o I) as K. cbn in K. rewrite String.eqb_refl in K. discriminate.
Qed.
Lemma exec_value o v s : In o options -> exec (S_value (name o) v) s = Ok (apply1 o v s).
Proof. intros I. unfold exec. rewrite find_name by auto. reflexivity. Qed.

Lemma says_json_kind k j v : says_json k j v -> k <> K_stop /\ k <> K_file /\ k <> K_incidences.
Proof. destruct k; cbn; intros H; try tauto; repeat split; discriminate. Qed.
Lemma says_argv_kind k j v : says_argv k j v -> k <> K_stop /\ k <> K_file /\ k <> K_incidences.
Proof. destruct k; cbn; intros H; try tauto; repeat split; discriminate. Qed.
Lemma json_handler o : In o options -> available AVAILABILITY_JSON o = true -> handler o = None.
Proof.
  assert (H : forallb (fun o => negb (available AVAILABILITY_JSON o) || match handler o with None => true | _ => false end) options = true) by (vm_compute; reflexivity).
  intros I A. pose proof (proj1 (forallb_forall _ _) H o I) as K. cbn beta in K. rewrite A in K. cbn in K. destruct (handler o); [discriminate|reflexivity].
Qed.

Lemma json_loop_spec opts root s s' : no_duplicates root -> incl opts options ->
  (json_loop (filter (available AVAILABILITY_JSON) opts) root s = Ok s' <-> exists l, file_says root (map doc_of opts) l /\ exec_all l s = Ok s').
Proof.
  intros ND. revert s. induction opts as [|o opts IH]; intros s INC.
  - cbn. split; [intros H; exists []; split; [constructor|exact H]|]. intros (l&H&E). inversion H; subst. exact E.
  - assert (I : In o options) by (apply INC; left; reflexivity). assert (INC' : incl opts options) by (intros x X; apply INC; right; auto).
    cbn [filter map]. destruct (available AVAILABILITY_JSON o) eqn:AV.
    + pose proof (json_handler o I AV) as HN. cbn [json_loop]. rewrite find_json_path by auto. destruct (get_path root (path (name o))) as [x|] eqn:G.
      * assert (FD : found root (path (name o)) x) by (apply found_path; auto). split.
        -- destruct (parse_json o x s) as [s1| |] eqn:P; cbn [bind]; try discriminate. intros H. apply IH in H; auto. destruct H as (l&FS&E).
           destruct (kind_of o) eqn:K; try (apply parse_json_spec in P; [|auto|auto|congruence]; rewrite K in P; destruct P as (v&SJ&->);
             exists (S_value (name o) v :: l); (split; [refine (fs_value root (doc_of o) _ x v l AV FD _ FS); cbn; rewrite K; exact SJ|]); cbn [exec_all]; rewrite exec_value by auto; exact E).
           rewrite parse_json_incidences in P by auto. exists (S_incidences x :: l). split; [refine (fs_incidences root (doc_of o) _ x l AV K FD FS)|]. cbn [exec_all exec]. rewrite P. exact E.
        -- intros (l&FS&E). inversion FS as [|d ds l' [N|N] FS'|d ds x' v l' AV' FD' SJ FS'|d ds x' l' AV' K FD' FS']; subst.
           ++ change (available AVAILABILITY_JSON o = false) in N. congruence.
           ++ exfalso. eapply N. exact FD.
           ++ cbn [doc_of d_name d_kind] in FD', SJ. apply found_path in FD'; auto. assert (x' = x) by congruence. subst x'. cbn [exec_all] in E. cbn [doc_of d_name] in E. rewrite exec_value in E by auto. cbn [bind] in E.
              destruct (says_json_kind _ _ _ SJ) as (_&_&NK). rewrite (proj2 (parse_json_spec o x s (apply1 o v s) I HN NK)) by eauto. cbn [bind]. apply IH; eauto.
           ++ cbn [doc_of d_name d_kind] in FD', K. apply found_path in FD'; auto. assert (x' = x) by congruence. subst x'. cbn [exec_all exec] in E. rewrite parse_json_incidences by auto.
              match type of E with bind ?b _ = _ => destruct b as [s1| |] end; cbn [bind] in *; try discriminate. apply IH; eauto.
      * split.
        -- intros H. apply IH in H; auto. destruct H as (l&FS&E). exists l. split; auto. apply fs_no; auto. right. intros x F. cbn [doc_of d_name] in F. apply found_path in F; auto. congruence.
        -- intros (l&FS&E). inversion FS as [|d ds l' N FS'|d ds x' v l' AV' FD' SJ FS'|d ds x' l' AV' K FD' FS']; subst.
           ++ apply IH; eauto.
           ++ cbn [doc_of d_name] in FD'. apply found_path in FD'; auto. congruence.
           ++ cbn [doc_of d_name] in FD'. apply found_path in FD'; auto. congruence.
    + split.
      * intros H. apply IH in H; auto. destruct H as (l&FS&E). exists l. split; auto. apply fs_no; auto.
      * intros (l&FS&E). inversion FS as [|d ds l' N FS'|d ds x' v l' AV' FD' SJ FS'|d ds x' l' AV' K FD' FS']; subst.
        -- apply IH; eauto.
        -- cbn in AV'. congruence.
        -- cbn in AV'. congruence.
Qed.
Lemma json_to_config_spec root s s' : no_duplicates root -> (json_to_config root s = Ok s' <-> exists l, file_says root manual l /\ exec_all l s = Ok s').
Proof. intros ND. unfold json_to_config. rewrite foreach_is, manual_is. apply json_loop_spec; auto. apply incl_refl. Qed.
