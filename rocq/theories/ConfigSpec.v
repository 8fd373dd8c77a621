(** Specification vocabulary for C91: the manual (docs/usage.md, docs/mode-print.md), and what a command line and a
    configuration file say.  Of the model, only the types, the constants and the getters are used. *)
From Coq Require Import String.
From Verif Require Import Base CString TextSpec TextProps NtopSpec Slurm Manifest Incidence Config.
From Verif Require IncidenceSpec.
Notation length := List.length.

(** ** The manual *)
Inductive kind :=
| K_stop                                  (* --help and the like *)
| K_file                                  (* the configuration file *)
| K_text (null : bool)                    (* a string that isn't empty; null in the file, or not *)
| K_bool
| K_number (lo hi : Z)
| K_word (words : list (string * Z))
| K_list (limit : option Z)               (* strings, separated by commas in the command line *)
| K_incidences.
Record documented := { d_name : string; d_short : option Z; d_argv : bool; d_json : bool; d_kind : kind; d_default : value }.
Definition doc n s a j k d := {| d_name := n; d_short := s; d_argv := a; d_json := j; d_kind := k; d_default := d |}.

Definition modes : list (string * Z) := [("server", SERVER); ("standalone", STANDALONE); ("print", PRINT_FILE)]%string.
Definition outputs : list (string * Z) := [("syslog", SYSLOG); ("console", CONSOLE)]%string.
Definition levels : list (string * Z) := [("error", LOG_ERR); ("warning", LOG_WARNING); ("info", LOG_INFO); ("debug", LOG_DEBUG)]%string.
Definition facilities : list (string * Z) :=
  [("auth", LOG_AUTH); ("authpriv", LOG_AUTHPRIV); ("cron", LOG_CRON); ("daemon", LOG_DAEMON); ("ftp", LOG_FTP); ("lpr", LOG_LPR); ("mail", LOG_MAIL);
   ("news", LOG_NEWS); ("user", LOG_USER); ("uucp", LOG_UUCP); ("local0", LOG_LOCAL0); ("local1", LOG_LOCAL1); ("local2", LOG_LOCAL2);
   ("local3", LOG_LOCAL3); ("local4", LOG_LOCAL4); ("local5", LOG_LOCAL5); ("local6", LOG_LOCAL6); ("local7", LOG_LOCAL7)]%string.
Definition filename_formats : list (string * Z) := [("global-url", FNF_GLOBAL); ("local-path", FNF_LOCAL); ("file-name", FNF_NAME)]%string.
Definition formats : list (string * Z) := [("csv", OFM_CSV); ("json", OFM_JSON)]%string.
Definition file_types : list (string * Z) := [("roa", FT_ROA); ("mft", FT_MFT); ("gbr", FT_GBR); ("cer", FT_CER); ("crl", FT_CRL)]%string.

Definition text (s : string) : value := VStr (Some (cstr s)).
(** Name, letter, whether it can be in the command line, in the file; what it takes; its default.  The order only matters
    within a file, where work-offline comes before rsync.enabled and http.enabled. *)
Definition manual : list documented :=
  [
    doc "help" (Some 104) true false (K_stop) (VStr None);
    doc "usage" None true false (K_stop) (VStr None);
    doc "version" (Some 86) true false (K_stop) (VStr None);
    doc "configuration-file" (Some 102) true false (K_file) (VStr None);
    doc "tal" (Some 116) true true (K_text false) (VStr None);
    doc "local-repository" (Some 114) true true (K_text false) (text "/tmp/fort/repository");
    doc "shuffle-uris" None true true (K_bool) (VBool false);
    doc "maximum-certificate-depth" None true true (K_number 5 4294967294) (VUint 32);
    doc "slurm" None true true (K_text true) (VStr None);
    doc "mode" None true true (K_word modes) (VEnum SERVER);
    doc "work-offline" None true true (K_bool) (VBool false);
    doc "daemon" None true true (K_bool) (VBool false);
    doc "server.address" None true true (K_list (Some 50)) (VArr [cstr "::"]);
    doc "server.port" None true true (K_text false) (text "323");
    doc "server.backlog" None true true (K_number 1 4096) (VUint 4096);
    doc "server.interval.validation" None true true (K_number 60 4294967295) (VUint 3600);
    doc "server.interval.refresh" None true true (K_number 1 86400) (VUint 3600);
    doc "server.interval.retry" None true true (K_number 1 7200) (VUint 600);
    doc "server.interval.expire" None true true (K_number 600 172800) (VUint 7200);
    doc "server.deltas.lifetime" None true true (K_number 0 4294967295) (VUint 2);
    doc "rsync.enabled" None true true (K_bool) (VBool true);
    doc "rsync.priority" None true true (K_number 0 100) (VUint 50);
    doc "rsync.strategy" None true true (K_text true) (text "<deprecated>");
    doc "rsync.retry.count" None true true (K_number 0 4294967295) (VUint 1);
    doc "rsync.retry.interval" None true true (K_number 0 4294967295) (VUint 4);
    doc "rsync.program" None false true (K_text false) (text "rsync");
    doc "rsync.arguments-recursive" None false true (K_list None) (VArr (map cstr ["-rtz"; "--delete"; "--omit-dir-times"; "--contimeout=20"; "--max-size=20MB"; "--timeout=15"; "--include=*/"; "--include=*.cer"; "--include=*.crl"; "--include=*.gbr"; "--include=*.mft"; "--include=*.roa"; "--exclude=*"; "$REMOTE"; "$LOCAL"]));
    doc "rsync.arguments-flat" None false true (K_list None) (VArr [cstr "<deprecated>"]);
    doc "rsync.transfer-timeout" None true true (K_number 0 4294967295) (VUint 900);
    doc "http.enabled" None true true (K_bool) (VBool true);
    doc "http.priority" None true true (K_number 0 100) (VUint 60);
    doc "http.retry.count" None true true (K_number 0 4294967295) (VUint 1);
    doc "http.retry.interval" None true true (K_number 0 4294967295) (VUint 4);
    doc "http.user-agent" None true true (K_text false) (text "fort/1.6.4");
    doc "http.max-redirs" None true true (K_number 0 4294967295) (VUint 10);
    doc "http.connect-timeout" None true true (K_number 1 4294967295) (VUint 30);
    doc "http.transfer-timeout" None true true (K_number 0 4294967295) (VUint 900);
    doc "http.low-speed-limit" None true true (K_number 0 4294967295) (VUint 100000);
    doc "http.low-speed-time" None true true (K_number 0 4294967295) (VUint 10);
    doc "http.max-file-size" None true true (K_number 0 2000000000) (VUint 1000000000);
    doc "http.ca-path" None true true (K_text false) (VStr None);
    doc "log.enabled" None true true (K_bool) (VBool true);
    doc "log.output" None true true (K_word outputs) (VEnum CONSOLE);
    doc "log.level" None true true (K_word levels) (VEnum LOG_WARNING);
    doc "log.tag" None true true (K_text true) (VStr None);
    doc "log.facility" None true true (K_word facilities) (VEnum LOG_DAEMON);
    doc "log.file-name-format" None true true (K_word filename_formats) (VEnum FNF_GLOBAL);
    doc "log.color-output" (Some 99) true true (K_bool) (VBool false);
    doc "validation-log.enabled" None true true (K_bool) (VBool false);
    doc "validation-log.output" None true true (K_word outputs) (VEnum CONSOLE);
    doc "validation-log.level" None true true (K_word levels) (VEnum LOG_WARNING);
    doc "validation-log.tag" None true true (K_text true) (text "Validation");
    doc "validation-log.facility" None true true (K_word facilities) (VEnum LOG_DAEMON);
    doc "validation-log.file-name-format" None true true (K_word filename_formats) (VEnum FNF_GLOBAL);
    doc "validation-log.color-output" None true true (K_bool) (VBool false);
    doc "incidences" None false true (K_incidences) (VStr None);
    doc "output.roa" None true true (K_text true) (VStr None);
    doc "output.bgpsec" None true true (K_text true) (VStr None);
    doc "output.format" None true true (K_word formats) (VEnum OFM_CSV);
    doc "asn1-decode-max-stack" None true true (K_number 1 4294967295) (VUint 4096);
    doc "stale-repository-period" None true true (K_number 0 4294967295) (VUint 43200);
    doc "init-tals" None true false (K_bool) (VBool false);
    doc "init-as0-tals" None true false (K_bool) (VBool false);
    doc "thread-pool.server.max" None true true (K_number 1 4294967295) (VUint 20);
    doc "thread-pool.validation.max" None true true (K_number 0 100) (VUint 5);
    doc "file-type" None true true (K_word file_types) (VEnum FT_UNK) ]%string.

(** ** What an argument says, and what a member of the file says *)
Definition within (limit : option Z) (l : list (list Z)) : Prop := match limit with None => True | Some n => Z.of_nat (length l) <= n end.
Definition says_argv (k : kind) (arg : option (list Z)) (v : value) : Prop :=
  match k with
  | K_text _ => exists s, arg = Some s /\ s <> [] /\ v = VStr (Some s)
  | K_bool => ((arg = None \/ arg = Some [] \/ arg = Some (cstr "true")) /\ v = VBool true) \/ (arg = Some (cstr "false") /\ v = VBool false)
  | K_number lo hi => exists s n, arg = Some s /\ reading s n /\ lo <= n <= hi /\ v = VUint n
  | K_word words => exists word n, In (word, n) words /\ arg = Some (cstr word) /\ v = VEnum n
  | K_list limit => exists s l, arg = Some s /\ tokens 44 s l /\ within limit l /\ v = VArr l
  | _ => False
  end.
Definition says_json (k : kind) (j : cjson) (v : value) : Prop :=
  match k with
  | K_text null => (j = CNull /\ null = true /\ v = VStr None) \/ exists s, j = CStr s /\ s <> [] /\ v = VStr (Some s)
  | K_bool => exists b, j = CBool b /\ v = VBool b
  | K_number lo hi => exists n, j = CInt n /\ lo <= n <= hi /\ v = VUint n
  | K_word words => exists word n, In (word, n) words /\ j = CStr (cstr word) /\ v = VEnum n
  | K_list limit => exists l, j = CArr (map CStr l) /\ within limit l /\ v = VArr l
  | _ => False
  end.

(** ** The command line *)
Definition wants_value (k : kind) : bool := match k with K_stop | K_bool | K_incidences => false | _ => true end.
Definition takes_value (k : kind) : bool := match k with K_stop | K_incidences => false | _ => true end.
Definition is_stop (k : kind) : bool := match k with K_stop => true | _ => false end.
(** [n] names the option: in full, or as an abbreviation of no other. *)
Definition designates (n : list Z) (d : documented) : Prop :=
  In d manual /\ d_argv d = true /\
  (n = cstr (d_name d) \/
   (forall d', In d' manual -> d_argv d' = true -> n <> cstr (d_name d')) /\
   (exists r, cstr (d_name d) = n ++ r) /\
   (forall d' r, In d' manual -> d_argv d' = true -> cstr (d_name d') = n ++ r -> d' = d)).
Definition lettered (c : Z) (d : documented) : Prop := In d manual /\ d_argv d = true /\ d_short d = Some c.

(** [args] is a way to write these options with these values, and these operands.  What follows --help isn't read. *)
Inductive spells : list (list Z) -> list (string * option (list Z)) -> list (list Z) -> Prop :=
| sp_end : spells [] [] []
| sp_rest args : spells (cstr "--" :: args) [] args
| sp_operand a args l r : a = cstr "-" \/ hd_error a <> Some 45 -> spells args l r -> spells (a :: args) l (a :: r)
| sp_long_equals d n v args l r : designates n d -> ~ In 61 n -> takes_value (d_kind d) = true -> spells args l r ->
    spells ((cstr "--" ++ n ++ cstr "=" ++ v) :: args) ((d_name d, Some v) :: l) r
| sp_long_space d n v args l r : designates n d -> ~ In 61 n -> wants_value (d_kind d) = true -> spells args l r ->
    spells ((cstr "--" ++ n) :: v :: args) ((d_name d, Some v) :: l) r
| sp_long_alone d n args l r : designates n d -> ~ In 61 n -> wants_value (d_kind d) = false -> is_stop (d_kind d) = false -> spells args l r ->
    spells ((cstr "--" ++ n) :: args) ((d_name d, None) :: l) r
| sp_short_joined d c v args l r : lettered c d -> is_stop (d_kind d) = false -> v <> [] -> spells args l r ->
    spells ((cstr "-" ++ c :: v) :: args) ((d_name d, Some v) :: l) r
| sp_short_space d c v args l r : lettered c d -> is_stop (d_kind d) = false -> spells args l r ->
    spells ((cstr "-" ++ [c]) :: v :: args) ((d_name d, Some v) :: l) r
| sp_long_stop d n args : designates n d -> ~ In 61 n -> is_stop (d_kind d) = true -> spells ((cstr "--" ++ n) :: args) [(d_name d, None)] []
| sp_short_stop d c s args : lettered c d -> is_stop (d_kind d) = true -> spells ((cstr "-" ++ c :: s) :: args) [(d_name d, None)] [].

(** ** The file *)
(** The element at a path of names. *)
Inductive found : cjson -> list (list Z) -> cjson -> Prop :=
| found_here j : found j [] j
| found_in members k j p v : In (k, j) members -> found j p v -> found (CObj members) (k :: p) v.
(** An option's path: its name, split at the dots. *)
Definition path (n : string) : list (list Z) := split 46 (cstr n).
(** No object has two members of the same name (JSON_REJECT_DUPLICATES). *)
Inductive no_duplicates : cjson -> Prop :=
| nd_obj l : NoDup (map fst l) -> (forall k j, In (k, j) l -> no_duplicates j) -> no_duplicates (CObj l)
| nd_arr l : (forall j, In j l -> no_duplicates j) -> no_duplicates (CArr l)
| nd_other j : (forall l, j <> CObj l) -> (forall l, j <> CArr l) -> no_duplicates j.

Inductive setting := S_value (n : string) (v : value) | S_incidences (j : cjson).
(** What a file sets, out of the options [ds]. *)
Inductive file_says (j : cjson) : list documented -> list setting -> Prop :=
| fs_end : file_says j [] []
| fs_no d ds l : d_json d = false \/ (forall x, ~ found j (path (d_name d)) x) -> file_says j ds l -> file_says j (d :: ds) l
| fs_value d ds x v l : d_json d = true -> found j (path (d_name d)) x -> says_json (d_kind d) x v -> file_says j ds l ->
    file_says j (d :: ds) (S_value (d_name d) v :: l)
| fs_incidences d ds x l : d_json d = true -> d_kind d = K_incidences -> found j (path (d_name d)) x -> file_says j ds l ->
    file_says j (d :: ds) (S_incidences x :: l).

(** ** All together *)
Section WithWorld.
  Variable w : world.
  (** What an option of the command line sets. *)
  Inductive item_says : string * option (list Z) -> list setting -> Prop :=
  | is_value d arg v : In d manual -> d_argv d = true -> says_argv (d_kind d) arg v -> item_says (d_name d, arg) [S_value (d_name d) v]
  | is_file d f j l : In d manual -> d_kind d = K_file -> w_load w f = Some j -> file_says j manual l -> item_says (d_name d, Some f) l.
  Inductive items_say : list (string * option (list Z)) -> list setting -> Prop :=
  | iss_end : items_say [] []
  | iss_more i l s1 s2 : item_says i s1 -> items_say l s2 -> items_say (i :: l) (s1 ++ s2).

  (** The value a setting gives an option.  work-offline also switches the protocols. *)
  Definition gives (n : string) (s : setting) : option value :=
    match s with
    | S_value m v =>
        if String.eqb m n then Some v
        else if String.eqb m "work-offline" && (String.eqb n "rsync.enabled" || String.eqb n "http.enabled")
        then match v with VBool b => Some (VBool (negb b)) | _ => None end else None
    | S_incidences _ => None
    end.
  (** The last one wins. *)
  Definition given (l : list setting) (n : string) : option value :=
    fold_left (fun acc s => match gives n s with Some v => Some v | None => acc end) l None.
  Definition value_of (l : list setting) (n : string) : value :=
    match given l n with
    | Some v => v
    | None => match find (fun d => String.eqb (d_name d) n) manual with Some d => d_default d | None => VStr None end
    end.
  (** All that the files say of the incidences, in order (IncidenceSpec.v, C88). *)
  Inductive incidences_say : list setting -> list json -> Prop :=
  | ins_end : incidences_say [] []
  | ins_value n v l js : incidences_say l js -> incidences_say (S_value n v :: l) js
  | ins_more j js1 l js2 : to_json j = JArr js1 -> Forall IncidenceSpec.sensible js1 -> incidences_say l js2 -> incidences_say (S_incidences j :: l) (js1 ++ js2).

  Definition yes (l : list setting) (n : string) : Prop := value_of l n = VBool true.
  Definition at_most (l : list setting) (a b : string) : Prop := exists x y, value_of l a = VUint x /\ value_of l b = VUint y /\ x <= y.
  Definition is_dir (f : list Z) : Prop := w_stat w f = Some KDir.
  Definition is_file_or_dir (f : list Z) : Prop := w_stat w f = Some KFile \/ w_stat w f = Some KDir.
  (** The settings make sense together. *)
  Definition consistent (l : list setting) (operands : list (list Z)) : Prop :=
    value_of l "mode" = VEnum PRINT_FILE \/
    operands = [] /\ (exists tal, value_of l "tal" = VStr (Some tal) /\ is_file_or_dir tal /\ (yes l "init-tals" -> is_dir tal)) /\
    (yes l "init-tals" \/
     at_most l "server.interval.refresh" "server.interval.expire" /\ at_most l "server.interval.retry" "server.interval.expire" /\
     (value_of l "slurm" = VStr None \/ exists slurm, value_of l "slurm" = VStr (Some slurm) /\ is_file_or_dir slurm)).
End WithWorld.

(** The options, and how the rest of the program asks for their values.  Missing: rsync.enabled, http.enabled, log.output and
    validation-log.output, see C91; and those only this module uses. *)
Definition observed : list (string * (config -> value)) :=
  [("mode", config_get_mode); ("server.address", config_get_server_address); ("server.port", config_get_server_port); ("server.backlog", config_get_server_queue); ("server.interval.validation", config_get_validation_interval); ("server.interval.refresh", config_get_interval_refresh); ("server.interval.retry", config_get_interval_retry); ("server.interval.expire", config_get_interval_expire); ("server.deltas.lifetime", config_get_deltas_lifetime); ("slurm", config_get_slurm); ("tal", config_get_tal); ("local-repository", config_get_local_repository); ("maximum-certificate-depth", config_get_max_cert_depth); ("log.enabled", config_get_op_log_enabled); ("log.tag", config_get_op_log_tag); ("log.color-output", config_get_op_log_color_output); ("log.file-name-format", config_get_op_log_filename_format); ("log.level", config_get_op_log_level); ("log.facility", config_get_op_log_facility); ("validation-log.enabled", config_get_val_log_enabled); ("validation-log.tag", config_get_val_log_tag); ("validation-log.color-output", config_get_val_log_color_output); ("validation-log.file-name-format", config_get_val_log_filename_format); ("validation-log.level", config_get_val_log_level); ("validation-log.facility", config_get_val_log_facility); ("rsync.priority", config_get_rsync_priority); ("rsync.retry.count", config_get_rsync_retry_count); ("rsync.retry.interval", config_get_rsync_retry_interval); ("rsync.transfer-timeout", config_get_rsync_transfer_timeout); ("rsync.program", config_get_rsync_program); ("rsync.arguments-recursive", config_get_rsync_args); ("http.priority", config_get_http_priority); ("http.retry.count", config_get_http_retry_count); ("http.retry.interval", config_get_http_retry_interval); ("http.user-agent", config_get_http_user_agent); ("http.max-redirs", config_get_max_redirs); ("http.connect-timeout", config_get_http_connect_timeout); ("http.transfer-timeout", config_get_http_transfer_timeout); ("http.low-speed-limit", config_get_http_low_speed_limit); ("http.low-speed-time", config_get_http_low_speed_time); ("http.max-file-size", config_get_http_max_file_size); ("http.ca-path", config_get_http_ca_path); ("output.roa", config_get_output_roa); ("output.bgpsec", config_get_output_bgpsec); ("output.format", config_get_output_format); ("asn1-decode-max-stack", config_get_asn1_decode_max_stack); ("thread-pool.server.max", config_get_thread_pool_server_max); ("file-type", config_get_file_type)]%string.

(** The program runs with the settings [l] and these operands. *)
Definition runs_with (l : list setting) (operands : list (list Z)) (s : state) : Prop :=
  let c := st_config s in
  (forall n get, In (n, get) observed -> get c = value_of l n) /\
  (* neither protocol while offline *)
  (exists offline rsync http, value_of l "work-offline" = VBool offline /\ value_of l "rsync.enabled" = VBool rsync /\ value_of l "http.enabled" = VBool http /\
    config_get_rsync_enabled c = VBool (negb offline && rsync) /\ config_get_http_enabled c = VBool (negb offline && http)) /\
  (* a daemon has no console *)
  (config_get_op_log_output c = if as_bool (value_of l "daemon") then VEnum SYSLOG else value_of l "log.output") /\
  (config_get_val_log_output c = if as_bool (value_of l "daemon") then VEnum SYSLOG else value_of l "validation-log.output") /\
  config_get_payload c = VStr (hd_error operands) /\
  exists js, incidences_say l js /\ forall k a, IncidenceSpec.configured k (IncidenceSpec.documented_default k) js a ->
    incidence_get_action (st_incidences s) (IncidenceSpec.id k) = Ok a.

(** A value of the kind. *)
Definition fits (k : kind) (v : value) : Prop :=
  match k with
  | K_text _ => exists s, v = VStr s /\ s <> Some []
  | K_bool => exists b, v = VBool b
  | K_number lo hi => exists n, v = VUint n /\ lo <= n <= hi
  | K_word words => exists word n, In (word, n) words /\ v = VEnum n
  | K_list limit => exists l, v = VArr l /\ within limit l
  | _ => False
  end.
(** A null where the file should have one of a list of words. *)
Definition null_word (j : cjson) : Prop := exists d words, In d manual /\ d_json d = true /\ d_kind d = K_word words /\ found j (path (d_name d)) CNull.

(** The settings [l] and these operands are what the command line, and the files it names, ask for. *)
Definition asks (w : world) (args : list (list Z)) (l : list setting) (operands : list (list Z)) : Prop :=
  exists items js, spells args items operands /\ items_say w items l /\ incidences_say l js.
(** They ask for a text such as the help, before anything is wrong. *)
Definition asks_help (w : world) (args : list (list Z)) : Prop :=
  exists items l js d rest, In d manual /\ is_stop (d_kind d) = true /\ spells args (items ++ [(d_name d, None)]) rest /\ items_say w items l /\ incidences_say l js.
(** json_load_file() with JSON_REJECT_DUPLICATES. *)
Definition rejects_duplicates (w : world) : Prop := forall f j, w_load w f = Some j -> no_duplicates j.
