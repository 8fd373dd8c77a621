(** The configuration that is shown when the program starts: print_config() of
    src/config.c, and the printers of each type. *)
From Coq Require Import String.
From Verif Require Import Base CString Oid Slurm Manifest Incidence Config.
Notation length := List.length.
Open Scope list_scope.
Open Scope Z_scope.

(** A message of the log, without its prefix.  src/log.c [pr_op_info] writes it
    if log.enabled and log.level say so; that's C98. *)
Notation message := (list Z).
(** "%s: %s". *)
Definition named_message (field : string) (text : list Z) : message := cstr field ++ cstr ": " ++ text.
(** What glibc's printf() makes of NULL for "%s". *)
Definition NULL_TEXT : list Z := cstr "(null)".

(** src/config/mode.c:14-32 [print_mode]. *)
Definition print_mode (n : Z) : list Z :=
  if n =? SERVER then cstr "server" else if n =? STANDALONE then cstr "standalone" else if n =? PRINT_FILE then cstr "print" else cstr "<unknown>".
(** src/config/log_conf.c:46-67 [print_log_level]. *)
Definition print_log_level (n : Z) : list Z :=
  if n =? LOG_ERR then cstr "error" else if n =? LOG_WARNING then cstr "warning" else if n =? LOG_INFO then cstr "info" else if n =? LOG_DEBUG then cstr "debug"
  else cstr "<unknown>".
(** src/config/log_conf.c:69-84 [print_log_output]. *)
Definition print_log_output (n : Z) : list Z :=
  if n =? SYSLOG then cstr "syslog" else if n =? CONSOLE then cstr "console" else cstr "<unknown>".
(** src/config/log_conf.c:86-149 [print_log_facility]. *)
Definition print_log_facility (n : Z) : list Z :=
  if n =? LOG_USER then cstr "user" else if n =? LOG_MAIL then cstr "mail" else if n =? LOG_DAEMON then cstr "daemon" else if n =? LOG_AUTH then cstr "auth"
  else if n =? LOG_LPR then cstr "lpr" else if n =? LOG_NEWS then cstr "news" else if n =? LOG_UUCP then cstr "uucp" else if n =? LOG_CRON then cstr "cron"
  else if n =? LOG_AUTHPRIV then cstr "authpriv" else if n =? LOG_FTP then cstr "ftp"
  else if n =? LOG_LOCAL0 then cstr "local0" else if n =? LOG_LOCAL1 then cstr "local1" else if n =? LOG_LOCAL2 then cstr "local2" else if n =? LOG_LOCAL3 then cstr "local3"
  else if n =? LOG_LOCAL4 then cstr "local4" else if n =? LOG_LOCAL5 then cstr "local5" else if n =? LOG_LOCAL6 then cstr "local6" else if n =? LOG_LOCAL7 then cstr "local7"
  else cstr "<unknown>".
(** src/config/filename_format.c:14-32 [print_filename_format]. *)
Definition print_filename_format (n : Z) : list Z :=
  if n =? FNF_GLOBAL then cstr "global-url" else if n =? FNF_LOCAL then cstr "local-path" else if n =? FNF_NAME then cstr "file-name" else cstr "<unknown>".
(** src/config/output_format.c:13-28 [print_output_format]. *)
Definition print_output_format (n : Z) : list Z :=
  if n =? OFM_CSV then cstr "csv" else if n =? OFM_JSON then cstr "json" else cstr "<unknown>".
(** src/config/file_type.c:16-42 [print_file_type]. *)
Definition print_file_type (n : Z) : list Z :=
  if n =? FT_ROA then cstr "roa" else if n =? FT_MFT then cstr "mft" else if n =? FT_GBR then cstr "gbr" else if n =? FT_CER then cstr "cer" else if n =? FT_CRL then cstr "crl"
  else NULL_TEXT.

(** src/incidence/incidence.c:18-55 [incidences]: the descriptions. *)
Definition descriptions : list (list Z) :=
  [ cstr "Signed Object's hash algorithm has NULL object as parameters"; cstr "Object isn't DER encoded"; cstr "File listed at manifest doesn't exist";
    cstr "File hash listed at manifest doesn't match the actual file hash"; cstr "The current time is after the nextUpdate field at the manifest";
    cstr "The current time is after the nextUpdate field at the CRL" ].
(** src/incidence/incidence.c:72-85 [action2str]. *)
Definition action2str (a : action) : list Z :=
  match a with INAC_IGNORE => cstr "ignore" | INAC_WARN => cstr "warn" | INAC_ERROR => cstr "error" end.
(** src/incidence/incidence.c:166-178 [incidence_print]. *)
Definition incidence_print (l : list incidence_t) : list message :=
  cstr "Custom incidences:" ::
  map (fun '(i, d) => cstr "  " ++ in_name i ++ cstr " (" ++ d ++ cstr "): " ++ action2str (in_action i)) (combine l descriptions).

(** The member print of each type; reading a member as another type is [UB]. *)
Definition print_field (o : option_field) (s : state) : res (list message) :=
  let one t := Ok [named_message (name o) t] in
  match type o, st_config s (offset o) with
  | gt_callback, _ => Ok []                                 (* no printer *)
  | gt_string, VStr (Some t) => one t                       (* src/config/str.c:17-21 [string_print] *)
  | gt_string, VStr None => one NULL_TEXT
  | (gt_bool | gt_work_offline), VBool b => one (if b then cstr "true" else cstr "false")   (* src/config/boolean.c:9-13 [print_bool] *)
  | gt_uint, VUint n => one (udec (wrap32 n))               (* src/config/uint.c:8-12 [print_uint] *)
  | gt_mode, VEnum n => one (print_mode n)
  | gt_log_output, VEnum n => one (print_log_output n)
  | gt_log_level, VEnum n => one (print_log_level n)
  | gt_log_facility, VEnum n => one (print_log_facility n)
  | gt_filename_format, VEnum n => one (print_filename_format n)
  | gt_output_format, VEnum n => one (print_output_format n)
  | gt_file_type, VEnum n => one (print_file_type n)
  (* src/config/string_array.c:41-53 [string_array_print] *)
  | gt_string_array, VArr l => Ok ((cstr (name o) ++ cstr ":") :: match l with [] => [cstr "  <Nothing>"] | _ => map (fun x => cstr "  " ++ x) l end)
  | gt_incidences, _ => Ok (incidence_print (st_incidences s))   (* src/config/incidences.c:5-9 [incidences_print] *)
  | _, _ => UB
  end.
(** src/config.c:797-801 [is_rpki_config_field]. *)
Definition is_rpki_config_field (o : option_field) : bool := match handler o with None => true | Some _ => false end.
Fixpoint print_fields (l : list option_field) (s : state) : res (list message) :=
  match l with
  | [] => Ok []
  | o :: l => if is_rpki_config_field o then bind (print_field o s) (fun a => bind (print_fields l s) (fun b => Ok (a ++ b))) else print_fields l s
  end.
(** src/config.c:895-913 [print_config]; [versions]: of FORT and the libraries. *)
Definition print_config (versions : list message) (s : state) : res (list message) :=
  bind (print_fields (foreach_option options 65535) s) (fun l => Ok (versions ++ [cstr "Configuration {"] ++ l ++ [cstr "}"])).
