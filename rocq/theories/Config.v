(** Model of src/config.c, src/json_handler.c and src/config/: the command line and the configuration file.

    Not modelled: messages, the printed configuration, the memory of the strings
    (the values are values), --help's text.  The C library's getopt_long() is
    modelled as glibc's, without POSIXLY_CORRECT. *)
From Coq Require Import String.
From Verif Require Import Base CString CLib Slurm Manifest Incidence Text.
Notation length := List.length.

(** ** getopt_long() *)
Inductive has_arg := no_argument | required_argument | optional_argument.
(** <getopt.h> struct option; [flag] is always NULL. *)
Record long_option := { lo_name : list Z; lo_has_arg : has_arg; lo_val : Z }.

Definition starts_with (p s : list Z) : bool := list_eqb Z.eqb p (firstn (length p) s).
(** The name and, if there's a '=', what follows it. *)
Fixpoint split_eq (s : list Z) : list Z * option (list Z) :=
  match s with
  | [] => ([], None)
  | c :: s => if c =? 61 then ([], Some s) else let '(n, v) := split_eq s in (c :: n, v)
  end.
(** An exact match, or an abbreviation that isn't ambiguous. *)
Definition find_long (longs : list long_option) (name : list Z) : option long_option :=
  match find (fun o => list_eqb Z.eqb (lo_name o) name) longs with
  | Some o => Some o
  | None => match filter (fun o => starts_with name (lo_name o)) longs with [o] => Some o | _ => None end
  end.
(** strchr(shortopts, c), and how many ':' follow. *)
Fixpoint find_short (shorts : list Z) (c : Z) : option has_arg :=
  match shorts with
  | [] => None
  | x :: shorts =>
      if (x =? c) && negb (c =? 58) && negb (c =? 59) then
        Some (match shorts with 58 :: 58 :: _ => optional_argument | 58 :: _ => required_argument | _ => no_argument end)
      else find_short shorts c
  end.
(** What the next arguments are for. *)
Inductive cluster_end := CE_done | CE_bad | CE_needs (val : Z).
(** The options of an argument "-abc" that take no argument, and what ends it. *)
Fixpoint cluster (shorts s : list Z) : list (Z * option (list Z)) * cluster_end :=
  match s with
  | [] => ([], CE_done)
  | c :: s' =>
      match find_short shorts c with
      | None => ([], CE_bad)
      | Some no_argument => let '(l, e) := cluster shorts s' in ((c, None) :: l, e)
      | Some required_argument => match s' with [] => ([], CE_needs c) | _ => ([(c, Some s')], CE_done) end
      | Some optional_argument => match s' with [] => ([(c, None)], CE_done) | _ => ([(c, Some s')], CE_done) end
      end
  end.
(** All that the calls of getopt_long() return (each with [optarg]; '?' is the last
    one, since the caller gives up), and the arguments that are not options, which end
    up after the others. *)
Definition bad : list (Z * option (list Z)) := [(63, None)].
Inductive word := W_operand | W_end | W_long (body : list Z) | W_short (letters : list Z).
Definition classify (a : list Z) : word :=
  match a with
  | c :: c2 :: rest =>
      if c =? 45 then if c2 =? 45 then match rest with [] => W_end | _ => W_long rest end else W_short (c2 :: rest)
      else W_operand
  | _ => W_operand
  end.
Fixpoint getopt_long (longs : list long_option) (shorts : list Z) (args : list (list Z)) : list (Z * option (list Z)) * list (list Z) :=
  match args with
  | [] => ([], [])
  | a :: args =>
      match classify a with
      | W_end => ([], args)
      | W_long body =>
          let '(name, value) := split_eq body in
          match find_long longs name with
          | None => (bad, [])
          | Some o =>
              match value, lo_has_arg o with
              | Some _, no_argument => (bad, [])
              | None, required_argument =>
                  match args with
                  | [] => (bad, [])
                  | v :: args => let '(l, r) := getopt_long longs shorts args in ((lo_val o, Some v) :: l, r)
                  end
              | _, _ => let '(l, r) := getopt_long longs shorts args in ((lo_val o, value) :: l, r)
              end
          end
      | W_short s =>
          match cluster shorts s with
          | (l0, CE_bad) => (l0 ++ bad, [])
          | (l0, CE_done) => let '(l, r) := getopt_long longs shorts args in (l0 ++ l, r)
          | (l0, CE_needs o) =>
              match args with
              | [] => (l0 ++ bad, [])
              | v :: args => let '(l, r) := getopt_long longs shorts args in (l0 ++ (o, Some v) :: l, r)
              end
          end
      | W_operand => let '(l, r) := getopt_long longs shorts args in (l, a :: r)
      end
  end.

(** ** Values *)
(** jansson's JSON, with null. *)
Inductive cjson : Type :=
| CObj (members : list (list Z * cjson))
| CArr (elements : list cjson)
| CStr (s : list Z)
| CInt (n : Z)
| CBool (b : bool)
| CNull
| CReal.
Fixpoint to_json (j : cjson) : json :=
  match j with
  | CObj l => JObj (map (fun '(k, v) => (k, to_json v)) l)
  | CArr l => JArr (map to_json l)
  | CStr s => JStr s
  | CInt n => JInt n
  | CBool b => JBool b
  | CNull | CReal => JOther
  end.

(** What a member of struct rpki_config holds.  Strings: [None] is NULL. *)
Inductive value := VStr (s : option (list Z)) | VBool (b : bool) | VUint (n : Z) | VArr (l : list (list Z)) | VEnum (n : Z).

(** src/config.c:36-201 [struct rpki_config]: by the name of the member. *)
Definition config := string -> value.
Definition set (c : config) (m : string) (v : value) : config := fun m' => if String.eqb m' m then v else c m'.
(** Also what the option "incidences" changes (src/incidence/incidence.c:18-55). *)
Record state := { st_config : config; st_incidences : list incidence_t }.
Definition store (s : state) (m : string) (v : value) : state := {| st_config := set (st_config s) m v; st_incidences := st_incidences s |}.

(** Constants of src/config/mode.h:9-16, src/config/filename_format.h:6-13, src/config/output_format.h:6-11,
    src/config/file_type.h:6-13, src/config/log_conf.h:6-9 and <sys/syslog.h>. *)
Definition SERVER := 0. Definition STANDALONE := 1. Definition PRINT_FILE := 2.
Definition FNF_GLOBAL := 0. Definition FNF_LOCAL := 1. Definition FNF_NAME := 2.
Definition OFM_CSV := 0. Definition OFM_JSON := 1.
Definition FT_UNK := 0. Definition FT_ROA := 1. Definition FT_MFT := 2. Definition FT_GBR := 3. Definition FT_CER := 4. Definition FT_CRL := 5.
Definition SYSLOG := 0. Definition CONSOLE := 1.
Definition LOG_ERR := 3. Definition LOG_WARNING := 4. Definition LOG_INFO := 6. Definition LOG_DEBUG := 7.
Definition LOG_USER := 8. Definition LOG_MAIL := 16. Definition LOG_DAEMON := 24. Definition LOG_AUTH := 32. Definition LOG_LPR := 48.
Definition LOG_NEWS := 56. Definition LOG_UUCP := 64. Definition LOG_CRON := 72. Definition LOG_AUTHPRIV := 80. Definition LOG_FTP := 88.
Definition LOG_LOCAL0 := 128. Definition LOG_LOCAL1 := 136. Definition LOG_LOCAL2 := 144. Definition LOG_LOCAL3 := 152.
Definition LOG_LOCAL4 := 160. Definition LOG_LOCAL5 := 168. Definition LOG_LOCAL6 := 176. Definition LOG_LOCAL7 := 184.
Definition SOMAXCONN := 4096.

(** ** Options *)
Inductive global_type := gt_callback | gt_string | gt_bool | gt_uint | gt_mode | gt_work_offline | gt_string_array | gt_log_output | gt_log_level
| gt_log_facility | gt_filename_format | gt_output_format | gt_file_type | gt_incidences.
Inductive handler_fn := handle_help | handle_usage | handle_version | handle_json.
Definition AVAILABILITY_GETOPT := 1.
Definition AVAILABILITY_JSON := 2.
(** src/config/types.h:41-88 [struct option_field]; [offset]: the member ("tal" is the one at offset 0). *)
Record option_field := { id : Z; name : string; type : global_type; offset : string; handler : option handler_fn; availability : Z;
  json_null_allowed : bool; deprecated : bool; min : Z; max : Z }.
Definition opt (i : Z) (n : string) (t : global_type) (m : string) (h : option handler_fn) (a : Z) (nul dep : bool) (lo hi : Z) : option_field :=
  {| id := i; name := n; type := t; offset := m; handler := h; availability := a; json_null_allowed := nul; deprecated := dep; min := lo; max := hi |}.

(** src/config.c:226-789 [options]. *)
Definition options : list option_field :=
  [
    opt 104 "help" gt_callback "tal" (Some handle_help) AVAILABILITY_GETOPT false false 0 0;
    opt 1000 "usage" gt_callback "tal" (Some handle_usage) AVAILABILITY_GETOPT false false 0 0;
    opt 86 "version" gt_callback "tal" (Some handle_version) AVAILABILITY_GETOPT false false 0 0;
    opt 102 "configuration-file" gt_string "tal" (Some handle_json) AVAILABILITY_GETOPT false false 0 0;
    opt 116 "tal" gt_string "tal" None 0 false false 0 0;
    opt 114 "local-repository" gt_string "local_repository" None 0 false false 0 0;
    opt 2001 "shuffle-uris" gt_bool "shuffle_tal_uris" None 0 false true 0 0;
    opt 1002 "maximum-certificate-depth" gt_uint "maximum_certificate_depth" None 0 false false 5 (UINT_MAX - 1);
    opt 1003 "slurm" gt_string "slurm" None 0 true false 0 0;
    opt 1004 "mode" gt_mode "mode" None 0 false false 0 0;
    opt 1005 "work-offline" gt_work_offline "work_offline" None 0 false false 0 0;
    opt 1006 "daemon" gt_bool "daemon" None 0 false false 0 0;
    opt 5000 "server.address" gt_string_array "server.address" None 0 false false 0 50;
    opt 5001 "server.port" gt_string "server.port" None 0 false false 0 0;
    opt 5002 "server.backlog" gt_uint "server.backlog" None 0 false false 1 SOMAXCONN;
    opt 5003 "server.interval.validation" gt_uint "server.interval.validation" None 0 false false 60 UINT_MAX;
    opt 5004 "server.interval.refresh" gt_uint "server.interval.refresh" None 0 false false 1 86400;
    opt 5005 "server.interval.retry" gt_uint "server.interval.retry" None 0 false false 1 7200;
    opt 5006 "server.interval.expire" gt_uint "server.interval.expire" None 0 false false 600 172800;
    opt 5007 "server.deltas.lifetime" gt_uint "server.deltas_lifetime" None 0 false false 0 UINT_MAX;
    opt 3000 "rsync.enabled" gt_bool "rsync.enabled" None 0 false false 0 0;
    opt 3001 "rsync.priority" gt_uint "rsync.priority" None 0 false false 0 100;
    opt 3002 "rsync.strategy" gt_string "rsync.strategy" None 0 true true 0 0;
    opt 3003 "rsync.retry.count" gt_uint "rsync.retry.count" None 0 false false 0 UINT_MAX;
    opt 3004 "rsync.retry.interval" gt_uint "rsync.retry.interval" None 0 false false 0 UINT_MAX;
    opt 3005 "rsync.program" gt_string "rsync.program" None AVAILABILITY_JSON false false 0 0;
    opt 3006 "rsync.arguments-recursive" gt_string_array "rsync.args.recursive" None AVAILABILITY_JSON false false 0 0;
    opt 3007 "rsync.arguments-flat" gt_string_array "rsync.args.flat" None AVAILABILITY_JSON false true 0 0;
    opt 3008 "rsync.transfer-timeout" gt_uint "rsync.transfer_timeout" None 0 false false 0 UINT_MAX;
    opt 9000 "http.enabled" gt_bool "http.enabled" None 0 false false 0 0;
    opt 9001 "http.priority" gt_uint "http.priority" None 0 false false 0 100;
    opt 9002 "http.retry.count" gt_uint "http.retry.count" None 0 false false 0 UINT_MAX;
    opt 9003 "http.retry.interval" gt_uint "http.retry.interval" None 0 false false 0 UINT_MAX;
    opt 9004 "http.user-agent" gt_string "http.user_agent" None 0 false false 0 0;
    opt 9012 "http.max-redirs" gt_uint "http.max_redirs" None 0 false false 0 UINT_MAX;
    opt 9005 "http.connect-timeout" gt_uint "http.connect_timeout" None 0 false false 1 UINT_MAX;
    opt 9006 "http.transfer-timeout" gt_uint "http.transfer_timeout" None 0 false false 0 UINT_MAX;
    opt 9009 "http.low-speed-limit" gt_uint "http.low_speed_limit" None 0 false false 0 UINT_MAX;
    opt 9010 "http.low-speed-time" gt_uint "http.low_speed_time" None 0 false false 0 UINT_MAX;
    opt 9011 "http.max-file-size" gt_uint "http.max_file_size" None 0 false false 0 2000000000;
    opt 9008 "http.ca-path" gt_string "http.ca_path" None 0 false false 0 0;
    opt 4000 "log.enabled" gt_bool "log.enabled" None 0 false false 0 0;
    opt 4001 "log.output" gt_log_output "log.output" None 0 false false 0 0;
    opt 4002 "log.level" gt_log_level "log.level" None 0 false false 0 0;
    opt 4003 "log.tag" gt_string "log.tag" None 0 true false 0 0;
    opt 4004 "log.facility" gt_log_facility "log.facility" None 0 false false 0 0;
    opt 4005 "log.file-name-format" gt_filename_format "log.filename_format" None 0 false false 0 0;
    opt 99 "log.color-output" gt_bool "log.color" None 0 false false 0 0;
    opt 4010 "validation-log.enabled" gt_bool "validation_log.enabled" None 0 false false 0 0;
    opt 4011 "validation-log.output" gt_log_output "validation_log.output" None 0 false false 0 0;
    opt 4012 "validation-log.level" gt_log_level "validation_log.level" None 0 false false 0 0;
    opt 4013 "validation-log.tag" gt_string "validation_log.tag" None 0 true false 0 0;
    opt 4014 "validation-log.facility" gt_log_facility "validation_log.facility" None 0 false false 0 0;
    opt 4015 "validation-log.file-name-format" gt_filename_format "validation_log.filename_format" None 0 false false 0 0;
    opt 4016 "validation-log.color-output" gt_bool "validation_log.color" None 0 false false 0 0;
    opt 7001 "incidences" gt_incidences "tal" None AVAILABILITY_JSON false false 0 0;
    opt 6000 "output.roa" gt_string "output.roa" None 0 true false 0 0;
    opt 6001 "output.bgpsec" gt_string "output.bgpsec" None 0 true false 0 0;
    opt 6002 "output.format" gt_output_format "output.format" None 0 false false 0 0;
    opt 8000 "asn1-decode-max-stack" gt_uint "asn1_decode_max_stack" None 0 false false 1 UINT_MAX;
    opt 8001 "stale-repository-period" gt_uint "stale_repository_period" None 0 false true 0 UINT_MAX;
    opt 11000 "init-tals" gt_bool "init_tals" None AVAILABILITY_GETOPT false false 0 0;
    opt 11002 "init-as0-tals" gt_bool "init_tal0s" None AVAILABILITY_GETOPT false false 0 0;
    opt 12000 "thread-pool.server.max" gt_uint "thread_pool.server.max" None 0 false false 1 UINT_MAX;
    opt 12001 "thread-pool.validation.max" gt_uint "thread_pool.validation.max" None 0 false true 0 100;
    opt 13000 "file-type" gt_file_type "ft" None 0 false false 0 0 ]%string.

(** src/config/types.h:90-92 [FOREACH_OPTION]. *)
Definition foreach_option (opts : list option_field) (t : Z) : list option_field :=
  filter (fun o => (availability o =? 0) || negb (Z.land (availability o) t =? 0)) opts.

(** The member has_arg of src/config.c:222-224 [gt_callback], src/config/str.c:70-78, boolean.c:50-57, uint.c:69-76, mode.c:67-74,
    work_offline.c:41-48, string_array.c:147-155, log_conf.c:277-325, filename_format.c:68-75, output_format.c:60-67,
    file_type.c:81-88, incidences.c:18-21. *)
Definition type_has_arg (t : global_type) : has_arg :=
  match t with
  | gt_callback | gt_incidences => no_argument
  | gt_bool | gt_work_offline => optional_argument
  | _ => required_argument
  end.

(** src/config.c:836-842 [is_alphanumeric]. *)
Definition is_alphanumeric (c : Z) : bool := ((97 <=? c) && (c <=? 122)) || ((65 <=? c) && (c <=? 90)) || ((48 <=? c) && (c <=? 57)).
(** src/config.c:848-893 [construct_getopt_options]. *)
Definition long_opts : list long_option :=
  map (fun o => {| lo_name := cstr (name o); lo_has_arg := type_has_arg (type o); lo_val := id o |}) (foreach_option options AVAILABILITY_GETOPT).
Definition short_opts : list Z :=
  concat (map (fun o => if is_alphanumeric (id o) then id o :: match type_has_arg (type o) with no_argument => [] | _ => [58] end else [])
    (foreach_option options AVAILABILITY_GETOPT)).

(** ** Parsers *)
Definition streq (a b : list Z) : bool := list_eqb Z.eqb a b.

(** src/config/boolean.c:15-35 [parse_argv_bool]. *)
Definition parse_argv_bool (str : option (list Z)) : res bool :=
  match str with
  | None => Ok true
  | Some s =>
      match s with
      | [] => Ok true
      | _ => if streq s (cstr "true") then Ok true else if streq s (cstr "false") then Ok false else Err EINVAL
      end
  end.
(** src/config/boolean.c:37-48 [parse_json_bool]. *)
Definition parse_json_bool (j : cjson) : res bool := match j with CBool b => Ok b | _ => Err EINVAL end.

(** src/config/mode.c:34-48 [parse_argv_mode].  strcmp() of a NULL pointer is undefined. *)
Definition parse_argv_mode (str : option (list Z)) : res Z :=
  match str with
  | None => UB
  | Some s => if streq s (cstr "server") then Ok SERVER else if streq s (cstr "standalone") then Ok STANDALONE else if streq s (cstr "print") then Ok PRINT_FILE
              else Err EINVAL
  end.
(** src/config/log_conf.c:151-167 [parse_argv_log_level]. *)
Definition parse_argv_log_level (str : option (list Z)) : res Z :=
  match str with
  | None => UB
  | Some s => if streq s (cstr "error") then Ok LOG_ERR else if streq s (cstr "warning") then Ok LOG_WARNING
              else if streq s (cstr "info") then Ok LOG_INFO else if streq s (cstr "debug") then Ok LOG_DEBUG else Err EINVAL
  end.
(** src/config/log_conf.c:169-181 [parse_argv_log_output]. *)
Definition parse_argv_log_output (str : option (list Z)) : res Z :=
  match str with
  | None => UB
  | Some s => if streq s (cstr "syslog") then Ok SYSLOG else if streq s (cstr "console") then Ok CONSOLE else Err EINVAL
  end.
(** src/config/log_conf.c:183-231 [parse_argv_log_facility]. *)
Definition parse_argv_log_facility (str : option (list Z)) : res Z :=
  match str with
  | None => UB
  | Some s =>
      if streq s (cstr "auth") then Ok LOG_AUTH
      else if streq s (cstr "authpriv") then Ok LOG_AUTHPRIV
      else if streq s (cstr "cron") then Ok LOG_CRON
      else if streq s (cstr "daemon") then Ok LOG_DAEMON
      else if streq s (cstr "ftp") then Ok LOG_FTP
      else if streq s (cstr "lpr") then Ok LOG_LPR
      else if streq s (cstr "mail") then Ok LOG_MAIL
      else if streq s (cstr "news") then Ok LOG_NEWS
      else if streq s (cstr "user") then Ok LOG_USER
      else if streq s (cstr "uucp") then Ok LOG_UUCP
      else if streq s (cstr "local0") then Ok LOG_LOCAL0
      else if streq s (cstr "local1") then Ok LOG_LOCAL1
      else if streq s (cstr "local2") then Ok LOG_LOCAL2
      else if streq s (cstr "local3") then Ok LOG_LOCAL3
      else if streq s (cstr "local4") then Ok LOG_LOCAL4
      else if streq s (cstr "local5") then Ok LOG_LOCAL5
      else if streq s (cstr "local6") then Ok LOG_LOCAL6
      else if streq s (cstr "local7") then Ok LOG_LOCAL7
      else Err EINVAL
  end.
(** src/config/filename_format.c:34-49 [parse_argv_filename_format]. *)
Definition parse_argv_filename_format (str : option (list Z)) : res Z :=
  match str with
  | None => UB
  | Some s => if streq s (cstr "global-url") then Ok FNF_GLOBAL else if streq s (cstr "local-path") then Ok FNF_LOCAL
              else if streq s (cstr "file-name") then Ok FNF_NAME else Err EINVAL
  end.
(** src/config/output_format.c:30-43 [parse_argv_output_format]. *)
Definition parse_argv_output_format (str : option (list Z)) : res Z :=
  match str with
  | None => UB
  | Some s => if streq s (cstr "csv") then Ok OFM_CSV else if streq s (cstr "json") then Ok OFM_JSON else Err EINVAL
  end.
(** src/config/file_type.c:44-62 [parse_argv_mode] (of the file types). *)
Definition parse_argv_file_type (str : option (list Z)) : res Z :=
  match str with
  | None => UB
  | Some s => if streq s (cstr "roa") then Ok FT_ROA else if streq s (cstr "mft") then Ok FT_MFT else if streq s (cstr "gbr") then Ok FT_GBR
              else if streq s (cstr "cer") then Ok FT_CER else if streq s (cstr "crl") then Ok FT_CRL else Err EINVAL
  end.

(** src/config/str.c:86-99 [parse_json_string]. *)
Definition parse_json_string (j : cjson) : res (option (list Z)) :=
  match j with CNull => Ok None | CStr s => Ok (Some s) | _ => Err EINVAL end.

(** src/config/str.c:23-38 [string_parse_argv]; only options of this type call it. *)
Definition string_parse_argv (str : option (list Z)) : res value :=
  match str with
  | None => Err EINVAL
  | Some [] => Err EINVAL
  | Some s => Ok (VStr (Some s))
  end.
(** src/config/str.c:40-65 [string_parse_json]. *)
Definition string_parse_json (o : option_field) (j : cjson) : res value :=
  bind (parse_json_string j) (fun s =>
  match s with
  | None => if json_null_allowed o then Ok (VStr None) else Err EINVAL
  | Some s => string_parse_argv (Some s)
  end).

(** The array's elements; one that's not written yet is NULL. *)
Fixpoint all_written (l : list (option (list Z))) : res (list (list Z)) :=
  match l with
  | [] => Ok []
  | Some s :: l => bind (all_written l) (fun r => Ok (s :: r))
  | None :: _ => UB
  end.
(** src/config/string_array.c:55-110 [string_array_parse_json]. *)
Fixpoint strings_of (l : list cjson) : res (list (list Z)) :=
  match l with
  | [] => Ok []
  | CStr s :: l => bind (strings_of l) (fun r => Ok (s :: r))
  | _ :: _ => Err EINVAL
  end.
Definition string_array_parse_json (o : option_field) (j : cjson) : res value :=
  match j with
  | CArr l =>
      match l with
      | [] => Ok (VArr [])
      | _ => if (0 <? max o) && (max o <? Z.of_nat (length l)) then Err EINVAL else bind (strings_of l) (fun r => Ok (VArr r))
      end
  | _ => Err EINVAL
  end.

(** src/config/work_offline.c:10-23 [parse_argv_offline], 25-39 [parse_json_offline]; src/config.c:1498-1502 [config_set_rsync_enabled],
    [config_set_http_enabled]. *)
Definition set_offline (s : state) (m : string) (b : bool) : state :=
  store (store (store s m (VBool b)) "rsync.enabled" (VBool (negb b))) "http.enabled" (VBool (negb b)).

(** [parse.argv] of each type. *)
Definition parse_argv (o : option_field) (str : option (list Z)) (s : state) : res state :=
  let put v := Ok (store s (offset o) v) in
  match type o with
  | gt_callback | gt_incidences => UB (* a NULL function *)
  | gt_string => bind (string_parse_argv str) put
  | gt_bool => bind (parse_argv_bool str) (fun b => put (VBool b))
  | gt_uint => match str with None => Err EINVAL | Some str => bind (parse_argv_uint (min o) (max o) str) (fun n => put (VUint n)) end
  | gt_mode => bind (parse_argv_mode str) (fun n => put (VEnum n))
  | gt_work_offline => bind (parse_argv_bool str) (fun b => Ok (set_offline s (offset o) b))
  | gt_string_array => match str with
                       | None => UB
                       | Some str => bind (string_array_parse_argv (max o) str) (fun l => bind (all_written l) (fun l => put (VArr l)))
                       end
  | gt_log_output => bind (parse_argv_log_output str) (fun n => put (VEnum n))
  | gt_log_level => bind (parse_argv_log_level str) (fun n => put (VEnum n))
  | gt_log_facility => bind (parse_argv_log_facility str) (fun n => put (VEnum n))
  | gt_filename_format => bind (parse_argv_filename_format str) (fun n => put (VEnum n))
  | gt_output_format => bind (parse_argv_output_format str) (fun n => put (VEnum n))
  | gt_file_type => bind (parse_argv_file_type str) (fun n => put (VEnum n))
  end.

(** [parse.json] of each type; src/config/mode.c:52-61, log_conf.c:233-275, filename_format.c:54-62, output_format.c:46-54,
    file_type.c:68-77: a string, or NULL, goes to the command line's parser.  src/config/incidences.c:11-16 [incidences_parse_json]. *)
Definition parse_json (o : option_field) (j : cjson) (s : state) : res state :=
  let put v := Ok (store s (offset o) v) in
  let word (f : option (list Z) -> res Z) := bind (parse_json_string j) (fun str => bind (f str) (fun n => put (VEnum n))) in
  match type o with
  | gt_callback => UB (* a NULL function *)
  | gt_string => bind (string_parse_json o j) put
  | gt_bool => bind (parse_json_bool j) (fun b => put (VBool b))
  | gt_uint => bind (parse_json_uint (min o) (max o) (match j with CInt n => Some n | _ => None end)) (fun n => put (VUint n))
  | gt_mode => word parse_argv_mode
  | gt_work_offline => bind (parse_json_bool j) (fun b => Ok (set_offline s (offset o) b))
  | gt_string_array => bind (string_array_parse_json o j) put
  | gt_log_output => word parse_argv_log_output
  | gt_log_level => word parse_argv_log_level
  | gt_log_facility => word parse_argv_log_facility
  | gt_filename_format => word parse_argv_filename_format
  | gt_output_format => word parse_argv_output_format
  | gt_file_type => word parse_argv_file_type
  | gt_incidences => bind (incidence_update (st_incidences s) (to_json j)) (fun '(l, e) =>
                     if e =? 0 then Ok {| st_config := st_config s; st_incidences := l |} else Err EINVAL)
  end.

(** ** The configuration file *)
Fixpoint cassoc (k : list Z) (l : list (list Z * cjson)) : option cjson :=
  match l with
  | (k', v) :: t => if streq k k' then Some v else cassoc k t
  | [] => None
  end.
(** jansson's json_object_get(): NULL if it's not an object. *)
Definition json_object_get (j : cjson) (k : list Z) : option cjson := match j with CObj l => cassoc k l | _ => None end.

(** src/json_handler.c:9-32 [find_json]; strtok_r() with "." as strtok(). *)
Fixpoint find_loop (fuel : nat) (node : option cjson) (tok : option (list Z)) (save : list Z) : option cjson :=
  match fuel with
  | O => None
  | S fuel =>
      match node, tok with
      | Some j, Some t => let '(tok', save') := strtok 46 save in find_loop fuel (json_object_get j t) tok' save'
      | _, _ => node
      end
  end.
Definition find_json (root : cjson) (full_name : list Z) : option cjson :=
  let '(tok, save) := strtok 46 full_name in find_loop (S (S (length full_name))) (Some root) tok save.

(** src/json_handler.c:34-53 [json_to_config]. *)
Fixpoint json_loop (opts : list option_field) (root : cjson) (s : state) : res state :=
  match opts with
  | [] => Ok s
  | o :: opts =>
      match find_json root (cstr (name o)) with
      | None => json_loop opts root s
      | Some child => bind (parse_json o child s) (fun s => json_loop opts root s)
      end
  end.
Definition json_to_config (root : cjson) (s : state) : res state := json_loop (foreach_option options AVAILABILITY_JSON) root s.

(** ** The program's arguments *)
Inductive kind_of_file := KFile | KDir | KOther.
(** The system: json_load_file() (with JSON_REJECT_DUPLICATES), stat(), and what download_tals(), download_tal0s()
    and daemonize() (in the child) return. *)
Record world := { w_load : list Z -> option cjson; w_stat : list Z -> option kind_of_file; w_tals : Z; w_tal0s : Z; w_daemonize : Z }.
Inductive outcome := Started (s : state) | Failed (error : Z) | Exited (status : Z).

Section WithWorld.
  Variable w : world.

  (** src/json_handler.c:55-73 [set_config_from_file]. *)
  Definition set_config_from_file (file : list Z) (s : state) : res state :=
    match w_load w file with None => Err ENOENT | Some root => json_to_config root s end.

  (** src/config.c:809-834: [handle_help], [handle_usage], [handle_version] exit ([None]); [handle_json]. *)
  Definition run_handler (h : handler_fn) (arg : option (list Z)) (s : state) : res (option state) :=
    match h with
    | handle_json => match arg with None => UB | Some f => bind (set_config_from_file f s) (fun s => Ok (Some s)) end
    | _ => Ok None
    end.

  (** src/config.c:1087-1107 [handle_opt]; [None]: the process has exited. *)
  Definition handle_opt (o : Z) (optarg : option (list Z)) (s : state) : res (option state) :=
    match find (fun f => id f =? o) (foreach_option options AVAILABILITY_GETOPT) with
    | Some f => match handler f with
                | None => bind (parse_argv f optarg s) (fun s => Ok (Some s))
                | Some h => run_handler h optarg s
                end
    | None => Err ESRCH
    end.
  Fixpoint opt_loop (l : list (Z * option (list Z))) (s : state) : res (option state) :=
    match l with
    | [] => Ok (Some s)
    | (o, optarg) :: l => bind (handle_opt o optarg s) (fun r => match r with None => Ok None | Some s => opt_loop l s end)
    end.

  (** src/config.c:915-1014 [set_default_values].  The storage is static, so what isn't set is 0.  PACKAGE_NAME "/" PACKAGE_VERSION
      is "fort/1.6.4" or whichever the version is. *)
  Definition default_config : config := fun m =>
    let text t := VStr (Some (cstr t)) in
    match find (fun p => String.eqb (fst p) m)
    [ ("tal", VStr None); ("local_repository", text "/tmp/fort/repository"); ("shuffle_tal_uris", VBool false);
      ("maximum_certificate_depth", VUint 32); ("slurm", VStr None); ("mode", VEnum SERVER); ("work_offline", VBool false); ("daemon", VBool false);
      ("server.address", VArr [cstr "::"]); ("server.port", text "323"); ("server.backlog", VUint SOMAXCONN);
      ("server.interval.validation", VUint 3600); ("server.interval.refresh", VUint 3600); ("server.interval.retry", VUint 600);
      ("server.interval.expire", VUint 7200); ("server.deltas_lifetime", VUint 2);
      ("rsync.enabled", VBool true); ("rsync.priority", VUint 50); ("rsync.strategy", text "<deprecated>"); ("rsync.retry.count", VUint 1);
      ("rsync.retry.interval", VUint 4); ("rsync.transfer_timeout", VUint 900); ("rsync.program", text "rsync");
      ("rsync.args.flat", VArr [cstr "<deprecated>"]);
      ("rsync.args.recursive", VArr (map cstr ["-rtz"; "--delete"; "--omit-dir-times"; "--contimeout=20"; "--max-size=20MB"; "--timeout=15";
        "--include=*/"; "--include=*.cer"; "--include=*.crl"; "--include=*.gbr"; "--include=*.mft"; "--include=*.roa"; "--exclude=*"; "$REMOTE"; "$LOCAL"]));
      ("http.enabled", VBool true); ("http.priority", VUint 60); ("http.retry.count", VUint 1); ("http.retry.interval", VUint 4);
      ("http.user_agent", text "fort/1.6.4"); ("http.max_redirs", VUint 10); ("http.connect_timeout", VUint 30); ("http.transfer_timeout", VUint 900);
      ("http.low_speed_limit", VUint 100000); ("http.low_speed_time", VUint 10); ("http.max_file_size", VUint 1000000000); ("http.ca_path", VStr None);
      ("log.enabled", VBool true); ("log.tag", VStr None); ("log.color", VBool false); ("log.filename_format", VEnum FNF_GLOBAL);
      ("log.level", VEnum LOG_WARNING); ("log.output", VEnum CONSOLE); ("log.facility", VEnum LOG_DAEMON);
      ("validation_log.enabled", VBool false); ("validation_log.tag", text "Validation"); ("validation_log.color", VBool false);
      ("validation_log.filename_format", VEnum FNF_GLOBAL); ("validation_log.level", VEnum LOG_WARNING); ("validation_log.output", VEnum CONSOLE);
      ("validation_log.facility", VEnum LOG_DAEMON);
      ("output.roa", VStr None); ("output.bgpsec", VStr None); ("output.format", VEnum OFM_CSV);
      ("asn1_decode_max_stack", VUint 4096); ("stale_repository_period", VUint 43200); ("init_tals", VBool false); ("init_tal0s", VBool false);
      ("thread_pool.server.max", VUint 20); ("thread_pool.validation.max", VUint 5);
      ("ft", VEnum FT_UNK); ("payload", VStr None) ]%string
    with Some (_, v) => v | None => VUint 0 end.

  (** Reading a member as its type. *)
  Definition as_bool (v : value) : bool := match v with VBool b => b | _ => false end.
  Definition as_uint (v : value) : Z := match v with VUint n => n | _ => 0 end.
  Definition as_str (v : value) : option (list Z) := match v with VStr s => s | _ => None end.
  Definition as_arr (v : value) : list (list Z) := match v with VArr l => l | _ => [] end.
  Definition as_enum (v : value) : Z := match v with VEnum n => n | _ => 0 end.

  (** src/common.c:218-239 [valid_file_or_dir]. *)
  Definition valid_file_or_dir (location : list Z) (check_file : bool) : bool :=
    match w_stat w location with
    | None => false
    | Some k => (check_file && match k with KFile => true | _ => false end) || match k with KDir => true | _ => false end
    end.

  (** src/config.c:1016-1047 [validate_config]: whether it returned 0. *)
  Definition validate_config (c : config) : bool :=
    if as_enum (c "mode"%string) =? PRINT_FILE then true
    else match as_str (c "payload"%string) with
    | Some _ => false
    | None =>
        match as_str (c "tal"%string) with
        | None => false
        | Some tal =>
            if negb (valid_file_or_dir tal (negb (as_bool (c "init_tals"%string)))) then false
            else if as_bool (c "init_tals"%string) then true
            else if (as_uint (c "server.interval.expire"%string) <? as_uint (c "server.interval.refresh"%string))
                 || (as_uint (c "server.interval.expire"%string) <? as_uint (c "server.interval.retry"%string)) then false
            else match as_str (c "slurm"%string) with
                 | None => true
                 | Some slurm => valid_file_or_dir slurm true
                 end
        end
    end.

  (** src/config.c:1109-1171 [handle_flags_config]; [args]: without the program's name; [inc]: the incidences before. *)
  Definition handle_flags_config (inc : list incidence_t) (args : list (list Z)) : res outcome :=
    let s := {| st_config := default_config; st_incidences := inc |} in
    let '(opts, operands) := getopt_long long_opts short_opts args in
    match opt_loop opts s with
    | UB => UB
    | Err e => Ok (Failed (match e with ENOENT => -2 | ESRCH => -3 | _ => -22 end))
    | Ok None => Ok (Exited 0)
    | Ok (Some s) =>
        let s := match operands with [] => s | a :: _ => store s "payload" (VStr (Some a)) end in
        let c := st_config s in
        if negb (validate_config c) then Ok (Failed (-22))
        else if as_bool (c "init_tals"%string) || as_bool (c "init_tal0s"%string) then
          let e := if as_bool (c "init_tals"%string) then w_tals w else 0 in
          let e := if (e =? 0) && as_bool (c "init_tal0s"%string) then w_tal0s w else e in
          Ok (Exited e)
        else if as_bool (c "daemon"%string) then
          let s := store (store s "log.output" (VEnum SYSLOG)) "validation_log.output" (VEnum SYSLOG) in
          if w_daemonize w =? 0 then Ok (Started s) else Ok (Failed (w_daemonize w))
        else Ok (Started s)
    end.
End WithWorld.

(** ** What the rest of the program reads *)
(** src/config.c:1179-1496. *)
Definition config_get_mode (c : config) : value := c "mode"%string.
Definition config_get_server_address (c : config) : value := c "server.address"%string.
Definition config_get_server_port (c : config) : value := c "server.port"%string.
Definition config_get_server_queue (c : config) : value := c "server.backlog"%string.
Definition config_get_validation_interval (c : config) : value := c "server.interval.validation"%string.
Definition config_get_interval_refresh (c : config) : value := c "server.interval.refresh"%string.
Definition config_get_interval_retry (c : config) : value := c "server.interval.retry"%string.
Definition config_get_interval_expire (c : config) : value := c "server.interval.expire"%string.
Definition config_get_deltas_lifetime (c : config) : value := c "server.deltas_lifetime"%string.
Definition config_get_slurm (c : config) : value := c "slurm"%string.
Definition config_get_tal (c : config) : value := c "tal"%string.
Definition config_get_local_repository (c : config) : value := c "local_repository"%string.
Definition config_get_max_cert_depth (c : config) : value := c "maximum_certificate_depth"%string.
Definition config_get_op_log_enabled (c : config) : value := c "log.enabled"%string.
Definition config_get_op_log_tag (c : config) : value := c "log.tag"%string.
Definition config_get_op_log_color_output (c : config) : value := c "log.color"%string.
Definition config_get_op_log_filename_format (c : config) : value := c "log.filename_format"%string.
Definition config_get_op_log_level (c : config) : value := c "log.level"%string.
Definition config_get_op_log_output (c : config) : value := c "log.output"%string.
Definition config_get_op_log_facility (c : config) : value := c "log.facility"%string.
Definition config_get_val_log_enabled (c : config) : value := c "validation_log.enabled"%string.
Definition config_get_val_log_tag (c : config) : value := c "validation_log.tag"%string.
Definition config_get_val_log_color_output (c : config) : value := c "validation_log.color"%string.
Definition config_get_val_log_filename_format (c : config) : value := c "validation_log.filename_format"%string.
Definition config_get_val_log_level (c : config) : value := c "validation_log.level"%string.
Definition config_get_val_log_output (c : config) : value := c "validation_log.output"%string.
Definition config_get_val_log_facility (c : config) : value := c "validation_log.facility"%string.
Definition config_get_rsync_enabled (c : config) : value := VBool (negb (as_bool (c "work_offline"%string)) && as_bool (c "rsync.enabled"%string)).
Definition config_get_rsync_priority (c : config) : value := c "rsync.priority"%string.
Definition config_get_rsync_retry_count (c : config) : value := c "rsync.retry.count"%string.
Definition config_get_rsync_retry_interval (c : config) : value := c "rsync.retry.interval"%string.
Definition config_get_rsync_transfer_timeout (c : config) : value := c "rsync.transfer_timeout"%string.
Definition config_get_rsync_program (c : config) : value := c "rsync.program"%string.
Definition config_get_rsync_args (c : config) : value := c "rsync.args.recursive"%string.
Definition config_get_http_enabled (c : config) : value := VBool (negb (as_bool (c "work_offline"%string)) && as_bool (c "http.enabled"%string)).
Definition config_get_http_priority (c : config) : value := c "http.priority"%string.
Definition config_get_http_retry_count (c : config) : value := c "http.retry.count"%string.
Definition config_get_http_retry_interval (c : config) : value := c "http.retry.interval"%string.
Definition config_get_http_user_agent (c : config) : value := c "http.user_agent"%string.
Definition config_get_max_redirs (c : config) : value := c "http.max_redirs"%string.
Definition config_get_http_connect_timeout (c : config) : value := c "http.connect_timeout"%string.
Definition config_get_http_transfer_timeout (c : config) : value := c "http.transfer_timeout"%string.
Definition config_get_http_low_speed_limit (c : config) : value := c "http.low_speed_limit"%string.
Definition config_get_http_low_speed_time (c : config) : value := c "http.low_speed_time"%string.
Definition config_get_http_max_file_size (c : config) : value := c "http.max_file_size"%string.
Definition config_get_http_ca_path (c : config) : value := c "http.ca_path"%string.
Definition config_get_output_roa (c : config) : value := c "output.roa"%string.
Definition config_get_output_bgpsec (c : config) : value := c "output.bgpsec"%string.
Definition config_get_output_format (c : config) : value := c "output.format"%string.
Definition config_get_asn1_decode_max_stack (c : config) : value := c "asn1_decode_max_stack"%string.
Definition config_get_thread_pool_server_max (c : config) : value := c "thread_pool.server.max"%string.
Definition config_get_file_type (c : config) : value := c "ft"%string.
Definition config_get_payload (c : config) : value := c "payload"%string.
