(** Logging: src/log.c, the file names of src/thread_var.c, and rsync's output (src/rsync/rsync.c
    [log_buffer]).  A formatted message is a string of bytes; printf()'s expansion isn't modelled. *)
From Coq Require Import ZArith List Bool Lia.
From Verif Require Import Base CString.
From Coq Require Import String.
Import ListNotations.
Open Scope list_scope.
Open Scope Z_scope.

Definition text := list Z.
(** <syslog.h> *)
Definition LOG_CRIT : Z := 2.
Definition LOG_ERR : Z := 3.
Definition LOG_WARNING : Z := 4.
Definition LOG_INFO : Z := 6.
Definition LOG_DEBUG : Z := 7.
Definition LOG_DAEMON : Z := 24.

(** src/config/log_conf.h [enum log_output]. *)
Inductive log_output : Set := SYSLOG | CONSOLE.
(** src/config.c:133-166 (struct rpki_config's log and validation_log): one of the two. *)
Record log_options : Type := { o_enabled : bool; o_output : log_output; o_level : Z; o_tag : option text; o_color : bool; o_facility : Z }.
Record options : Type := { op_options : log_options; val_options : log_options }.

(** src/log.c:32-40 [struct log_config]. *)
Record log_config : Type :=
  { fprintf_enabled : bool; syslog_enabled : bool; level : Z; prefix : option text; color : bool; facility : Z }.
(** src/log.c:42-45: op_config and val_config; and whether the connection with syslog was closed. *)
Record logs : Type := { op_config : log_config; val_config : log_config; closed : bool }.

(** src/log.c:107-115 [init_config]. *)
Definition init_config (unit_tests : bool) : log_config :=
  {| fprintf_enabled := true; syslog_enabled := negb unit_tests; level := LOG_DEBUG; prefix := None; color := false;
     facility := LOG_DAEMON |}.
(** src/log.c:210-248 [log_setup], if the mutex can be created; the signals aren't modelled. *)
Definition log_setup (unit_tests : bool) : logs :=
  {| op_config := init_config unit_tests; val_config := init_config unit_tests; closed := false |}.

Definition set_fprintf (b : bool) (c : log_config) : log_config :=
  {| fprintf_enabled := b; syslog_enabled := syslog_enabled c; level := level c; prefix := prefix c; color := color c; facility := facility c |}.
Definition set_syslog (b : bool) (c : log_config) : log_config :=
  {| fprintf_enabled := fprintf_enabled c; syslog_enabled := b; level := level c; prefix := prefix c; color := color c; facility := facility c |}.
Definition set_rest (o : log_options) (c : log_config) : log_config :=
  {| fprintf_enabled := fprintf_enabled c; syslog_enabled := syslog_enabled c; level := o_level o; prefix := o_tag o;
     color := o_color o; facility := o_facility o |}.

(** src/log.c:250-258 [log_disable_syslog]. *)
Definition log_disable_syslog (l : logs) : logs :=
  if syslog_enabled (op_config l) || syslog_enabled (val_config l)
  then {| op_config := set_syslog false (op_config l); val_config := set_syslog false (val_config l); closed := true |}
  else l.
(** src/log.c:260-305 [log_start]. *)
Definition log_start (o : options) (l : logs) : logs :=
  let val :=
    if o_enabled (val_options o)
    then match o_output (val_options o) with
         | SYSLOG => set_fprintf false (val_config l)
         | CONSOLE => set_syslog false (val_config l)
         end
    else set_syslog false (set_fprintf false (val_config l)) in
  let l := {| op_config := op_config l; val_config := val; closed := closed l |} in
  let l :=
    if o_enabled (op_options o)
    then match o_output (op_options o) with
         | SYSLOG => {| op_config := set_fprintf false (op_config l); val_config := val_config l; closed := closed l |}
         | CONSOLE =>
             if syslog_enabled (val_config l)
             then {| op_config := set_syslog false (op_config l); val_config := val_config l; closed := closed l |}
             else log_disable_syslog l
         end
    else
      let l := {| op_config := set_fprintf false (op_config l); val_config := val_config l; closed := closed l |} in
      if syslog_enabled (val_config l)
      then {| op_config := set_syslog false (op_config l); val_config := val_config l; closed := closed l |}
      else log_disable_syslog l in
  {| op_config := set_rest (op_options o) (op_config l); val_config := set_rest (val_options o) (val_config l); closed := closed l |}.

(** src/log.c:307-312 [log_teardown]; the mutex isn't used afterwards. *)
Definition log_teardown (l : logs) : logs := log_disable_syslog l.

(** What a thread does while it logs, in the smallest steps that other threads' may get between. *)
Inductive stream : Set := Stdout | Stderr.
Inductive step : Type :=
| Lock                                       (* pthread_mutex_lock(&logck) *)
| Unlock
| Fprintf (s : stream) (t : text)
| Fflush (s : stream)
| Vsnprintf (t : text)                       (* vsnprintf(msg, MSG_LEN, ...): msg is static *)
| Syslog (priority : Z) (before : text)      (* syslog(priority, "<before>%s", msg) *)
| SyslogText (priority : Z) (t : text)       (* syslog(priority, "%s", t) *)
| Write (t : text).                          (* write(STDERR_FILENO, t, strlen(t)) *)

(** src/log.c:18-30 [struct level]: the labels, colors and (in log_setup()) streams. *)
Definition level2struct (lvl : Z) : text * text * stream :=
  if lvl =? LOG_CRIT then (cstr "CRT", 27 :: cstr "[35m", Stderr)
  else if lvl =? LOG_ERR then (cstr "ERR", 27 :: cstr "[31m", Stderr)
  else if lvl =? LOG_WARNING then (cstr "WRN", 27 :: cstr "[33m", Stderr)
  else if lvl =? LOG_INFO then (cstr "INF", 27 :: cstr "[37m", Stdout)
  else if lvl =? LOG_DEBUG then (cstr "DBG", 27 :: cstr "[36m", Stdout)
  else (cstr "UNK", [], Stdout).
Definition COLOR_RESET : text := 27 :: cstr "[0m".

(** src/log.c:384-427 [__vfprintf].  [now]: what strftime() makes of time(), or None if time() fails;
    [file]: fnstack_peek(). *)
Definition vfprintf (lvl : Z) (cfg : log_config) (now file : option text) (msg : text) : list step :=
  let '(label, clr, stream) := level2struct lvl in
  [Lock]
  ++ (if color cfg then [Fprintf stream clr] else [])
  ++ (match now with Some d => [Fprintf stream (d ++ cstr " ")] | None => [] end)
  ++ [Fprintf stream label]
  ++ (match prefix cfg with Some p => [Fprintf stream (cstr " [" ++ p ++ cstr "]")] | None => [] end)
  ++ [Fprintf stream (cstr ": ")]
  ++ (match file with Some f => [Fprintf stream (f ++ cstr ": ")] | None => [] end)
  ++ [Fprintf stream msg]
  ++ (if color cfg then [Fprintf stream COLOR_RESET] else [])
  ++ [Fprintf stream [10]]
  ++ (match stream with Stdout => [Fflush stream] | Stderr => [] end)
  ++ [Unlock].

Definition MSG_LEN : nat := 1024.
(** src/log.c:431-458 [__syslog]. *)
Definition syslog (lvl : Z) (cfg : log_config) (file : option text) (msg : text) : list step :=
  [Lock; Vsnprintf (firstn (MSG_LEN - 1) msg)]
  ++ (match file with
      | Some f =>
          match prefix cfg with
          | Some p => [Syslog (Z.lor lvl (facility cfg)) (cstr "[" ++ p ++ cstr "] " ++ f ++ cstr ": ")]
          | None => [Syslog (Z.lor lvl (facility cfg)) (f ++ cstr ": ")]
          end
      | None =>
          match prefix cfg with
          | Some p => [Syslog (Z.lor lvl (facility cfg)) (cstr "[" ++ p ++ cstr "] ")]
          | None => [Syslog (Z.lor lvl (facility cfg)) []]
          end
      end)
  ++ [Unlock].

(** src/log.c:460-478 [PR_SIMPLE]. *)
Definition pr_simple (lvl : Z) (cfg : log_config) (now file : option text) (msg : text) : list step :=
  if level cfg <? lvl then []
  else (if syslog_enabled cfg then syslog lvl cfg file msg else [])
       ++ (if fprintf_enabled cfg then vfprintf lvl cfg now file msg else []).

(** src/log.c:69-105 [print_stack_trace] with no title.  [trace]: backtrace_symbols()'s, or None if
    BACKTRACE_ENABLED isn't defined. *)
Definition print_stack_trace (op : log_config) (trace : option (list text)) : list step :=
  match trace with
  | None => []
  | Some strings =>
      (if fprintf_enabled op
       then [Fprintf Stderr (cstr "Stack trace:" ++ [10])]
            ++ map (fun s => Fprintf Stderr (cstr "  " ++ s ++ [10])) strings
            ++ [Fprintf Stderr (cstr "(End of stack trace)" ++ [10])]
       else [])
      ++ (if syslog_enabled op
          then [SyslogText (Z.lor LOG_ERR (facility op)) (cstr "Stack trace:")]
               ++ map (fun s => SyslogText (Z.lor LOG_ERR (facility op)) (cstr "  " ++ s)) strings
               ++ [SyslogText (Z.lor LOG_ERR (facility op)) (cstr "(End of stack trace)")]
          else [])
  end.

(** src/config/incidence: what the user chose for an incidence. *)
Inductive action : Set := INAC_IGNORE | INAC_WARN | INAC_ERROR.
(** The two logs: "operation" and "validation". *)
Inductive which : Set := Op | Val.
(** The API of src/log.h. *)
Inductive call : Type :=
| Debug (w : which) (msg : text)
| Info (w : which) (msg : text)
| Warn (w : which) (msg : text)
| Error (w : which) (msg : text)
| ErrorTrace (msg : text) (trace : option (list text))            (* pr_op_err_st() *)
| CryptoError (w : which) (msg : text) (stack : list text)        (* libcrypto's errors *)
| Incidence (a : action) (msg : text)                             (* a: incidence_get_action(id) *)
| NoMemory                                                        (* enomem_panic() *)
| Critical (msg : text) (trace : option (list text)).             (* pr_crit() *)
(** What calls return: nothing, a number; or they end the process. *)
Inductive result : Set := Void | Returns (r : Z) | Exits (status : Z).
Definition EINVAL_ : Z := 22.
Definition ENOMEM_ : Z := 12.

Definition config_of (l : logs) (w : which) : log_config := match w with Op => op_config l | Val => val_config l end.

(** src/log.c:564-580 [crypto_err]; [when]: the time of each of the messages that follow. *)
Fixpoint crypto_lines (cfg : log_config) (when : nat -> option text) (file : option text) (k : nat) (stack : list text) : list step :=
  match stack with
  | [] => pr_simple LOG_ERR cfg (when k) file (cstr "End of libcrypto stack.")
  | s :: stack => pr_simple LOG_ERR cfg (when k) file (cstr "-> " ++ s) ++ crypto_lines cfg when file (S k) stack
  end.
Definition crypto_err (cfg : log_config) (when : nat -> option text) (file : option text) (stack : list text) : list step :=
  pr_simple LOG_ERR cfg (when 1%nat) file (cstr "libcrypto error stack:")
  ++ match stack with
     | [] => pr_simple LOG_ERR cfg (when 2%nat) file (cstr "   <Empty>")
     | _ => crypto_lines cfg when file 2 stack
     end.

(** src/log.c:620-657 [enomem_panic]. *)
Definition enomem_panic (op : log_config) : list step :=
  if level op <? LOG_ERR then []
  else (if fprintf_enabled op then [Lock; Write (cstr "Out of memory." ++ [10]); Unlock] else [])
       ++ (if syslog_enabled op then [Lock; SyslogText (Z.lor LOG_ERR (facility op)) (cstr "Out of memory."); Unlock] else []).

(** src/log.c:480-548 [pr_op_debug] ... [pr_val_err], 594-599 [op_crypto_err], 613-618 [val_crypto_err],
    659-665 [pr_crit], 671-689 [incidence].  [when k]: time() at the call's k-th message; [file]:
    fnstack_peek(). *)
Definition steps_of (l : logs) (when : nat -> option text) (file : option text) (c : call) : list step :=
  match c with
  | Debug w msg => pr_simple LOG_DEBUG (config_of l w) (when 0%nat) file msg
  | Info w msg => pr_simple LOG_INFO (config_of l w) (when 0%nat) file msg
  | Warn w msg => pr_simple LOG_WARNING (config_of l w) (when 0%nat) file msg
  | Error w msg => pr_simple LOG_ERR (config_of l w) (when 0%nat) file msg
  | ErrorTrace msg trace =>
      pr_simple LOG_ERR (op_config l) (when 0%nat) file msg ++ [Lock] ++ print_stack_trace (op_config l) trace ++ [Unlock]
  | CryptoError w msg stack =>
      pr_simple LOG_ERR (config_of l w) (when 0%nat) file msg ++ crypto_err (config_of l w) when file stack
  | Incidence INAC_IGNORE _ => []
  | Incidence INAC_WARN msg => pr_simple LOG_WARNING (val_config l) (when 0%nat) file msg
  | Incidence INAC_ERROR msg => pr_simple LOG_ERR (val_config l) (when 0%nat) file msg
  | NoMemory => enomem_panic (op_config l)
  | Critical msg trace => pr_simple LOG_ERR (op_config l) (when 0%nat) file msg ++ print_stack_trace (op_config l) trace
  end.
(** Same functions: what they return. *)
Definition result_of (c : call) : result :=
  match c with
  | Debug _ _ | Info _ _ => Void
  | Warn _ _ => Returns 0
  | Error _ _ | ErrorTrace _ _ | CryptoError _ _ _ => Returns (- EINVAL_)
  | Incidence INAC_ERROR _ => Returns (- EINVAL_)
  | Incidence _ _ => Returns 0
  | NoMemory => Exits ENOMEM_
  | Critical _ _ => Exits (-1)
  end.

(** The process: who has the lock, the static buffer, stdout's buffer, and what's gone out of it. *)
Record world : Type :=
  { holder : option nat;
    msg_buffer : text;
    stdout_buffer : text;
    out : text;                              (* file descriptor 1 *)
    err : text;                              (* file descriptor 2 *)
    sys : list (Z * text);                   (* what syslog was given *)
    threads : list (list step) }.            (* what each thread has left to do *)

Definition set_threads (w : world) (ts : list (list step)) (h : option nat) : world :=
  {| holder := h; msg_buffer := msg_buffer w; stdout_buffer := stdout_buffer w; out := out w; err := err w; sys := sys w; threads := ts |}.
(** The effects of the steps that aren't about the lock.  stderr isn't buffered. *)
Definition io (s : step) (w : world) : world :=
  match s with
  | Lock | Unlock | Fflush Stderr => w
  | Fprintf Stdout t =>
      {| holder := holder w; msg_buffer := msg_buffer w; stdout_buffer := stdout_buffer w ++ t; out := out w; err := err w; sys := sys w; threads := threads w |}
  | Fprintf Stderr t | Write t =>
      {| holder := holder w; msg_buffer := msg_buffer w; stdout_buffer := stdout_buffer w; out := out w; err := err w ++ t; sys := sys w; threads := threads w |}
  | Fflush Stdout =>
      {| holder := holder w; msg_buffer := msg_buffer w; stdout_buffer := []; out := out w ++ stdout_buffer w; err := err w; sys := sys w; threads := threads w |}
  | Vsnprintf t =>
      {| holder := holder w; msg_buffer := t; stdout_buffer := stdout_buffer w; out := out w; err := err w; sys := sys w; threads := threads w |}
  | Syslog p before =>
      {| holder := holder w; msg_buffer := msg_buffer w; stdout_buffer := stdout_buffer w; out := out w; err := err w; sys := sys w ++ [(p, before ++ msg_buffer w)]; threads := threads w |}
  | SyslogText p t =>
      {| holder := holder w; msg_buffer := msg_buffer w; stdout_buffer := stdout_buffer w; out := out w; err := err w; sys := sys w ++ [(p, t)]; threads := threads w |}
  end.
(** One step of the process.  [spill]: stdio writes part of stdout's buffer whenever it pleases. *)
Inductive wstep : world -> world -> Prop :=
| W_lock w i rest :
    nth_error (threads w) i = Some (Lock :: rest) -> holder w = None ->
    wstep w (set_threads w (upd (threads w) i rest) (Some i))
| W_unlock w i rest :
    nth_error (threads w) i = Some (Unlock :: rest) -> holder w = Some i ->
    wstep w (set_threads w (upd (threads w) i rest) None)
| W_io w i s rest :
    nth_error (threads w) i = Some (s :: rest) -> s <> Lock -> s <> Unlock ->
    wstep w (let w' := io s w in set_threads w' (upd (threads w') i rest) (holder w'))
| W_spill w a b :
    stdout_buffer w = a ++ b ->
    wstep w {| holder := holder w; msg_buffer := msg_buffer w; stdout_buffer := b; out := out w ++ a; err := err w; sys := sys w; threads := threads w |}.
Inductive wsteps : world -> world -> Prop :=
| WS_refl w : wsteps w w
| WS_step a b c : wsteps a b -> wstep b c -> wsteps a c.
(** A process about to run these threads; [garbage]: what the static buffer has. *)
Definition process (garbage : text) (ts : list (list step)) : world :=
  {| holder := None; msg_buffer := garbage; stdout_buffer := []; out := []; err := []; sys := []; threads := ts |}.

(** src/thread_var.c:10-15 [struct filename_stack]; None: the thread hasn't one.  The array's first
    [fs_len] elements. *)
Record filename_stack : Type := { filenames : list text; fs_size : Z }.
(** src/thread_var.c:80-95 [fnstack_init]. *)
Definition fnstack_init : option filename_stack := Some {| filenames := []; fs_size := 32 |}.
(** src/thread_var.c:140-156 [fnstack_push]; the memory is never exhausted (prealloc() would end the
    process). *)
Definition fnstack_push (file : text) (fs : option filename_stack) : res (option filename_stack) :=
  match fs with
  | None => Ok None
  | Some fs =>
      let size := if fs_size fs <=? Z.of_nat (List.length (filenames fs)) then wrap32 (2 * fs_size fs) else fs_size fs in
      if Z.of_nat (List.length (filenames fs)) <? size
      then Ok (Some {| filenames := filenames fs ++ [file]; fs_size := size |})
      else UB                                (* it writes out of the array *)
  end.
(** src/thread_var.c:171-181 [fnstack_peek]. *)
Definition fnstack_peek (fs : option filename_stack) : res (option text) :=
  match fs with
  | None => Ok None
  | Some fs =>
      match List.length (filenames fs) with
      | O => Ok None
      | S n => match nth_error (filenames fs) n with Some f => Ok (Some f) | None => UB end
      end
  end.
(** src/thread_var.c:184-194 [fnstack_pop]. *)
Definition fnstack_pop (fs : option filename_stack) : option filename_stack :=
  match fs with
  | None => None
  | Some fs =>
      match List.length (filenames fs) with
      | O => Some fs
      | S n => Some {| filenames := firstn n (filenames fs); fs_size := fs_size fs |}
      end
  end.
(** src/thread_var.c:97-112 [fnstack_cleanup]. *)
Definition fnstack_cleanup (fs : option filename_stack) : option filename_stack := None.

(** strchr(cur, '\n'): what's before, and what's after. *)
Fixpoint to_newline (cur : text) : option (text * text) :=
  match cur with
  | [] => None
  | c :: cur => if c =? 10 then Some ([], cur)
                else match to_newline cur with Some (a, b) => Some (c :: a, b) | None => None end
  end.
(** strncpy() stops at a NUL. *)
Fixpoint until_nul (t : text) : text :=
  match t with [] => [] | c :: t => if c =? 0 then [] else c :: until_nul t end.
(** src/rsync/rsync.c:137-164 [log_buffer]; the messages are given to pr_val_err() or pr_val_debug(). *)
Fixpoint log_lines (fuel : nat) (cur : text) : list text :=
  match fuel with
  | O => []
  | S fuel =>
      match to_newline cur with
      | None => []
      | Some (line, rest) =>
          match line with
          | [] => log_lines fuel rest
          | _ => (cstr "[RSYNC exec]: " ++ line) :: log_lines fuel rest
          end
      end
  end.
Definition log_buffer (buffer : text) (is_error : bool) : list call :=
  let cpy := until_nul buffer in
  map (fun m => if is_error then Error Val m else Debug Val m) (log_lines (S (List.length cpy)) cpy).
