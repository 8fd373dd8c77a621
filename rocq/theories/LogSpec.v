(** What logging should do: a specification. *)
From Coq Require Import String ZArith List Bool Lia.
From Verif Require Import Base CString Log.
Import ListNotations.
Open Scope list_scope.
Open Scope Z_scope.

(** Something that should come out in one piece: on the standard output, on the standard error, and on syslog
    (priorities and texts). *)
Record block : Type := { b_out : text; b_err : text; b_sys : list (Z * text) }.
Definition nothing : block := {| b_out := []; b_err := []; b_sys := [] |}.

(** A line of the console: "<date> <label> [<tag>]: <file>: <message>", perhaps colored. *)
Definition maybe (o : option text) (f : text -> text) : text := match o with Some t => f t | None => [] end.
Definition line (label color_code : string) (o : log_options) (date file : option text) (msg : text) : text :=
  (if o_color o then 27 :: cstr color_code else [])
  ++ maybe date (fun d => d ++ cstr " ")
  ++ cstr label
  ++ maybe (o_tag o) (fun t => cstr " [" ++ t ++ cstr "]")
  ++ cstr ": "
  ++ maybe file (fun f => f ++ cstr ": ")
  ++ msg
  ++ (if o_color o then 27 :: cstr "[0m" else [])
  ++ [10].
(** A record of syslog: "[<tag>] <file>: <message>", with the message's first 1023 characters. *)
Definition record (o : log_options) (file : option text) (msg : text) : text :=
  maybe (o_tag o) (fun t => cstr "[" ++ t ++ cstr "] ") ++ maybe file (fun f => f ++ cstr ": ") ++ firstn 1023 msg.

Inductive severity : Set := S_err | S_wrn | S_inf | S_dbg.
(** syslog's numbers; the names in the console; whether it goes to the standard error. *)
Definition number (s : severity) : Z := match s with S_err => 3 | S_wrn => 4 | S_inf => 6 | S_dbg => 7 end.
Definition name (s : severity) : string := match s with S_err => "ERR" | S_wrn => "WRN" | S_inf => "INF" | S_dbg => "DBG" end.
Definition hue (s : severity) : string := match s with S_err => "[31m" | S_wrn => "[33m" | S_inf => "[37m" | S_dbg => "[36m" end.
Definition serious (s : severity) : bool := match s with S_err | S_wrn => true | S_inf | S_dbg => false end.

(** A message goes to the place that the user chose for its log, if it's enabled and the message is
    severe enough. *)
Definition message (o : log_options) (s : severity) (date file : option text) (msg : text) : list block :=
  if o_enabled o && (number s <=? o_level o) then
    [match o_output o with
     | SYSLOG => {| b_out := []; b_err := []; b_sys := [(o_facility o + number s, record o file msg)] |}
     | CONSOLE =>
         let l := line (name s) (hue s) o date file msg in
         if serious s then {| b_out := []; b_err := l; b_sys := [] |} else {| b_out := l; b_err := []; b_sys := [] |}
     end]
  else [].
(** A stack trace is part of the operation log. *)
Definition trace_lines (strings : list text) : list text :=
  [cstr "Stack trace:"] ++ map (fun s => cstr "  " ++ s) strings ++ [cstr "(End of stack trace)"].
Definition stack_trace (o : log_options) (trace : option (list text)) : block :=
  match trace with
  | Some strings =>
      if o_enabled o then
        match o_output o with
        | CONSOLE => {| b_out := []; b_err := List.concat (map (fun l => l ++ [10]) (trace_lines strings)); b_sys := [] |}
        | SYSLOG => {| b_out := []; b_err := []; b_sys := map (fun l => (o_facility o + 3, l)) (trace_lines strings) |}
        end
      else nothing
  | None => nothing
  end.
(** Memory has been exhausted: there's no time for formalities. *)
Definition exhausted (o : log_options) : list block :=
  if o_enabled o && (3 <=? o_level o) then
    [match o_output o with
     | SYSLOG => {| b_out := []; b_err := []; b_sys := [(o_facility o + 3, cstr "Out of memory.")] |}
     | CONSOLE => {| b_out := []; b_err := cstr "Out of memory." ++ [10]; b_sys := [] |}
     end]
  else [].

(** A thread's call: the dates of its messages, the file that it's working on, and the call. *)
Record entry : Type := { e_when : nat -> option text; e_file : option text; e_call : call }.
Definition options_of (o : options) (w : which) : log_options := match w with Op => op_options o | Val => val_options o end.
(** The messages of an error of libcrypto, after the first one. *)
Definition libcrypto_stack (stack : list text) : list text :=
  [cstr "libcrypto error stack:"]
  ++ match stack with [] => [cstr "   <Empty>"] | _ => map (fun s => cstr "-> " ++ s) stack ++ [cstr "End of libcrypto stack."] end.
Definition numbered (msgs : list text) : list (nat * text) := combine (seq 0 (List.length msgs)) msgs.
Definition expected (o : options) (e : entry) : list block :=
  let say w s msg := message (options_of o w) s (e_when e 0%nat) (e_file e) msg in
  match e_call e with
  | Debug w msg => say w S_dbg msg
  | Info w msg => say w S_inf msg
  | Warn w msg => say w S_wrn msg
  | Error w msg => say w S_err msg
  | ErrorTrace msg trace => say Op S_err msg ++ [stack_trace (op_options o) trace]
  | CryptoError w msg stack =>
      flat_map (fun m => message (options_of o w) S_err (e_when e (fst m)) (e_file e) (snd m)) (numbered (msg :: libcrypto_stack stack))
  | Incidence INAC_IGNORE _ => []
  | Incidence INAC_WARN msg => say Val S_wrn msg
  | Incidence INAC_ERROR msg => say Val S_err msg
  | NoMemory => exhausted (op_options o)
  | Critical _ _ => []
  end.

(** facilities are multiples of 8 *)
Definition sane (o : log_options) : Prop := o_facility o mod 8 = 0 /\ 0 <= o_facility o.
Definition not_critical (e : entry) : Prop := forall msg trace, e_call e <> Critical msg trace.

(** [done] is what has come out, and who from.  What thread i has given. *)
Definition of_thread (i : nat) (done : list (nat * block)) : list block :=
  map snd (filter (fun d => Nat.eqb (fst d) i) done).
Definition begins {A : Type} (l1 l2 : list A) : Prop := exists l3, l2 = l1 ++ l3.
(** Everyone's blocks come out in its order: [done] is a beginning of some way of shuffling the threads'. *)
Definition shuffle (blocks : nat -> list block) (done : list (nat * block)) : Prop :=
  forall i, begins (of_thread i done) (blocks i).
Definition outs (done : list (nat * block)) : text := List.concat (map (fun d => b_out (snd d)) done).
Definition errs (done : list (nat * block)) : text := List.concat (map (fun d => b_err (snd d)) done).
Definition records (done : list (nat * block)) : list (Z * text) := List.concat (map (fun d => b_sys (snd d)) done).

(** A program: what each thread does; and the process that runs it, with these options. *)
Definition blocks (o : options) (program : list (list entry)) (i : nat) : list block :=
  flat_map (expected o) (nth i program []).
Definition start (o : options) (garbage : text) (program : list (list entry)) : world :=
  let l := log_start o (log_setup false) in
  process garbage (map (flat_map (fun e => steps_of l (e_when e) (e_file e) (e_call e))) program).
