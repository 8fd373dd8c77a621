(** Model of src/main.c: how the process starts, works and ends.

    The modules' initialisations are oracles (their results).  The validation cycles are
    those of Vrps.v; rtr_start(), rtr_notify() and rtr_stop() appear as events (what they
    do is in Rtr.v, RtrNotify.v and RtrRun.v).  Not modelled: the log, sleep(). *)
From Verif Require Import Base DbTable Vrps.
Notation length := List.length.

(** The errno values on Linux; [EOTHER] is as it is. *)
Definition errno_of (e : errcode) : Z :=
  match e with EINVAL => 22 | EAGAIN => 11 | ESRCH => 3 | ENOSPC => 28 | ENOTSUP => 95 | ENOENT => 2 | ENOTRSYNC => 1 | EIO => 5 | EACCES => 13 | EEXIST => 17 | EOTHER z => z end.
Definition EINTR : Z := 4.

Inductive module := MLog | MThreadVars | MIncidences | MConfig | MNids | MExtensions | MHttp | MRelaxNg | MVrps.
Inductive mode := STANDALONE | SERVER | PRINT_FILE.
Inductive event :=
| Initialised (m : module)            (* it returned 0 *)
| CleanedUp (m : module)
| RtrStarted                          (* rtr_start() returned 0: the server's threads run *)
| RtrStopped                          (* rtr_stop() *)
| Notified (serial : res Z)           (* rtr_notify(), with what get_last_serial_number() says *)
| Updated (error : Z).                (* vrps_update() *)

(** A program that is still running, or one that has returned. *)
Record process := { p_state : state; p_events : list event; p_returned : option Z }.

(** src/rtr/db/vrps.c:250-283 [vrps_update]: [u_err] as an int. *)
Definition result_of (o : update_out) : Z := match u_err o with None => 0 | Some e => errno_of e end.

(** src/main.c:13-28 [fort_standalone]. *)
Definition fort_standalone (lifetime : Z) (s : state) (c : cycle) : res process :=
  bind (vrps_update lifetime s c) (fun o => Ok {| p_state := u_state o; p_events := [Updated (result_of o)]; p_returned := Some (result_of o) |}).

(** src/main.c:56-71: the main loop, for as many cycles as are given; then it is still running. *)
Fixpoint main_loop (lifetime : Z) (s : state) (cs : list cycle) : res process :=
  match cs with
  | [] => Ok {| p_state := s; p_events := []; p_returned := None |}
  | c :: cs =>
      bind (vrps_update lifetime s c) (fun o =>
      let error := result_of o in
      if error =? - EINTR then Ok {| p_state := u_state o; p_events := [Updated error; RtrStopped]; p_returned := Some error |}
      else bind (main_loop lifetime (u_state o) cs) (fun p =>
           let notified := if error =? 0 then (if u_changed o then [Notified (get_last_serial_number (u_state o))] else []) else [] in
           Ok {| p_state := p_state p; p_events := Updated error :: notified ++ p_events p; p_returned := p_returned p |}))
  end.

(** src/main.c:30-75 [fort_server]: [start] is what rtr_start() returns; [c] the first cycle. *)
Definition fort_server (lifetime : Z) (s : state) (start : Z) (c : cycle) (cs : list cycle) : res process :=
  if negb (start =? 0) then Ok {| p_state := s; p_events := []; p_returned := Some start |}
  else bind (vrps_update lifetime s c) (fun o =>
  let error := result_of o in
  if negb (error =? 0) then Ok {| p_state := u_state o; p_events := [RtrStarted; Updated error]; p_returned := Some error |}
  else bind (main_loop lifetime (u_state o) cs) (fun p =>
  Ok {| p_state := p_state p; p_events := RtrStarted :: Updated 0 :: Notified (get_last_serial_number (u_state o)) :: p_events p; p_returned := p_returned p |})).

(** src/main.c:84-108 [convert_to_result]. *)
Definition INT_MIN : Z := -2147483648.
Definition convert_to_result (error : Z) : Z :=
  if error =? 0 then 0
  else if error =? INT_MIN then 125
  else
    let error := if error <? 0 then - error else error in
    let error := Z.land error 127 in
    if error =? 126 then 122 else if error =? 127 then 123 else if error =? 0 then 124 else error.

(** What the world gives the process. *)
Record world := {
  w_init : module -> Z;               (* what each module's initialisation returns *)
  w_mode : mode;
  w_lifetime : Z; w_now : Z;          (* see Vrps.v *)
  w_rtr : Z;                          (* what rtr_start() returns *)
  w_first : cycle; w_cycles : list cycle;
  w_print : Z;                        (* what print_file() returns *)
}.

(** src/main.c:152-162: the work. *)
Definition work (w : world) : res process :=
  let s := vrps_init (w_lifetime w) (w_now w) in
  match w_mode w with
  | STANDALONE => fort_standalone (w_lifetime w) s (w_first w)
  | SERVER => fort_server (w_lifetime w) s (w_rtr w) (w_first w) (w_cycles w)
  | PRINT_FILE => Ok {| p_state := s; p_events := []; p_returned := Some (w_print w) |}
  end.

(** src/main.c:110-176 [main]: the exit status, if it ends, and the events.  The labels at the end are the lists of what is left to clean up. *)
Definition ended (error : Z) (before : list event) (cleanup : list module) : option Z * list event :=
  (Some (convert_to_result error), before ++ map CleanedUp cleanup).
Definition main (w : world) : res (option Z * list event) :=
  let i := w_init w in
  if negb (i MLog =? 0) then Ok (ended (i MLog) [] []) else
  if negb (i MThreadVars =? 0) then Ok (ended (i MThreadVars) [Initialised MLog] [MLog]) else
  if negb (i MIncidences =? 0) then Ok (ended (i MIncidences) [Initialised MLog; Initialised MThreadVars] [MLog]) else
  if negb (i MConfig =? 0) then Ok (ended (i MConfig) [Initialised MLog; Initialised MThreadVars; Initialised MIncidences] [MLog]) else
  if negb (i MNids =? 0) then Ok (ended (i MNids) [Initialised MLog; Initialised MThreadVars; Initialised MIncidences; Initialised MConfig] [MConfig; MLog]) else
  if negb (i MExtensions =? 0) then Ok (ended (i MExtensions) [Initialised MLog; Initialised MThreadVars; Initialised MIncidences; Initialised MConfig; Initialised MNids] [MNids; MConfig; MLog]) else
  if negb (i MHttp =? 0) then Ok (ended (i MHttp) [Initialised MLog; Initialised MThreadVars; Initialised MIncidences; Initialised MConfig; Initialised MNids; Initialised MExtensions] [MNids; MConfig; MLog]) else
  if negb (i MRelaxNg =? 0) then Ok (ended (i MRelaxNg) [Initialised MLog; Initialised MThreadVars; Initialised MIncidences; Initialised MConfig; Initialised MNids; Initialised MExtensions; Initialised MHttp] [MHttp; MNids; MConfig; MLog]) else
  let up := [Initialised MLog; Initialised MThreadVars; Initialised MIncidences; Initialised MConfig; Initialised MNids; Initialised MExtensions; Initialised MHttp; Initialised MRelaxNg] in
  if negb (i MVrps =? 0) then Ok (ended (i MVrps) up [MRelaxNg; MHttp; MNids; MConfig; MLog]) else
  bind (work w) (fun p =>
  match p_returned p with
  | None => Ok (None, up ++ Initialised MVrps :: p_events p)
  | Some error => Ok (ended error (up ++ Initialised MVrps :: p_events p) [MVrps; MRelaxNg; MHttp; MNids; MConfig; MLog])
  end).
