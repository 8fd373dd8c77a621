(** Downloads over HTTP: src/http/http.c.  libcurl and the system calls are oracles. *)
From Verif Require Import Base.
Notation length := List.length.

(** errno.h. *)
Definition E_IO : Z := 5.
Definition E_AGAIN : Z := 11.
Definition E_INVAL : Z := 22.
Definition E_FBIG : Z := 27.
Definition E_NOENT : Z := 2.

(** Regular files: contents by path. *)
Definition path := list Z.
Definition fs := path -> option (list Z).
Definition path_eqb (a b : path) : bool := list_eqb Z.eqb a b.
Definition put (f : fs) (n : path) (c : option (list Z)) : fs := fun m => if path_eqb m n then c else f m.

(** One call of http_fetch(), as libcurl and the system see it. *)
Record attempt := {
  at_init : bool;                (* curl_easy_init() succeeded *)
  at_chunks : list (list Z);     (* what libcurl would pass to write_callback(): the body *)
  at_open : Z;                   (* errno of the fopen() in file_write(); 0: none *)
  at_fwrite : nat -> Z;          (* what the fwrite() of the nth chunk returns *)
  at_flush : nat;                (* how many bytes are in the file after fclose() *)
  at_res : Z;                    (* curl_easy_perform()'s result, unless a callback aborts it *)
  at_getinfo : bool;             (* curl_easy_getinfo() succeeded *)
  at_code : Z                    (* the HTTP response code *)
}.

(** src/http/http.c:80-86 [struct write_callback_arg]; [wc_data]: what was given to fwrite(). *)
Record wcarg := { wc_total : Z; wc_error : Z; wc_open : bool; wc_data : list Z }.

(** src/http/http.c:89-115 [write_callback]: the callback's result, and the argument. *)
Definition write_callback (max : Z) (a : attempt) (i : nat) (chunk : list Z) (w : wcarg) : Z * wcarg :=
  let n := Z.of_nat (length chunk) in
  let total := wc_total w + n in
  if max <? total then (0, {| wc_total := total; wc_error := - E_FBIG; wc_open := wc_open w; wc_data := wc_data w |})
  else if negb (wc_open w) && negb (at_open a =? 0) then (0, {| wc_total := total; wc_error := at_open a; wc_open := false; wc_data := wc_data w |})
  else
    let r := at_fwrite a i in
    (r, {| wc_total := total; wc_error := if wc_open w then wc_error w else 0; wc_open := true; wc_data := wc_data w ++ firstn (Z.to_nat r) chunk |}).

(** curl_easy_perform(): calls the callback for each chunk until it returns something other than the chunk's length: that is CURLE_WRITE_ERROR. *)
Fixpoint perform (max : Z) (a : attempt) (i : nat) (chunks : list (list Z)) (w : wcarg) : Z * wcarg :=
  match chunks with
  | [] => (at_res a, w)
  | c :: cs => let '(r, w) := write_callback max a i c w in
               if r =? Z.of_nat (length c) then perform max a (S i) cs w else (23, w)
  end.

(** src/http/http.c:258-267 [handle_http_response_code]. *)
Definition handle_http_response_code (code : Z) : Z :=
  if (code =? 408) || (code =? 429) then E_AGAIN
  else if (500 <=? code) && (code <? 600) then E_AGAIN else - E_INVAL.

(** src/http/http.c:221-239 [validate_file_size]. *)
Definition validate_file_size (w : wcarg) : Z := if wc_error w =? - E_FBIG then - E_FBIG else 0.

(** src/http/http.c:272-354 [http_fetch] between file_close() and the label end: the error, and whether [changed] is set. *)
Definition fetch_result (a : attempt) (res : Z) (w : wcarg) : Z * bool :=
  if negb (validate_file_size w =? 0) then (validate_file_size w, false)
  else if negb (at_getinfo a) then (- E_INVAL, false)
  else if negb (res =? 0) then
    (if res =? 63 then - E_FBIG
     else if (res =? 28) || (res =? 6) || (res =? 5) || (res =? 12) then E_AGAIN
     else if res =? 47 then - E_INVAL
     else handle_http_response_code (at_code a), false)
  else if (400 <=? at_code a) || (at_code a =? 204) then (handle_http_response_code (at_code a), false)
  else if at_code a =? 304 then (0, false)
  else (0, true).

(** A step of a download: the error, whether [changed] was set, the files, and the states the files went through (oldest first): the process
    can die in any of them.  (Parts of a file that stdio writes earlier than fclose() aren't shown: those are parts of [dst].) *)
Record step := { st_error : Z; st_changed : bool; st_fs : fs; st_trace : list fs }.

(** src/http/http.c:272-354 [http_fetch]. *)
Definition http_fetch (max : Z) (dst : path) (a : attempt) (f : fs) : step :=
  if negb (at_init a) then {| st_error := - E_INVAL; st_changed := false; st_fs := f; st_trace := [] |}
  else
    let '(res, w) := perform max a 0 (at_chunks a) {| wc_total := 0; wc_error := 0; wc_open := false; wc_data := [] |} in
    let f1 := if wc_open w then put f dst (Some []) else f in
    let f2 := if wc_open w then put f dst (Some (firstn (at_flush a) (wc_data w))) else f in
    let '(e, ch) := fetch_result a res w in
    let f3 := if e =? 0 then f2 else put f2 dst None in
    {| st_error := e; st_changed := ch; st_fs := f3; st_trace := [f1; f2; f3] |}.

(** src/http/http.c:359-399 [do_retries]; [more]: http.retry.count - r.  [changed] is the caller's: once true, it stays. *)
Fixpoint do_retries (max : Z) (dst : path) (srv : nat -> attempt) (more r : nat) (changed : bool) (f : fs) : step :=
  let s := http_fetch max dst (srv r) f in
  let ch := changed || st_changed s in
  if st_error s =? 0 then {| st_error := 0; st_changed := ch; st_fs := st_fs s; st_trace := st_trace s |}
  else if negb (st_error s =? E_AGAIN) then {| st_error := st_error s; st_changed := ch; st_fs := st_fs s; st_trace := st_trace s |}
  else match more with
       | O => {| st_error := E_IO; st_changed := ch; st_fs := st_fs s; st_trace := st_trace s |}
       | S more => let t := do_retries max dst srv more (S r) ch (st_fs s) in
                   {| st_error := st_error t; st_changed := st_changed t; st_fs := st_fs t; st_trace := st_trace s ++ st_trace t |}
       end.

(** The rest of what http_download() depends on. *)
Record world := {
  w_tmpfile : Z;                 (* cache_tmpfile()'s result (path_builder: no memory, path too long) *)
  w_stat : Z;                    (* errno of the stat() in get_ims(), if the file exists; 0: none *)
  w_mtime : Z;                   (* the file's date *)
  w_mkdir : Z;                   (* mkdir_p()'s result *)
  w_rename : Z;                  (* errno of rename(), if the file exists; 0: none *)
  w_server : Z -> nat -> attempt (* by If-Modified-Since date (0: none) and attempt *)
}.

(** src/http/http.c:34-52 [get_ims]. *)
Definition get_ims (w : world) (f : fs) (n : path) : Z * Z :=
  match f n with
  | None => (0, 0)
  | Some _ => if w_stat w =? 0 then (0, w_mtime w) else (w_stat w, 0)
  end.

(** src/http/http.c:409-454 [http_download]. *)
Definition http_download (max : Z) (retries : nat) (tmp final : path) (w : world) (f : fs) : step :=
  if negb (w_tmpfile w =? 0) then {| st_error := w_tmpfile w; st_changed := false; st_fs := f; st_trace := [] |}
  else
    let '(e, ims) := get_ims w f final in
    if negb (e =? 0) then {| st_error := e; st_changed := false; st_fs := f; st_trace := [] |}
    else
      let s := do_retries max tmp (w_server w ims) retries 0 false f in
      if negb (st_error s =? 0) || negb (st_changed s) then s
      else if negb (w_mkdir w =? 0) then
        {| st_error := w_mkdir w; st_changed := true; st_fs := put (st_fs s) tmp None; st_trace := st_trace s ++ [put (st_fs s) tmp None] |}
      else
        match st_fs s tmp with
        | None => {| st_error := E_NOENT; st_changed := true; st_fs := st_fs s; st_trace := st_trace s |}
        | Some c =>
            if negb (w_rename w =? 0) then
              {| st_error := w_rename w; st_changed := true; st_fs := put (st_fs s) tmp None; st_trace := st_trace s ++ [put (st_fs s) tmp None] |}
            else
              let g := put (put (st_fs s) final (Some c)) tmp None in
              {| st_error := 0; st_changed := true; st_fs := g; st_trace := st_trace s ++ [g] |}
        end.

(** src/http/http.c:460-466 [http_direct_download]. *)
Definition http_direct_download (max : Z) (dest : path) (a : attempt) (f : fs) : step := http_fetch max dest a f.
