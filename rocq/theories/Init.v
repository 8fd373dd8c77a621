(** --init-tals and --init-as0-tals: src/init.c, and the part of src/config.c that calls it.  The path is made by PathBuilder.v, the download by Http.v. *)
From Coq Require Import String.
From Verif Require Import Base CString PathBuilder Http.
Notation length := List.length.
Open Scope list_scope.
Open Scope Z_scope.

(** What the user reads: src/init.c:25 (stdout), src/init.c:30 and src/init.c:36 (stderr); the numbers are strerror()'s arguments. *)
Inductive message := Fetched (file : path) | NoPath (errno : Z) | NotFetched (file : path) (errno : Z).
(** What happened so far: the files now and before (see Http.v), the URLs requested, the messages. *)
Record run := { r_fs : fs; r_trace : list fs; r_requests : list (list Z); r_said : list message }.
(** The errors of pb_append(): there's only one. *)
Definition pb_errno (e : errcode) : Z := match e with ENOSPC => 28 | _ => 5 end.

Section Init.
  Variable J : Z.                             (* see PathBuilder.v *)
  Variable max : Z.                           (* http.max-file-size *)
  Variable tal : list Z.                      (* config_get_tal() *)
  Variable srv : list Z -> attempt.           (* what comes of requesting each URL *)

  (** src/init.c:7-40 [fetch_url]; the result is the error. *)
  Definition fetch_url (url filename : list Z) (r : run) : res (Z * run) :=
    let pbfail e := Ok (pb_errno e, {| r_fs := r_fs r; r_trace := r_trace r; r_requests := r_requests r; r_said := r_said r ++ [NoPath (Z.abs (pb_errno e))] |}) in
    match pb_append J (pb_init J) (Some tal) with
    | UB => UB
    | Err e => pbfail e
    | Ok pb =>
        match pb_append J pb (Some filename) with
        | UB => UB
        | Err e => pbfail e
        | Ok pb =>
            bind (pb_string pb) (fun file =>
            let s := http_direct_download max file (srv url) (r_fs r) in
            Ok (st_error s, {| r_fs := st_fs s; r_trace := r_trace r ++ st_trace s; r_requests := r_requests r ++ [url];
                               r_said := r_said r ++ [if st_error s =? 0 then Fetched file else NotFetched file (Z.abs (st_error s))] |}))
        end
    end.
  (** "error = fetch_url(...); if (error) return error;", of src/init.c:42-95. *)
  Definition and_then (x : res (Z * run)) (f : run -> res (Z * run)) : res (Z * run) :=
    bind x (fun '(error, r) => if negb (error =? 0) then Ok (error, r) else f r).

  (** src/init.c:42-84 [download_tals]. *)
  Definition download_tals (r : run) : res (Z * run) :=
    and_then (fetch_url (cstr "https://rpki.afrinic.net/tal/afrinic.tal") (cstr "afrinic.tal") r) (fun r =>
    and_then (fetch_url (cstr "https://tal.apnic.net/tal-archive/apnic-rfc7730-https.tal") (cstr "apnic.tal") r) (fun r =>
    and_then (fetch_url (cstr "https://www.arin.net/resources/manage/rpki/arin.tal") (cstr "arin.tal") r) (fun r =>
    and_then (fetch_url (cstr "https://www.lacnic.net/innovaportal/file/4983/1/lacnic.tal") (cstr "lacnic.tal") r) (fun r =>
    fetch_url (cstr "https://tal.rpki.ripe.net/ripe-ncc.tal") (cstr "ripe-ncc.tal") r)))).
  (** src/init.c:86-95 [download_tal0s]. *)
  Definition download_tal0s (r : run) : res (Z * run) :=
    and_then (fetch_url (cstr "https://tal.apnic.net/tal-archive/apnic-as0-rfc7730-https.tal") (cstr "apnic-as0.tal") r) (fun r =>
    fetch_url (cstr "https://www.lacnic.net/innovaportal/file/4983/1/lacnic-as0.tal") (cstr "lacnic-as0.tal") r).

  (** src/config.c:1109-1171 [handle_flags_config]: the status the process exits with (exit() takes the lowest 8 bits), and what it did. *)
  Definition init_tals (tals tal0s : bool) (f : fs) : res (Z * run) :=
    let r := {| r_fs := f; r_trace := []; r_requests := []; r_said := [] |} in
    bind (if tals then download_tals r else Ok (0, r)) (fun '(error, r) =>
    bind (if (error =? 0) && tal0s then download_tal0s r else Ok (error, r)) (fun '(error, r) =>
    Ok (Z.land error 255, r))).
End Init.
