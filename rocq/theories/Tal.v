(** Trust Anchor Locators: reading them, and validating them all.

    Models src/line_file.c [lfile_read], src/object/tal.c and the directory
    traversal of src/common.c.  A file is its bytes; reading errors other than its
    end aren't modelled. *)
From Coq Require Import String.
From Verif Require Import Base CString CLib PathBuilder Types HashSet DbTable.
Notation length := List.length.

(** ** Lines *)

(** getline(): through the first line feed. *)
Fixpoint getline (f : list Z) : list Z * list Z :=
  match f with
  | [] => ([], [])
  | c :: f => if c =? 10 then ([10], f) else let '(l, r) := getline f in (c :: l, r)
  end.
(** src/line_file.c:116-123: CRLF, or LF, removed from the end. *)
Definition chomp (s : list Z) : list Z :=
  let len := length s in
  let crlf := if (2 <=? len)%nat then (nth (len - 2) s 0 =? 13) && (nth (len - 1) s 0 =? 10) else false in
  let lf := if (1 <=? len)%nat then nth (len - 1) s 0 =? 10 else false in
  if crlf then firstn (len - 2) s else if lf then firstn (len - 1) s else s.
(** src/line_file.c:51-141 [lfile_read]: the line ([None]: end of file), and what's
    left of the file. *)
Definition lfile_read (f : list Z) : res (option (list Z) * list Z) :=
  match f with
  | [] => Ok (None, [])
  | _ => let '(s, f) := getline f in
         if has_char 0 s then Err EINVAL else Ok (Some (chomp s), f)
  end.

Section Tal.
  (** Memory junk, and where the cache is; see PathBuilder. *)
  Variable J : Z.
  Variable repository : list Z.
  (** The TAL's file name. *)
  Variable tal : list Z.

  (** src/object/tal.c:43-60 [add_uri]. *)
  Definition add_uri (uri : list Z) : res rpki_uri :=
    if str_starts_with uri (cstr "rsync://") then uri_create J repository (Some tal) UT_RSYNC None uri
    else if str_starts_with uri (cstr "https://") then uri_create J repository (Some tal) UT_HTTPS None uri
    else Err EINVAL.

  (** src/object/tal.c:94-110: the loop of [read_uris].  Each round reads a byte at
      least, so [fuel] is only a device. *)
  Fixpoint uri_loop (fuel : nat) (uri : list Z) (f : list Z) : res (list rpki_uri * list Z) :=
    match fuel with
    | O => UB
    | S fuel =>
        bind (add_uri uri) (fun u =>
        bind (lfile_read f) (fun '(line, f) =>
        match line with
        | None => Err EINVAL
        | Some [] => Ok ([u], f)
        | Some uri => bind (uri_loop fuel uri f) (fun '(us, f) => Ok (u :: us, f))
        end))
    end.
  (** src/object/tal.c:77-91: the loop of [read_uris] that skips comments: the first
      line that isn't one. *)
  Fixpoint comment_loop (fuel : nat) (f : list Z) : res (list Z * list Z) :=
    match fuel with
    | O => UB
    | S fuel =>
        bind (lfile_read f) (fun '(line, f) =>
        match line with
        | None | Some [] => Err EINVAL
        | Some (c :: s) => if c =? 35 then comment_loop fuel f else Ok (c :: s, f)
        end)
    end.
  (** src/object/tal.c:62-113 [read_uris]. *)
  Definition read_uris (f : list Z) : res (list rpki_uri * list Z) :=
    let fuel := S (length f) in
    bind (lfile_read f) (fun '(line, f) =>
    match line with
    | None | Some [] => Err EINVAL
    | Some (c :: s) =>
        bind (if c =? 35 then comment_loop fuel f else Ok (c :: s, f)) (fun '(uri, f) => uri_loop fuel uri f)
    end).

  (** ** The key *)
  Definition BUF_SIZE : nat := 65.
  (** src/object/tal.c:136-145 [locate_char]. *)
  Fixpoint locate_char (str : list Z) (find : Z) : option nat :=
    match str with
    | [] => None
    | c :: str => if c =? find then Some 0%nat else option_map S (locate_char str find)
    end.
  (** src/object/tal.c:172-209: the loop of [base64_sanitize]: of the file, [f] is left;
      [result] is memory. *)
  Fixpoint sanitize_loop (fuel : nat) (original_size : nat) (f : list Z) (result : list Z) (offset : nat) : res (list Z * nat) :=
    match fuel with
    | O => UB
    | S fuel =>
        let buf := firstn (Nat.min BUF_SIZE original_size) f in
        let f := skipn (Nat.min BUF_SIZE original_size) f in
        let n := length buf in
        match buf with
        | [] => Ok (result, offset)
        | _ =>
            match locate_char buf 10 with
            | None =>
                bind (store result offset (firstn (n - 1) buf)) (fun result =>
                let offset := (offset + (n - 1))%nat in
                bind (store result offset [10]) (fun result =>
                bind (store result (offset + 1) [nth (n - 1) buf 0]) (fun result =>
                sanitize_loop fuel (original_size - n) f result (offset + 2))))
            | Some eol =>
                bind (store result offset (firstn (eol + 1) buf)) (fun result =>
                let offset := (offset + (eol + 1))%nat in
                if (eol + 1 <? n)%nat then
                  bind (store result offset (skipn (eol + 1) buf)) (fun result =>
                  let offset := (offset + (n - 1 - eol))%nat in
                  bind (store result offset [10]) (fun result =>
                  sanitize_loop fuel (original_size - n) f result (offset + 1)))
                else sanitize_loop fuel (original_size - n) f result offset)
            end
        end
    end.
  (** realloc(). *)
  Definition resize (mem : list Z) (n : nat) : list Z := firstn n mem ++ repeat J (n - length mem).
  (** src/object/tal.c:154-225 [base64_sanitize]: the memory of the string, with its
      NUL.  [original_size]: what's left of the file, according to stat(). *)
  Definition base64_sanitize (original_size : nat) (f : list Z) : res (list Z) :=
    let new_size := (original_size + original_size / BUF_SIZE)%nat in
    bind (sanitize_loop (S (length f)) original_size f (repeat J (new_size + 1)) 0) (fun '(result, offset) =>
    let result := if negb (offset =? new_size)%nat then resize result (offset + 1) else result in
    store result offset [0]).

  (** src/object/tal.c:270-306 [tal_init]; [decode]: base64_decode() of the string.
      The key and the URIs. *)
  Definition tal_init (decode : list Z -> option (list Z)) (f : list Z) : res (list rpki_uri * list Z) :=
    bind (read_uris f) (fun '(uris, body) =>
    bind (base64_sanitize (length body) body) (fun s =>
    match decode s with None => Err EINVAL | Some spki => Ok (uris, spki) end)).
End Tal.

(** ** All of them *)

(** What becomes of a TAL's thread: it can't be created; it fails; or it ends with
    a table. *)
Inductive thread := NoThread | Failed (error : Z) | Done (db : db_table).

(** strrchr(): what follows the last [c], with it. *)
Fixpoint strrchr (c : Z) (s : list Z) : option (list Z) :=
  match s with
  | [] => None
  | x :: s' => match strrchr c s' with Some t => Some t | None => if x =? c then Some s else None end
  end.

(** What the configured location of the TALs is: nothing, a file, or a directory
    (its entries, and whether they could be read to the end). *)
Inductive location := Nowhere | File (path : list Z) | Dir (entries : list (list Z)) (readdir : bool).

Section Standalone.
  (** Whether a directory's entry's path can be had; what becomes of a TAL. *)
  Variable realpath : list Z -> bool.
  Variable run : list Z -> thread.

  (** src/object/tal.c:469-492 [spawn_tal_thread]: whether it was, and the list of
      threads, the last created first.  A thread that isn't created is freed, but
      stays listed ([None]). *)
  Definition spawn_tal_thread (file : list Z) (threads : list (option thread)) : bool * list (option thread) :=
    match run file with
    | NoThread => (false, None :: threads)
    | t => (true, Some t :: threads)
    end.
  (** src/common.c:107-144 [process_file]: whether it went well, whether the file was
      one of those looked for. *)
  Definition process_file (name : list Z) (threads : list (option thread)) : bool * bool * list (option thread) :=
    match strrchr 46 name with
    | None => (true, false, threads)
    | Some ext =>
        if negb (list_eqb Z.eqb ext (cstr ".tal")) then (true, false, threads)
        else if negb (realpath name) then (false, true, threads)
        else let '(ok, threads) := spawn_tal_thread name threads in (ok, true, threads)
    end.
  (** src/common.c:146-188 [process_dir_files] (no files found is an error). *)
  Fixpoint process_dir_files (entries : list (list Z)) (readdir : bool) (found : bool) (threads : list (option thread)) : bool * list (option thread) :=
    match entries with
    | [] => (readdir && found, threads)
    | e :: entries =>
        let '(ok, is, threads) := process_file e threads in
        if negb ok then (false, threads)
        else process_dir_files entries readdir (found || is) threads
    end.
  (** src/common.c:197-216 [foreach_file]. *)
  Definition foreach_file (l : location) : bool * list (option thread) :=
    match l with
    | Nowhere => (false, [])
    | File path => spawn_tal_thread path []
    | Dir entries readdir => process_dir_files entries readdir false []
    end.

  (** src/object/tal.c:500-508: if it didn't go well, the threads there are are freed,
      without waiting for them; they write to what was freed.  A thread that wasn't
      created is freed twice. *)
  Definition destroy_all (threads : list (option thread)) : res unit :=
    match threads with [] => Ok tt | _ => UB end.
  (** src/object/tal.c:510-534: waiting for all of them. *)
  Fixpoint wait_all (threads : list (option thread)) (db : option db_table) (error : Z) : res (option db_table * Z) :=
    match threads with
    | [] => Ok (db, error)
    | None :: _ | Some NoThread :: _ => UB
    | Some (Failed e) :: threads => wait_all threads db e
    | Some (Done t) :: threads =>
        if error =? 0
        then match db with
             | None => wait_all threads (Some t) error
             | Some d => wait_all threads (Some (db_table_join d t)) error
             end
        else wait_all threads db error
    end.
  (** src/object/tal.c:494-551 [perform_standalone_validation]. *)
  Definition perform_standalone_validation (l : location) : res (option db_table) :=
    let '(ok, threads) := foreach_file l in
    if negb ok then bind (destroy_all threads) (fun _ => Ok None)
    else bind (wait_all threads None 0) (fun '(db, error) => Ok (if error =? 0 then db else None)).
End Standalone.
