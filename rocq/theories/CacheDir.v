(** The cache directory's version, tag and temporary files: src/cache/local_cache.c, src/file.c.

    Files are Dirs.v's (no symbolic links, no other processes).  Each function also returns the states of the file system that it goes
    through, in order: if the power fails, one of these is what remains.  Not modelled: messages, paths that are too long. *)
From Coq Require Import String.
From Verif Require Import Base CString CLib Slurm PathBuilder Dirs DirsSpec.
Notation length := List.length.

(** What the rest of the world does during one validation cycle.  Errors are 0 if there is none. *)
Record env := {
  on_read : Z;                       (* opening cache.json to read it *)
  order : list (list name);          (* what nftw() visits, in order: paths from the repository *)
  on_remove : list name -> Z;        (* removing each *)
  on_mkdir : nat -> Z;               (* mkdir_p()'s *)
  on_stat : Z;                       (* stat() of CACHEDIR.TAG *)
  on_open_tag : Z; flushed_tag : nat;      (* opening it to write; how much of it reaches the disk *)
  on_open_meta : Z; flushed_meta : nat     (* the same of cache.json *)
}.

Section CacheDir.
  Variable cwd : list name.
  Variable repo : list Z.                          (* local-repository *)
  Variable load : list Z -> option json.           (* jansson's parser *)

  (** src/cache/local_cache.c:59-78 [get_cache_filename]; src/data_structure/path_builder.c:26-50 [pb_init_cache] adds a slash and the name. *)
  Definition get_cache_filename (n : list Z) : list Z := repo ++ 47 :: n.

  (** src/file.c:130-143 [rm], [file_rm_rf]: nftw() stops when rm() doesn't return 0. *)
  Fixpoint file_rm_rf (visits : list (list name)) (fault : list name -> Z) (f : fs) : Z * fs * list fs :=
    match visits with
    | [] => (0, f, [])
    | ns :: visits =>
        let '(e, g) := sys_remove cwd (fault ns) f (join repo ns) in
        if negb (e =? 0) then (e, g, [g])
        else let '(e, h, t) := file_rm_rf visits fault g in (e, h, g :: t)
    end.

  (** json_load_file(). *)
  Definition json_load_file (fault : Z) (f : fs) (path : list Z) : option json :=
    if negb (fault =? 0) then None
    else match resolve cwd f path with Found _ (File c) => load c | _ => None end.

  (** src/cache/local_cache.c:80-102 [write_simple_file]: fopen() empties the file; the text, which fits in stdio's buffer, is written by fclose(), whose result isn't looked at. *)
  Definition write_simple_file (opening : Z) (flushed : nat) (f : fs) (path content : list Z) : Z * fs * list fs :=
    if negb (opening =? 0) then (opening, f, [])
    else match resolve cwd f path with
         | Found p (File _) | Missing p => let g := put f p (File []) in
                                           let h := put g p (File (firstn flushed content)) in (0, h, [g; h])
         | Found _ Dir => (E_ISDIR, f, [])
         | Failed e => (e, f, [])
         end.

  (** src/cache/local_cache.c:104-146 [init_cache_metafile]; [version]: PACKAGE_VERSION. *)
  Definition init_cache_metafile (version : list Z) (w : env) (f : fs) : fs * list fs :=
    let invalid_cache := let '(_, g, t) := file_rm_rf (order w) (on_remove w) f in (g, t) in
    match json_load_file (on_read w) f (get_cache_filename (cstr "cache.json")) with
    | Some (JObj m) =>
        match json_get_str (JObj m) (cstr "fort-version") with
        | Ok (Some file_version) => if list_eqb Z.eqb file_version version then (f, []) else invalid_cache
        | _ => invalid_cache
        end
    | _ => invalid_cache
    end.

  (** src/cache/local_cache.c:167-180 [init_tmp_dir]; [None]: pr_crit() (it doesn't come back). *)
  Definition init_tmp_dir (w : env) (f : fs) : option fs * list fs :=
    match mkdir_p cwd (on_mkdir w) f (get_cache_filename (cstr "tmp")) true with
    | Ok (e, g) => if e =? 0 then (Some g, [g]) else (None, [g])
    | _ => (None, [])
    end.

  Definition tag_text : list Z :=
    cstr "Signature: 8a477f597d28d172789f06886806bc55" ++ [10] ++ cstr "# This file is a cache directory tag created by Fort." ++ [10] ++
    cstr "# For information about cache directory tags, see:" ++ [10] ++ cstr "#" ++ [9] ++ cstr "https://bford.info/cachedir/" ++ [10].
  (** src/file.c:123-128 [file_exists]. *)
  Definition file_exists (fault : Z) (f : fs) (path : list Z) : Z := match sys_stat cwd fault f path with inl _ => 0 | inr e => e end.
  (** src/cache/local_cache.c:148-165 [init_cachedir_tag]. *)
  Definition init_cachedir_tag (w : env) (f : fs) : fs * list fs :=
    let filename := get_cache_filename (cstr "CACHEDIR.TAG") in
    if file_exists (on_stat w) f filename =? E_NOENT
    then let '(_, g, t) := write_simple_file (on_open_tag w) (flushed_tag w) f filename tag_text in (g, t)
    else (f, []).

  (** src/cache/local_cache.c:182-188 [cache_setup]. *)
  Definition cache_setup (version : list Z) (w : env) (f : fs) : option fs * list fs :=
    let '(f, t1) := init_cache_metafile version w f in
    match init_tmp_dir w f with
    | (None, t2) => (None, t1 ++ t2)
    | (Some f, t2) => let '(f, t3) := init_cachedir_tag w f in (Some f, t1 ++ t2 ++ t3)
    end.

  (** src/cache/local_cache.c:190-202 [cache_teardown]. *)
  Definition meta_text (version : list Z) : list Z :=
    cstr "{ " ++ [34] ++ cstr "fort-version" ++ [34] ++ cstr ": " ++ [34] ++ version ++ [34] ++ cstr " }" ++ [10].
  Definition cache_teardown (version : list Z) (w : env) (f : fs) : fs * list fs :=
    let '(_, g, t) := write_simple_file (on_open_meta w) (flushed_meta w) f (get_cache_filename (cstr "cache.json")) (meta_text version) in (g, t).

  (** src/cache/local_cache.c:214-231 [cache_tmpfile]: the n-th call since the program started, by any of the threads (the counter is an atomic_uint). *)
  Definition cache_tmpfile (J : Z) (n : nat) : res (list Z) :=
    bind (pb_init_cache J repo None (Some (cstr "tmp"))) (fun pb =>
    bind (pb_append_u32 J pb (wrap32 (Z.of_nat n))) (fun pb =>
    pb_string pb)).
End CacheDir.
