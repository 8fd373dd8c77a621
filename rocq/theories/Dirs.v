(** Making and removing directories: src/common.c, and what of src/rrdp.c uses them.  Files are a tree (no symbolic links, no other processes). *)
From Verif Require Import Base.
Notation length := List.length.

Notation name := (list Z) (only parsing).
Inductive node := Dir | File (c : list Z).
(** By path from the root (which isn't listed). *)
Definition fs := list (list name * node).
Definition path_dec (p q : list name) : {p = q} + {p <> q} := list_eq_dec (list_eq_dec Z.eq_dec) p q.
Fixpoint find_entry (f : fs) (p : list name) : option node :=
  match f with [] => None | (q, n) :: f => if path_dec q p then Some n else find_entry f p end.
Definition lookup (f : fs) (p : list name) : option node := match p with [] => Some Dir | _ => find_entry f p end.
Definition del (f : fs) (p : list name) : fs := filter (fun e => if path_dec (fst e) p then false else true) f.
Definition put (f : fs) (p : list name) (n : node) : fs := (p, n) :: del f p.

(** errno.h. *)
Definition E_NOENT : Z := 2.
Definition E_BUSY : Z := 16.
Definition E_EXIST : Z := 17.
Definition E_NOTDIR : Z := 20.
Definition E_ISDIR : Z := 21.
Definition E_INVAL : Z := 22.
Definition E_NOTEMPTY : Z := 39.

(** Path resolution (path_resolution(7)).  The pieces between slashes: *)
Fixpoint comps (s : list Z) : list name :=
  match s with
  | [] => [[]]
  | c :: s => if c =? 47 then [] :: comps s else match comps s with x :: l => (c :: x) :: l | [] => [[c]] end
  end.
Definition is_nil (c : name) : bool := match c with [] => true | _ => false end.
Definition is_dot (c : name) : bool := list_eqb Z.eqb c [46].
Definition is_dotdot (c : name) : bool := list_eqb Z.eqb c [46; 46].
(** It exists; it doesn't, but the directory it would be in does; or an error. *)
Inductive found := Found (p : list name) (n : node) | Missing (p : list name) | Failed (errno : Z).
Fixpoint walk (f : fs) (cur : list name) (cs : list name) : found :=
  match cs with
  | [] => match lookup f cur with Some n => Found cur n | None => Missing cur end
  | c :: cs' =>
      match lookup f cur with
      | None => if forallb is_nil cs then Missing cur else Failed E_NOENT
      | Some (File _) => Failed E_NOTDIR
      | Some Dir => walk f (if is_nil c || is_dot c then cur else if is_dotdot c then removelast cur else cur ++ [c]) cs'
      end
  end.
Definition resolve (cwd : list name) (f : fs) (s : list Z) : found :=
  match s with
  | [] => Failed E_NOENT
  | c :: _ => walk f (if c =? 47 then [] else cwd) (comps s)
  end.

(** System calls.  [fault]: if not 0, an error that isn't shown in the tree (EACCES, EIO, ENOSPC...). *)
Definition sys_stat (cwd : list name) (fault : Z) (f : fs) (s : list Z) : node + Z :=
  if negb (fault =? 0) then inr fault
  else match resolve cwd f s with Found _ n => inl n | Missing _ => inr E_NOENT | Failed e => inr e end.
Definition sys_mkdir (cwd : list name) (fault : Z) (f : fs) (s : list Z) : Z * fs :=
  if negb (fault =? 0) then (fault, f)
  else match resolve cwd f s with Found _ _ => (E_EXIST, f) | Missing p => (0, put f p Dir) | Failed e => (e, f) end.
(** Whether there is something in the directory. *)
Definition inside (p q : list name) : bool := (Nat.ltb (length p) (length q)) && (if path_dec (firstn (length p) q) p then true else false).
Definition busy (f : fs) (p : list name) : bool := existsb (fun e => inside p (fst e)) f.
(** (rmdir("x/.") is EINVAL; FORT never does that.) *)
Definition sys_rmdir (cwd : list name) (fault : Z) (f : fs) (s : list Z) : Z * fs :=
  if negb (fault =? 0) then (fault, f)
  else match resolve cwd f s with
       | Found p Dir => match p with [] => (E_BUSY, f) | _ => if busy f p then (E_NOTEMPTY, f) else (0, del f p) end
       | Found _ (File _) => (E_NOTDIR, f)
       | Missing _ => (E_NOENT, f)
       | Failed e => (e, f)
       end.
Definition sys_unlink (cwd : list name) (fault : Z) (f : fs) (s : list Z) : Z * fs :=
  if negb (fault =? 0) then (fault, f)
  else match resolve cwd f s with
       | Found p (File _) => (0, del f p)
       | Found _ Dir => (E_ISDIR, f)
       | Missing _ => (E_NOENT, f)
       | Failed e => (e, f)
       end.
(** stdio's remove(): unlink(); if that is EISDIR, rmdir(). *)
Definition sys_remove (cwd : list name) (fault : Z) (f : fs) (s : list Z) : Z * fs :=
  let '(e, g) := sys_unlink cwd fault f s in if e =? E_ISDIR then sys_rmdir cwd 0 f s else (e, g).

(** src/common.c:246-266 [dir_exists]. *)
Definition dir_exists (cwd : list name) (fault : Z) (f : fs) (s : list Z) : Z :=
  match sys_stat cwd fault f s with
  | inr e => if e =? E_NOENT then 0 else e
  | inl (File _) => - E_INVAL
  | inl Dir => 1
  end.
(** src/common.c:268-283 [create_dir]. *)
Definition create_dir (cwd : list name) (fault : Z) (f : fs) (s : list Z) : Z * fs :=
  let '(e, f) := sys_mkdir cwd fault f s in if e =? E_EXIST then (0, f) else (e, f).

(** The positions of the slashes, from [i]. *)
Fixpoint slashes (i : nat) (s : list Z) : list nat :=
  match s with [] => [] | c :: s => if c =? 47 then i :: slashes (S i) s else slashes (S i) s end.
(** strrchr(s, '/'), and what is before it. *)
Definition before_last (s : list Z) : option (list Z) :=
  match rev (slashes 0 s) with [] => None | i :: _ => Some (firstn i s) end.

(** src/common.c:286-323 [mkdir_p]: the loop. *)
Fixpoint create_dirs (cwd : list name) (fault : nat -> Z) (k : nat) (l : list (list Z)) (f : fs) : Z * fs :=
  match l with
  | [] => (0, f)
  | s :: l => let '(e, f) := create_dir cwd (fault k) f s in if e =? 0 then create_dirs cwd fault (S k) l f else (e, f)
  end.
(** What it creates: the string up to each slash that isn't the first character, then all of it. *)
Definition ancestors (s : list Z) : list (list Z) := map (fun i => firstn i s) (slashes 1 (tl s)) ++ [s].
(** src/common.c:286-323 [mkdir_p].  [fault]: of stat(), then of each mkdir(). *)
Definition mkdir_p (cwd : list name) (fault : nat -> Z) (f : fs) (path : list Z) (include_basename : bool) : res (Z * fs) :=
  let make localuri :=
    let result := dir_exists cwd (fault 0%nat) f localuri in
    if 0 <? result then Ok (0, f)
    else if result <? 0 then Ok (result, f)
    else match localuri with
         | [] => if include_basename then UB (* localuri[1] is beyond the string *) else Ok (create_dir cwd (fault 1%nat) f [])
         | _ => Ok (create_dirs cwd fault 1 (ancestors localuri) f)
         end in
  if include_basename then make path
  else match before_last path with None => Ok (0, f) | Some localuri => make localuri end.

(** src/common.c:351-403 [delete_dir_recursive_bottom_up]: the loop, over what is before each slash, from the last one. *)
Fixpoint delete_dirs (cwd : list name) (fault : nat -> Z) (config_len : nat) (k : nat) (l : list (list Z)) (f : fs) : Z * fs :=
  match l with
  | [] => (0, f)
  | s :: l =>
      if Nat.eqb (length s) config_len then (0, f)
      else let '(e, f) := sys_rmdir cwd (fault k) f s in
           if e =? 0 then delete_dirs cwd fault config_len (S k) l f
           else if (e =? E_NOTEMPTY) || (e =? E_EXIST) then (0, f)
           else (e, f)
  end.
Definition parents (s : list Z) : list (list Z) := map (fun i => firstn i s) (rev (slashes 0 s)).
(** src/common.c:351-403 [delete_dir_recursive_bottom_up], with src/common.c:325-341 [remove_file]; [repo]: local-repository.  [fault]: of remove(), then of each rmdir(). *)
Definition delete_dir_recursive_bottom_up (cwd : list name) (fault : nat -> Z) (repo : list Z) (f : fs) (path : list Z) : res (Z * fs) :=
  let '(e, f) := sys_remove cwd (fault 0%nat) f path in
  if negb (e =? 0) then Ok (e, f)
  else match rev repo with
       | [] => UB (* config_repo[-1] *)
       | c :: _ => let config_len := if c =? 47 then (length repo - 1)%nat else length repo in
                   Ok (delete_dirs cwd fault config_len 1 (parents path) f)
       end.

(** src/rrdp.c:577-603 [write_file]; [fault]: mkdir_p()'s; [opening]: of the fopen(); the fwrite() is complete. *)
Definition write_file (cwd : list name) (fault : nat -> Z) (opening : Z) (f : fs) (path content : list Z) : res (Z * fs) :=
  bind (mkdir_p cwd fault f path false) (fun '(e, f) =>
  if negb (e =? 0) then Ok (e, f)
  else if negb (opening =? 0) then Ok (opening, f)
  else match resolve cwd f path with
       | Found p (File _) | Missing p => Ok (0, put f p (File content))
       | Found _ Dir => Ok (E_ISDIR, f)
       | Failed e => Ok (e, f)
       end).
(** src/rrdp.c:606-611 [delete_file]. *)
Definition delete_file := delete_dir_recursive_bottom_up.
