(** Specification of C93: who wrote what is in the cache.  Uses Dirs.v's file systems, and the two functions cache_setup() and cache_teardown(). *)
From Coq Require Import String.
From Verif Require Import Base CString CLib Slurm Dirs DirsSpec CacheDir.

(** A file system, and the version of Fort that last changed each path. *)
Definition state := (fs * (list name -> list Z))%type.
Definition writes (v : list Z) (s s' : state) : Prop := forall p,
  (lookup (fst s') p = lookup (fst s) p /\ snd s' p = snd s p) \/ (lookup (fst s') p <> lookup (fst s) p /\ snd s' p = v).
(** Version [v] going through some file systems. *)
Inductive passes (v : list Z) : state -> list fs -> state -> Prop :=
| passes_end s : passes v s [] s
| passes_more s g o t s' : writes v s (g, o) -> passes v (g, o) t s' -> passes v s (g :: t) s'.

Section Spec.
  Variable cwd : list name.
  Variable repo : list Z.
  Variable load : list Z -> option json.
  Definition root : list name := place cwd repo.
  Definition metafile : list name := root ++ [cstr "cache.json"].

  (** The version that cache.json mentions. *)
  Definition mentions (c v : list Z) : Prop := exists m, load c = Some (JObj m) /\ Slurm.assoc (cstr "fort-version") m = Some (JStr v).
  Definition cache_version (f : fs) (v : list Z) : Prop := exists c, lookup f metafile = Some (File c) /\ mentions c v.
  (** The JSON parser reads the file that Fort writes; and doesn't find another version in it if it's truncated. *)
  Definition plain_version (v : list Z) : Prop := Forall (fun c => 48 <= c <= 57 \/ c = 46) v.
  Definition sane_load : Prop := forall v, plain_version v -> mentions (meta_text v) v /\ forall k w, mentions (firstn k (meta_text v)) w -> w = v.

  Definition sane (f : fs) : Prop := tree_ok f /\ lookup f cwd = Some Dir /\ forall ns, lookup f (root ++ ns) <> None -> Forall ordinary ns.
  Definition sane_repo : Prop := repo <> [] /\ plain repo /\ root <> [] /\ ~ above root cwd.

  (** nftw() with FTW_DEPTH: all that is in the repository, and it; directories after what they contain. *)
  Definition depth_first (f : fs) (l : list (list name)) : Prop :=
    NoDup l /\ (forall ns, In ns l <-> lookup f (root ++ ns) <> None) /\
    forall l1 ns l2 m, l = l1 ++ ns :: l2 -> strictly_above ns m -> In m l -> In m l1.
  (** Errors that aren't "it's already there" and "it isn't there" when the tree says otherwise. *)
  Definition sane_env (w : env) (f : fs) : Prop := depth_first f (order w) /\ (forall k, on_mkdir w k <> E_EXIST) /\ on_mkdir w 0%nat <> E_NOENT /\ (forall ns, on_remove w ns <> E_ISDIR) /\ on_stat w <> E_NOENT.
  (** What's in the repository can be deleted (the directory itself maybe not). *)
  Definition removable (w : env) : Prop := forall ns, ns <> [] -> on_remove w ns = 0.

  (** The validation: it may change everything but cache.json. *)
  Definition works (v : list Z) (s s' : state) : Prop :=
    sane (fst s') /\ lookup (fst s') metafile = lookup (fst s) metafile /\
    forall p, (lookup (fst s') p = lookup (fst s) p /\ snd s' p = snd s p) \/ snd s' p = v.
  Definition prefix {A} (l1 l : list A) : Prop := exists l2, l = l1 ++ l2.
  (** A cycle (of the server, or a run of a standalone) of version [v]: interrupted at any point, or not. *)
  Inductive cycle (v : list Z) (w : env) : state -> state -> Prop :=
  | in_setup s t s' : prefix t (snd (cache_setup cwd repo load v w (fst s))) -> passes v s t s' -> cycle v w s s'
  | in_validation s f t s1 s' : cache_setup cwd repo load v w (fst s) = (Some f, t) -> passes v s t s1 -> works v s1 s' -> cycle v w s s'
  | in_teardown s f t s1 s2 t' s' : cache_setup cwd repo load v w (fst s) = (Some f, t) -> passes v s t s1 -> works v s1 s2 ->
      prefix t' (snd (cache_teardown cwd repo v w (fst s2))) -> passes v s2 t' s' -> cycle v w s s'.
  (** Any number of cycles of any versions, from a directory without a valid cache.json (for instance, one that isn't there). *)
  Inductive history : state -> Prop :=
  | first_time s : sane (fst s) -> (forall v, ~ cache_version (fst s) v) -> history s
  | then_cycle v w s s' : history s -> plain_version v -> sane_env w (fst s) -> removable w -> cycle v w s s' -> history s'.
End Spec.
