(** What is expected of directories.  Uses only the types, [lookup] and [comps] (the pieces of a path) of Dirs.v. *)
From Verif Require Import Base Dirs.

(** What exists is in a directory. *)
Definition tree_ok (f : fs) : Prop := forall p x, lookup f (p ++ [x]) <> None -> lookup f p = Some Dir.

(** The place a path denotes, if it has no ".." *)
Definition plain (s : list Z) : Prop := ~ In [46; 46] (comps s).
Definition clean (cs : list name) : list name := filter (fun c => match c with [] => false | [46] => false | _ => true end) cs.
Definition origin (cwd : list name) (s : list Z) : list name := match s with 47 :: _ => [] | _ => cwd end.
Definition place (cwd : list name) (s : list Z) : list name := origin cwd s ++ clean (comps s).
(** The one it is in, without its last piece (dirname). *)
Definition place_dir (cwd : list name) (s : list Z) : list name := origin cwd s ++ clean (removelast (comps s)).

Definition above (p q : list name) : Prop := exists r, q = p ++ r.             (* p is q, or contains it *)
Definition strictly_above (p q : list name) : Prop := exists r, r <> [] /\ q = p ++ r.

(** An ordinary file name, and the path to it through some directories. *)
Definition ordinary (n : name) : Prop := n <> [] /\ n <> [46] /\ n <> [46; 46] /\ ~ In 47 n.
Definition join (base : list Z) (ns : list name) : list Z := base ++ concat (map (fun n => 47 :: n) ns).
