(** Model of the uthash tables used by src/rtr/db/db_table.c: an
    insertion-ordered collection keyed by the whole element.  uthash itself
    (src/data_structure/uthash.h) is trusted to implement this; HASH_ITER
    visits in insertion order ("app order"). *)
From Verif Require Import Base.

Section HashSet.
  Context {A : Type} (eqb : A -> A -> bool).

  (** HASH_FIND. *)
  Definition hs_mem (x : A) (l : list A) : bool := existsb (eqb x) l.
  (** HASH_DEL of the node found. *)
  Definition hs_del (x : A) (l : list A) : list A :=
    filter (fun y => negb (eqb x y)) l.
  (** HASH_REPLACE: delete the old node if any, append the new one. *)
  Definition hs_add (l : list A) (x : A) : list A := hs_del x l ++ [x].
  (** Elements of [l1] not found in [l2], in [l1]'s order. *)
  Definition hs_diff (l1 l2 : list A) : list A :=
    filter (fun x => negb (hs_mem x l2)) l1.
End HashSet.
