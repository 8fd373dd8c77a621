(** What is expected of the memory that validating a tree uses. *)
From Verif Require Import Base Refs.

(** The moment a trust anchor's tree is about to be validated: nothing is on the stacks, and no publication point has been created;
    of other objects there may be any, which nobody will have allocated twice. *)
Definition before (s : st) : Prop :=
  defers s = [] /\ metas s = [] /\ (forall i, point s i = false /\ kids s i = []) /\ (forall i, (next s <= i)%nat -> refs s i = O).
