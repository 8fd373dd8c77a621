(** Specification of the delta history: the [n] most recent items of a list of
    all items ever added (oldest first). *)
From Verif Require Import Base.

Definition last_n {A : Type} (n : nat) (l : list A) : list A :=
  skipn (length l - n) l.
