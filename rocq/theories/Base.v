(** * Common vocabulary of the model.

    Machine integers are [Z]; 32-bit wrap-around is written explicitly with
    [wrap32].  Bytes are [Z] in 0..255.  [res] is the outcome of a modelled C
    function: [Ok] (return 0), [Err] (non-zero return code) or [UB]
    (undefined behaviour: out-of-bounds access, NULL dereference, division by
    zero), which is never confused with a normal result. *)
From Coq Require Export List ZArith Lia Bool.
From Coq Require Export ZifyBool ZifyNat.
Export ListNotations.
#[export] Set Warnings "-deprecated".
Global Open Scope Z_scope.

(** The errno values the modelled functions return. Signs are not modelled
    except where a caller distinguishes them (then two constructors exist). *)
Inductive errcode : Set :=
| EINVAL | EAGAIN | ESRCH | ENOSPC | ENOTSUP | ENOENT | ENOTRSYNC | EIO
| EACCES | EEXIST | EOTHER (code : Z).

Inductive res (A : Type) : Type :=
| Ok (a : A)
| Err (e : errcode)
| UB.
Arguments Ok {A} a.
Arguments Err {A} e.
Arguments UB {A}.

Definition bind {A B : Type} (m : res A) (f : A -> res B) : res B :=
  match m with
  | Ok a => f a
  | Err e => Err e
  | UB => UB
  end.

Declare Scope res_scope.
Delimit Scope res_scope with res.
Notation "'do' x <- m ; f" := (bind m (fun x => f))
  (at level 200, x pattern, m at level 100, f at level 200) : res_scope.

(** uint32_t arithmetic. *)
Definition wrap32 (x : Z) : Z := x mod 4294967296.
Definition is_u32 (x : Z) : Prop := 0 <= x < 4294967296.
Definition is_byte (x : Z) : Prop := 0 <= x < 256.
Definition UINT_MAX : Z := 4294967295.

Fixpoint list_eqb {A : Type} (eqb : A -> A -> bool) (l1 l2 : list A) : bool :=
  match l1, l2 with
  | [], [] => true
  | x :: xs, y :: ys => eqb x y && list_eqb eqb xs ys
  | _, _ => false
  end.

(** Replace element [n] of a list (no effect past the end; the models test the
    bound first and report [UB]). *)
Fixpoint upd {A : Type} (l : list A) (n : nat) (a : A) : list A :=
  match l, n with
  | [], _ => []
  | _ :: t, O => a :: t
  | x :: t, S n' => x :: upd t n' a
  end.
