(** C100: files, and what their readers may see of them. *)
From Coq Require Import ZArith List Bool.
Import ListNotations.
Open Scope list_scope.

(** A file over time: its content when the k-th read() happens. *)
Definition file := nat -> list Z.
(** What POSIX says of sequential read()s: each of the answers is an error; or some of the bytes that
    the file has then, from where the previous one stopped; none only if there are no more.  [pos]: the
    bytes read so far. *)
Fixpoint position (answer : nat -> Z + list Z) (k : nat) : nat :=
  match k with
  | O => O
  | S k => (position answer k + match answer k with inl _ => O | inr b => length b end)%nat
  end.
Definition reads_from (f : file) (answer : nat -> Z + list Z) : Prop :=
  forall k, match answer k with
            | inl _ => True
            | inr b => b = firstn (length b) (skipn (position answer k) (f k)) /\ (b = [] -> (length (f k) <= position answer k)%nat)
            end.
(** Nobody changes the file. *)
Definition still (f : file) (c : list Z) : Prop := forall k, f k = c.
(** No read() fails. *)
Definition no_errors (answer : nat -> Z + list Z) : Prop := forall k e, answer k <> inl e.
(** [l] is torn out of the file: each of its bytes was at its place at some time. *)
Definition mixture (f : file) (l : list Z) : Prop := forall i b, nth_error l i = Some b -> exists k, nth_error (f k) i = Some b.
