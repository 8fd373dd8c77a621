(** RFC 8182 section 3.5: a <publish> element's text is the base64 of the object, with any white
    space in it. *)
From Coq Require Import ZArith List Bool Lia.
From Verif Require Import Base NtopSpec Publish.
From Verif Require TextSpec.
Import ListNotations.
Open Scope Z_scope.

Definition blank (c : Z) : bool := existsb (Z.eqb c) [32; 9; 10; 11; 12; 13].
Definition printed (s : list Z) : list Z := filter (fun c => negb (blank c)) s.
(** The text from its first character that isn't a blank. *)
Inductive starts_at : list Z -> list Z -> Prop :=
| st_here c t : blank c = false -> starts_at (c :: t) (c :: t)
| st_skip c t s : blank c = true -> starts_at t s -> starts_at (c :: t) s.

Definition ascii (s : list Z) : Prop := Forall (fun c => 0 < c < 128) s.
Definition lines_within (n : nat) (s : list Z) : Prop := Forall (fun l => (length l <= n)%nat) (split 10 s).

(** Base 64 (RFC 4648 section 4). *)
Definition encoding : list Z -> list Z := TextSpec.base64.

(** A decoder that copes with white space, as long as the lines are not longer than [n]. *)
Definition decodes (n : nat) (decode : list Z -> bio) : Prop :=
  forall s c, ascii s -> Forall is_byte c -> lines_within n s -> printed s = encoding c ->
    bio_data (decode s) = c /\ bio_error (decode s) = false.
