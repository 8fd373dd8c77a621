(** C string literals as byte lists. *)
From Coq Require Import String Ascii.
From Verif Require Import Base.
Definition cstr (s : string) : list Z :=
  map (fun c => Z.of_N (N_of_ascii c)) (list_ascii_of_string s).
