(** Specification vocabulary for C104. *)
From Coq Require Import String.
From Verif Require Import Base CString Http HttpSpec Init.
Notation length := List.length.
Open Scope list_scope.
Open Scope Z_scope.

(** The TALs of the five registries, and the AS0 TALs: where they are published, and what FORT calls them. *)
Definition core : list (string * string) :=
  [("https://rpki.afrinic.net/tal/afrinic.tal", "afrinic.tal"); ("https://tal.apnic.net/tal-archive/apnic-rfc7730-https.tal", "apnic.tal");
   ("https://www.arin.net/resources/manage/rpki/arin.tal", "arin.tal"); ("https://www.lacnic.net/innovaportal/file/4983/1/lacnic.tal", "lacnic.tal");
   ("https://tal.rpki.ripe.net/ripe-ncc.tal", "ripe-ncc.tal")]%string.
Definition as0 : list (string * string) :=
  [("https://tal.apnic.net/tal-archive/apnic-as0-rfc7730-https.tal", "apnic-as0.tal"); ("https://www.lacnic.net/innovaportal/file/4983/1/lacnic-as0.tal", "lacnic-as0.tal")]%string.
Definition wanted (tals tal0s : bool) : list (string * string) := (if tals then core else []) ++ (if tal0s then as0 else []).
Definition url (x : string * string) : list Z := cstr (fst x).
(** A file of the directory --tal names. *)
Definition file (tal : list Z) (x : string * string) : path := tal ++ cstr "/" ++ cstr (snd x).
(** PATH_MAX counts the NUL. *)
Definition short (p : path) : Prop := (length p < 4096)%nat.

(** The server answered with a document that isn't too long, all of which could be given to the file system; or it said "not modified". *)
Definition success (max : Z) (a : attempt) : Prop :=
  at_init a = true /\ at_getinfo a = true /\ at_res a = 0 /\ at_code a < 400 /\ at_code a <> 204 /\
  Z.of_nat (length (body a)) <= max /\ (body a <> [] -> at_open a = 0) /\
  forall i c, nth_error (at_chunks a) i = Some c -> at_fwrite a i = Z.of_nat (length c).
(** What was there, and what is there now, after a success: the document (as far as fclose() got it to the disk).  No document: nothing changes, or the file is empty. *)
Definition arrived (a : attempt) (before after : option (list Z)) : Prop :=
  (body a <> [] -> after = Some (firstn (at_flush a) (body a))) /\ (body a = [] -> after = before \/ after = Some []).
(** errno of the message, and exit status: invalid, try again, too big. *)
Definition failures : list (Z * Z) := [(22, 234); (11, 11); (27, 229)].
