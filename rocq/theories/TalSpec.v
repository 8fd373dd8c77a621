(** Specification vocabulary for Trust Anchor Locators (C43, C44, C58). *)
From Coq Require Import String.
From Verif Require Import Base CString CLib PathBuilder Types HashSet DbTable Tal.
Notation length := List.length.

(** A line of text, with what ends it: CRLF, or LF (not after a CR). *)
Definition line_of (raw text : list Z) : Prop :=
  ~ In 10 text /\ ~ In 0 text /\ (raw = text ++ [13; 10] \/ (raw = text ++ [10] /\ forall t, text <> t ++ [13])).
Definition comment (text : list Z) : Prop := exists t, text = 35 :: t.

(** RFC 8630: comments, URIs (one at least), an empty line, and the key. *)
Definition tal_text (comments uris : list (list Z)) (body f : list Z) : Prop :=
  exists rc ru blank, f = concat rc ++ concat ru ++ blank ++ body /\
    Forall2 line_of rc comments /\ Forall2 line_of ru uris /\ line_of blank [] /\
    Forall comment comments /\ Forall (fun u => u <> []) uris /\
    match uris with [] => False | u :: _ => ~ comment u end.

(** The characters that matter to the key. *)
Definition no_newlines (s : list Z) : list Z := filter (fun c => negb (c =? 10)) s.

(** The union of tables. *)
Definition union_of (dbs : list db_table) (db : db_table) : Prop :=
  (forall v, In v (t_roas db) <-> exists d, In d dbs /\ In v (t_roas d)) /\
  (forall k, In k (t_rks db) <-> exists d, In d dbs /\ In k (t_rks d)).

(** A file of extension ".tal": that's what its name ends with (and there's nothing
    else to it than it ends so). *)
Definition tal_name (s : list Z) : Prop := exists p, s = p ++ cstr ".tal".
