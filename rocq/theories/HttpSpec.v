(** Specification vocabulary for C84. *)
From Verif Require Import Base Http.
Notation length := List.length.

(** The document the server sent. *)
Definition body (a : attempt) : list Z := concat (at_chunks a).
(** fwrite() and fopen() don't return nonsense, and an answer "not modified" brings no document. *)
Definition sane (a : attempt) : Prop :=
  (forall i c, nth_error (at_chunks a) i = Some c -> 0 <= at_fwrite a i <= Z.of_nat (length c)) /\
  0 <= at_open a /\ (at_code a = 304 -> at_chunks a = []).
(** What fclose() didn't complain about is in the file. *)
Definition flushed (a : attempt) : Prop := (length (body a) <= at_flush a)%nat.

(** The server's answer was transferred completely, as far as libcurl knows, and all of it could be written. *)
Definition transferred (a : attempt) : Prop :=
  at_init a = true /\ at_getinfo a = true /\ at_res a = 0 /\
  (at_chunks a <> [] -> at_open a = 0) /\ forall i c, nth_error (at_chunks a) i = Some c -> at_fwrite a i = Z.of_nat (length c).
(** The answer has a document FORT takes. *)
Definition fresh (max : Z) (a : attempt) : Prop :=
  transferred a /\ at_code a < 400 /\ at_code a <> 204 /\ at_code a <> 304 /\ Z.of_nat (length (body a)) <= max.
(** The answer: what you have is up to date. *)
Definition unchanged (a : attempt) : Prop := transferred a /\ at_code a = 304.
(** Trouble that may go away: the name can't be resolved, time out, 408 Request Timeout, 429 Too Many Requests, any 5xx.  (22:
    CURLE_HTTP_RETURNED_ERROR, because of CURLOPT_FAILONERROR.) *)
Definition temporary (max : Z) (a : attempt) : Prop :=
  at_init a = true /\ at_getinfo a = true /\ at_open a = 0 /\ (forall i c, nth_error (at_chunks a) i = Some c -> at_fwrite a i = Z.of_nat (length c)) /\
  Z.of_nat (length (body a)) <= max /\
  (In (at_res a) [28; 6; 5] \/ In (at_res a) [0; 22] /\ (at_code a = 408 \/ at_code a = 429 \/ 500 <= at_code a < 600)).
(** The [k]th answer (from 0) is the first one that says something, and it has a document. *)
Definition taken (max : Z) (retries : nat) (srv : nat -> attempt) (k : nat) : Prop :=
  (k <= retries)%nat /\ fresh max (srv k) /\ forall i, (i < k)%nat -> ~ fresh max (srv i) /\ ~ unchanged (srv i).
(** The date sent to the server: the file's, if there is one. *)
Definition since (w : world) (f : fs) (final : path) : Z := match f final with Some _ => w_mtime w | None => 0 end.
