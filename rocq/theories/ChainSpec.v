(** C101: which certificates are acceptable (RFC 6487 7.2, RFC 5280 6). *)
From Coq Require Import ZArith List.
From Verif Require Import Manifest Chain.
Import ListNotations.
Open Scope Z_scope.

(** libcrypto finds nothing wrong with the path, except for the critical extensions it doesn't know (RFC
    3779's), which are validated elsewhere. *)
Definition path_fine (s : subject) : Prop :=
  forall e, In (Some e) (path_extensions s) \/ In (Some e) (path_signatures s) -> e = 34.
(** The CRL is the issuer's, and doesn't have the certificate. *)
Definition not_revoked (c : crl) (s : subject) : Prop :=
  issued c = true /\ authentic c = true /\ ~ In (serial s) (revoked c).
(** Its dates. *)
Definition begun (c : crl) (t : Z) : Prop := lastUpdate c <= t.
Definition stale_at (c : crl) (t : Z) : Prop := exists n, nextUpdate c = Some n /\ n <= t.
(** Nothing fails for lack of memory. *)
Definition memory (S : surroundings) : Prop :=
  (forall k, ctx_new S k = true) /\ (forall k, ctx_init S k = true) /\ (exists t, now S = inr t) /\ adj S = true /\ dup S = true /\ set1 S = true /\
  (forall k, push S k = true).
