(** Specification vocabulary for the local cache (C35-C37, C56, C57). *)
From Coq Require Import String.
From Verif Require Import Base CString PathBuilder PathSpec Rrdp LocalCache.
Notation length := List.length.

(** ** A run: requests, one after the other, each with its result. *)
Section Run.
  Variable J : Z.
  Variable repository : list Z.
  Variables (rsync_enabled http_enabled : bool).
  Variable E : cenv.
  Inductive requests : list curi -> cache * cworld -> list Z -> cache * cworld -> Prop :=
  | rq_nil s : requests [] s [] s
  | rq_cons u us s r s1 rs s' : cache_download J repository rsync_enabled http_enabled E u s = Ok (s1, r) ->
      requests us s1 rs s' -> requests (u :: us) s (r :: rs) s'.

  (** A URL as the URI constructors make it: of a protocol, and stored where
      the TAL's URL of that text is stored. *)
  Definition url_ok (tal : list Z) (u : curi) : Prop :=
    c_type u <> UT_CAGED /\ uri_create J repository (Some tal) (c_type u) None (c_global u) = Ok (c_uri u).
  (** An index whose nodes are such URLs, one per local path. *)
  Definition index_ok (tal : list Z) (ht : list cnode) : Prop :=
    Forall (fun n => url_ok tal (cn_url n)) ht /\ NoDup (map cn_key ht).
End Run.

(** ** Alternatives *)

(** The order in which they are tried. *)
Definition of_type (t : uri_type) (l : list curi) : list curi := filter (fun u => type_eqb (c_type u) t) l.
Definition preference (http_priority rsync_priority : Z) (l : list curi) : list curi :=
  match Z.compare http_priority rsync_priority with
  | Gt => of_type UT_HTTPS l ++ of_type UT_RSYNC l
  | Lt => of_type UT_RSYNC l ++ of_type UT_HTTPS l
  | Eq => l
  end.
(** Trying each in turn: [update] then, if it succeeds, [use]; until one is used
    without a positive result.  [None]: all failed. *)
Section Trying.
  Variable S : Type.
  Variables update use : curi -> S -> res (S * Z).
  Inductive tried : list curi -> S -> S -> option Z -> Prop :=
  | tr_none s : tried [] s s None
  | tr_fail u l s e s1 s' r : update u s = Ok (s1, e) -> e <> 0 -> tried l s1 s' r -> tried (u :: l) s s' r
  | tr_unused u l s s1 e s2 s' r : update u s = Ok (s1, 0) -> use u s1 = Ok (s2, e) -> 0 < e -> tried l s2 s' r -> tried (u :: l) s s' r
  | tr_used u l s s1 e s2 : update u s = Ok (s1, 0) -> use u s1 = Ok (s2, e) -> e <= 0 -> tried (u :: l) s s2 (Some e).
End Trying.
Arguments tried {S} update use _ _ _ _.

(** What updating an alternative is: RRDP for https if RRDP is meant to be used,
    and otherwise the plain download of the URI. *)
Definition updating {C D : Type} (use_rrdp : bool) (rrdp : curi -> C * D -> res ((C * D) * Z)) (plain : curi -> C -> res (C * Z))
    (u : curi) (s : C * D) : res ((C * D) * Z) :=
  match c_type u, use_rrdp with
  | UT_HTTPS, true => rrdp u s
  | _, _ => match plain u (fst s) with Ok (c, e) => Ok ((c, snd s), e) | Err e => Err e | UB => UB end
  end.

(** Which cached alternative is better: whose last attempt succeeded, then whose
    last success is later. *)
Definition better (a b : cnode) : Prop :=
  (cn_result a = 0 /\ cn_result b <> 0) \/ ((cn_result a = 0 <-> cn_result b = 0) /\ cn_sts b < cn_sts a).
(** [u] was once downloaded successfully, according to [n]. *)
Definition cached_as (J : Z) (repository : list Z) (c : cache) (u : curi) (n : cnode) : Prop :=
  exists url, get_url J repository u (ca_tal c) = Ok url /\ In n (ca_ht c) /\ cn_key n = c_local url /\ cn_happened n = true.
Definition best_cached (J : Z) (repository : list Z) (c : cache) (l : list curi) (u : curi) : Prop :=
  In u l /\ exists n, cached_as J repository c u n /\ forall u' n', In u' l -> cached_as J repository c u' n' -> ~ better n' n.

(** ** Cleanup *)

(** [a] is an ancestor directory of [b]. *)
Definition above (a b : list Z) : Prop := exists t, b = a ++ 47 :: t.
Definition related (a b : list Z) : Prop := a = b \/ above a b \/ above b a.
(** The paths a node stands for: its own and, for an RRDP notification, its
    repository's directory. *)
Definition node_path (J : Z) (repository tal : list Z) (n : cnode) (p : list Z) : Prop :=
  p = cn_key n \/ (c_notif (cn_url n) = true /\ cage_of J repository tal (cn_url n) = Ok p).
Definition tal_json (repository tal : list Z) : list Z := join (nonempty [repository; tal; cstr "tal.json"]).
