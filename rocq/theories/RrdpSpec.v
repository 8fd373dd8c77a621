(** Specification vocabulary for RRDP (C31-C34), in the terms of RFC 8182. *)
From Coq Require Import String Permutation.
From Verif Require Import Base CString CLib PathBuilder Rrdp.
Notation length := List.length.

(** ** Hashes as text: two hexadecimal digits per byte. *)
Definition hexval (c v : Z) : Prop :=
  (48 <= c <= 57 /\ v = c - 48) \/ (97 <= c <= 102 /\ v = c - 87) \/ (65 <= c <= 70 /\ v = c - 55).
Inductive hex_bytes : list Z -> list Z -> Prop :=
| hb_nil : hex_bytes [] []
| hb_cons c1 c2 v1 v2 s bs : hexval c1 v1 -> hexval c2 v2 -> hex_bytes s bs ->
    hex_bytes (c1 :: c2 :: s) (16 * v1 + v2 :: bs).

(** ** [from], [from+1], ... ([n] numbers). *)
Fixpoint zseq (from : Z) (n : nat) : list Z :=
  match n with O => [] | S n' => from :: zseq (from + 1) n' end.
(** The serials of [ds] are, in order, the [length ds] ones up to [last]. *)
Definition ends_at (last : Z) (ds : list ndelta) : Prop :=
  map nd_serial ds = zseq (last - Z.of_nat (length ds) + 1) (length ds).

(** ** What a snapshot or a delta says. *)
Inductive element :=
| Publish (uri : list Z) (replaces : option (list Z)) (content : list Z)
| Withdraw (uri hash : list Z).

(** A repository's files, by local path. *)
Definition files := list Z -> option (list Z).
Definition same_files (a b : files) : Prop := forall p, a p = b p.
Definition put (p : list Z) (c : option (list Z)) (fs fs' : files) : Prop :=
  fs' p = c /\ forall q, q <> p -> fs' q = fs q.

(** RFC 8182 3.3.2, 3.4.2: each element in turn; an element that names the hash
    of the object it replaces or withdraws needs an object with that hash.
    [loc u p]: the object [u] is stored at [p]; [sha256]: the hash. *)
Inductive effect (loc : list Z -> list Z -> Prop) (sha256 : list Z -> list Z) : files -> list element -> files -> Prop :=
| ef_nil fs fs' : same_files fs fs' -> effect loc sha256 fs [] fs'
| ef_publish fs u p c fs1 l fs' : loc u p -> put p (Some c) fs fs1 -> effect loc sha256 fs1 l fs' ->
    effect loc sha256 fs (Publish u None c :: l) fs'
| ef_replace fs u p h old c fs1 l fs' : loc u p -> fs p = Some old -> sha256 old = h ->
    put p (Some c) fs fs1 -> effect loc sha256 fs1 l fs' ->
    effect loc sha256 fs (Publish u (Some h) c :: l) fs'
| ef_withdraw fs u p h old fs1 l fs' : loc u p -> fs p = Some old -> sha256 old = h ->
    put p None fs fs1 -> effect loc sha256 fs1 l fs' ->
    effect loc sha256 fs (Withdraw u h :: l) fs'.

(** ** Documents.  The nodes of a valid document that says [l]: text and end
    tags between the elements, one root element with the given session and
    serial. *)
Definition root_of (n : node) (tag : list Z) (s : session) : Prop :=
  n_type n = NElement /\ n_name n = tag /\ parse_session n = Ok s.
Definition publish_of (base64 : list Z -> option (list Z)) (n t : node) (u c : list Z) : Prop :=
  n_type n = NElement /\ n_name n = cstr "publish" /\ attr n (cstr "uri") = Some u /\
  exists text, n_value t = Some text /\ base64 text = Some c.
Inductive says (base64 : list Z -> option (list Z)) (tag : list Z) (s : session) (with_hashes : bool)
  : list node -> list element -> Prop :=
| sy_nil : says base64 tag s with_hashes [] []
| sy_skip n ns l : n_valid n = true -> n_type n <> NElement -> says base64 tag s with_hashes ns l ->
    says base64 tag s with_hashes (n :: ns) l
| sy_root n ns l : n_valid n = true -> root_of n tag s -> says base64 tag s with_hashes ns l ->
    says base64 tag s with_hashes (n :: ns) l
| sy_publish n t ns l u c : n_valid n = true -> publish_of base64 n t u c ->
    with_hashes = false \/ attr n (cstr "hash") = None ->
    says base64 tag s with_hashes ns l -> says base64 tag s with_hashes (n :: t :: ns) (Publish u None c :: l)
| sy_replace n t ns l u c x h : n_valid n = true -> publish_of base64 n t u c ->
    with_hashes = true -> attr n (cstr "hash") = Some x -> hex_bytes x h -> length h = 32%nat ->
    says base64 tag s with_hashes ns l -> says base64 tag s with_hashes (n :: t :: ns) (Publish u (Some h) c :: l)
| sy_withdraw n ns l u x h : n_valid n = true -> with_hashes = true ->
    n_type n = NElement -> n_name n = cstr "withdraw" -> attr n (cstr "uri") = Some u ->
    attr n (cstr "hash") = Some x -> hex_bytes x h -> length h = 32%nat ->
    says base64 tag s with_hashes ns l -> says base64 tag s with_hashes (n :: ns) (Withdraw u h :: l).

(** ** Notifications. *)
(** The schema of src/xml/relax_ng.h:9-140, for the documents rooted at
    "notification": other nodes, the root, in which there are snapshot and delta
    elements (at least one snapshot), its end, other nodes. *)
Definition notification_shape (nodes : list node) : Prop :=
  exists pre root body fin post, nodes = pre ++ root :: body ++ fin :: post /\
    Forall (fun n => n_type n = NOther) (pre ++ post) /\
    n_type root = NElement /\ n_name root = cstr "notification" /\
    n_type fin = NEndElement /\ n_name fin = cstr "notification" /\
    Forall (fun n => n_type n = NOther \/ n_name n = cstr "snapshot" \/ n_name n = cstr "delta") body /\
    Exists (fun n => n_type n = NElement /\ n_name n = cstr "snapshot") body.
(** The root of the other two kinds of documents has no "uri". *)
Definition other_shape (nodes : list node) : Prop :=
  exists pre root rest, nodes = pre ++ root :: rest /\ Forall (fun n => n_type n = NOther) pre /\
    n_type root = NElement /\ (n_name root = cstr "snapshot" \/ n_name root = cstr "delta") /\ attr root (cstr "uri") = None.
(** libxml2 enforces the schema (and fits in memory). *)
Definition follows_schema (d : xdoc) : Prop :=
  Z.of_nat (length (d_nodes d)) <= ULONG_MAX /\
  (d_ok d = true -> Forall (fun n => n_valid n = true) (d_nodes d) ->
   notification_shape (d_nodes d) \/ other_shape (d_nodes d)).

(** ** The server.  [state id n]: its files in session [id] at serial [n], by the
    local path they belong to.  A notification is honest if whatever has the hash
    it announces for the snapshot (a delta) yields the current files (the files at
    that delta's serial, from those at the serial before). *)
Definition honest (loc : list Z -> list Z -> Prop) (sha256 : list Z -> list Z) (xml : list Z -> xdoc)
    (base64 : list Z -> option (list Z)) (state : list Z -> Z -> files) (nl : list Z) (nt : notification) : Prop :=
  forall s snap, nt_session nt = Some s -> nt_snapshot nt = Some snap ->
    u_local (m_uri snap) <> nl /\
    (forall b l fs', m_hash snap = Some (sha256 b) -> says base64 (cstr "snapshot") s false (d_nodes (xml b)) l ->
       effect loc sha256 (fun _ => None) l fs' -> same_files fs' (state (s_id s) (s_serial s))) /\
    (forall d, In d (nt_deltas nt) -> u_local (m_uri (nd_meta d)) <> nl /\
       forall b l fs fs', m_hash (nd_meta d) = Some (sha256 b) ->
         says base64 (cstr "delta") {| s_id := s_id s; s_serial := nd_serial d |} true (d_nodes (xml b)) l ->
         same_files fs (state (s_id s) (nd_serial d - 1)) -> effect loc sha256 fs l fs' ->
         same_files fs' (state (s_id s) (nd_serial d))).
