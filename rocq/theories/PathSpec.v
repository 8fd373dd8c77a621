(** Specification vocabulary for local paths (C27-C30): components, joining
    with '/', and the meaning of the components of a URI. *)
From Coq Require Import String.
From Verif Require Import Base CString PathBuilder.
Notation length := List.length.

(** A path component: not empty, no '/' and no NUL. *)
Definition component (c : list Z) : Prop := c <> [] /\ ~ In 47 c /\ ~ In 0 c.
Definition DOT : list Z := [46].
Definition DOTDOT : list Z := [46; 46].
(** A component that names a child of its directory. *)
Definition plain (c : list Z) : Prop := component c /\ c <> DOT /\ c <> DOTDOT.

Fixpoint join (l : list (list Z)) : list Z :=
  match l with
  | [] => []
  | [x] => x
  | x :: t => x ++ [47] ++ join t
  end.

(** Splitting at every '/': "a//b" is ["a"; ""; "b"]. *)
Inductive split_at : list Z -> list (list Z) -> Prop :=
| sp_last s : ~ In 47 s -> split_at s [s]
| sp_cons a s l : ~ In 47 a -> split_at s l -> split_at (a ++ 47 :: s) (a :: l).

(** Following components below a directory: empty ones and "." stay, ".." goes
    up (not above the start), others go down. *)
Inductive walk : list (list Z) -> list (list Z) -> list (list Z) -> Prop :=
| w_nil d : walk d [] d
| w_stay d c cs r : c = [] \/ c = DOT -> walk d cs r -> walk d (c :: cs) r
| w_up d x cs r : walk d cs r -> walk (d ++ [x]) (DOTDOT :: cs) r
| w_down d c cs r : c <> [] -> c <> DOT -> c <> DOTDOT -> walk (d ++ [c]) cs r -> walk d (c :: cs) r.

(** What the text after "scheme://" names, relative to the directory of the
    scheme: the domain [dom] (at most one component), then [path] inside it. *)
Definition names (text : list Z) (dom path : list (list Z)) : Prop :=
  text <> [] /\ exists d cs, split_at text (d :: cs) /\ d <> DOT /\ d <> DOTDOT /\
    dom = (match d with [] => [] | _ => [d] end) /\ walk [] cs path.

(** The non-empty ones of a list of strings. *)
Definition nonempty (l : list (list Z)) : list (list Z) :=
  filter (fun s => match s with [] => false | _ => true end) l.
Definition opt (o : option (list Z)) : list Z := match o with Some s => s | None => [] end.

(** The directory of the cache a scheme's files go to. *)
Definition base (repository : list Z) (tal : option (list Z)) (scheme : list Z) : list (list Z) :=
  nonempty [repository; opt tal; scheme].

(** RFC 6486bis 4.2.2: the names a manifest may list. *)
Definition mft_char (c : Z) : Prop :=
  97 <= c <= 122 \/ 65 <= c <= 90 \/ 48 <= c <= 57 \/ c = 45 \/ c = 95.
Definition mft_name (s : list Z) : Prop :=
  exists stem ext, s = stem ++ [46] ++ ext /\ stem <> [] /\ length ext = 3%nat /\
    Forall mft_char stem /\ Forall mft_char ext.

(** Where a URI's file goes, relative to <repository>/<tal>: its scheme, then
    what it names; a file of an RRDP repository goes below what the repository's
    notification names. *)
Inductive place : uri_type -> option (list Z) -> list Z -> list (list Z) -> Prop :=
| pl_rsync n text dom path : names text dom path ->
    place UT_RSYNC n (cstr "rsync://" ++ text) (cstr "rsync" :: dom ++ path)
| pl_https n text dom path : names text dom path ->
    place UT_HTTPS n (cstr "https://" ++ text) (cstr "https" :: dom ++ path)
| pl_root nt nd np : names nt nd np ->
    place UT_CAGED (Some (cstr "https://" ++ nt)) [] (cstr "rrdp" :: nd ++ np)
| pl_caged nt nd np text dom path : names nt nd np -> names text dom path ->
    place UT_CAGED (Some (cstr "https://" ++ nt)) (cstr "rsync://" ++ text) (cstr "rrdp" :: (nd ++ np) ++ dom ++ path).

(** Removing the last component of a string. *)
Inductive popped : list Z -> list Z -> Prop :=
| po_slash a x : a <> [] -> ~ In 47 x -> popped (a ++ 47 :: x) a
| po_root x : x <> [] -> ~ In 47 x -> popped (47 :: x) [47]
| po_all x : x <> [] -> ~ In 47 x -> popped x [].

(** Hexadecimal text: upper case, without leading zeros. *)
Definition hex_digit_of (c d : Z) : Prop := (48 <= c <= 57 /\ d = c - 48) \/ (65 <= c <= 70 /\ d = c - 55).
Inductive hex_text : list Z -> Z -> Prop :=
| ht_one c d : hex_digit_of c d -> hex_text [c] d
| ht_snoc s v c d : hex_text s v -> v <> 0 -> hex_digit_of c d -> hex_text (s ++ [c]) (16 * v + d).

(** The operations on a path under construction, and what they mean for its
    text.  A path takes at most 4095 bytes (and a NUL). *)
Inductive pb_op := OpAppend (s : option (list Z)) | OpHex (n : Z) | OpPop.
Inductive op_step : list Z -> pb_op -> res (list Z) -> Prop :=
| os_null s : op_step s (OpAppend None) (Ok s)
| os_empty s : op_step s (OpAppend (Some [])) (Ok s)
| os_first x : x <> [] -> (length x <= 4095)%nat -> op_step [] (OpAppend (Some x)) (Ok x)
| os_next s x : s <> [] -> x <> [] -> (length s + 1 + length x <= 4095)%nat ->
    op_step s (OpAppend (Some x)) (Ok (s ++ [47] ++ x))
| os_first_long x : (4095 < length x)%nat -> op_step [] (OpAppend (Some x)) (Err ENOSPC)
| os_next_long s x : s <> [] -> x <> [] -> (4095 < length s + 1 + length x)%nat -> op_step s (OpAppend (Some x)) (Err ENOSPC)
| os_hex s n x r : hex_text x n -> op_step s (OpAppend (Some x)) r -> op_step s (OpHex n) r
| os_pop s s' : popped s s' -> op_step s OpPop (Ok s')
| os_pop_none s : s = [] \/ s = [47] -> op_step s OpPop (Err EINVAL).
Inductive op_steps : list Z -> list pb_op -> res (list Z) -> Prop :=
| oss_nil s : op_steps s [] (Ok s)
| oss_ok s o s' os r : op_step s o (Ok s') -> op_steps s' os r -> op_steps s (o :: os) r
| oss_err s o e os : op_step s o (Err e) -> op_steps s (o :: os) (Err e).

(** The functions the operations stand for. *)
Section Junk.
  Variable J : Z.
  Definition apply_op (pb : pbuilder) (o : pb_op) : res pbuilder :=
    match o with OpAppend s => pb_append J pb s | OpHex n => pb_append_u32 J pb n | OpPop => pb_pop pb false end.
  Fixpoint apply_ops (pb : pbuilder) (os : list pb_op) : res pbuilder :=
    match os with [] => Ok pb | o :: t => bind (apply_op pb o) (fun pb => apply_ops pb t) end.
  Definition op_ok (o : pb_op) : Prop :=
    match o with OpAppend (Some s) => ~ In 0 s | OpHex n => is_u32 n | _ => True end.
End Junk.
