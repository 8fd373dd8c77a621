(** What it means for bytes to be a BER encoding of a value of an ASN.1 type
    (X.690), in the dialect the decoder speaks.  Uses the types and values of
    Asn1Dec.v (they are the ASN.1 definitions as data), and nothing of the
    decoder. *)
From Verif Require Import Base BerSpec.
From Verif Require Import Asn1Dec.

(** Identifier and length octets.  [e] is the tag, as number * 4 + class
    ([None]: any tag); [len] is the length ([None]: indefinite). *)
Definition hdr (e : option Z) (constructed : bool) (len : option Z) (h : list Z) : Prop :=
  exists T L cl num, h = T ++ L /\ tag_octets T cl constructed num /\ tag_fits num
    /\ (forall t, e = Some t -> num * 4 + cl = t)
    /\ accepted_length constructed L len /\ length_fits len.

(** The encoding starts with the tag [t]. *)
Definition leading (t : Z) (bs : list Z) : Prop :=
  exists T cl c num X, bs = T ++ X /\ tag_octets T cl c num /\ tag_fits num /\ num * 4 + cl = t.

(** A chain of nested headers of definite length, the contents of the innermost
    being [len] bytes: each one's contents are exactly the next one. *)
Inductive dchain : list (option Z) -> bool -> Z -> list Z -> Prop :=
| dchain_last e c len h : hdr e c (Some len) h -> dchain [e] c len h
| dchain_more e es c len h p : hdr e true (Some (Z.of_nat (length p) + len)) h ->
    dchain es c len p -> dchain (e :: es) c len (h ++ p).

(** The same, all of indefinite length. *)
Inductive ichain : list (option Z) -> list Z -> Prop :=
| ichain_last e h : hdr e true None h -> ichain [e] h
| ichain_more e es h p : hdr e true None h -> ichain es p -> ichain (e :: es) (h ++ p).

(** The end-of-contents octets of [n] nested values. *)
Fixpoint eocs (n : nat) : list Z := match n with O => [] | S n' => 0 :: 0 :: eocs n' end.

(** [whole] is [body] wrapped in the headers [es]; [indef] says which kind. *)
Inductive framed (es : list (option Z)) (c : bool) : bool -> list Z -> list Z -> Prop :=
| framed_definite p body : dchain es c (Z.of_nat (length body)) p -> framed es c false body (p ++ body)
| framed_indefinite p body : c = true -> ichain es p -> framed es c true body (p ++ body ++ eocs (length es)).

(** The headers of a value of a type with the given tags: [mode] is 0 (as is),
    1 (one EXPLICIT tag around) or -1 (IMPLICIT: the first tag is replaced).
    The tag the context added is checked by the context. *)
Definition chain (tags : list Z) (mode : Z) : list (option Z) :=
  if mode =? 1 then None :: map Some tags
  else match tags with
       | [] => [None]
       | t :: tags' => (if mode =? 0 then Some t else None) :: map Some tags'
       end.

(** X.690 8.7.3: the segments of a constructed string, and the contents of
    the primitive ones.  [tg] is the tag at each depth ([None]: any).  In an
    indefinite-length value no segment looks like the end of it. *)
Inductive segment (tg : nat -> option Z) : nat -> list Z -> list (list Z) -> Prop :=
| seg_primitive d h body : hdr (tg d) false (Some (Z.of_nat (length body))) h -> segment tg d (h ++ body) [body]
| seg_constructed d indef body whole cs : framed [tg d] true indef body whole ->
    segments tg indef (S d) body cs -> segment tg d whole cs
with segments (tg : nat -> option Z) : bool -> nat -> list Z -> list (list Z) -> Prop :=
| segs_nil indef d : segments tg indef d [] []
| segs_cons indef d s ss cs cs' : segment tg d s cs -> (indef = true -> firstn 2 s <> [0; 0]) ->
    segments tg indef d ss cs' -> segments tg indef d (s ++ ss) (cs ++ cs').

(** A constructed string: its outermost header, whatever its tag, and its
    segments. *)
Definition constructed_string (tg : nat -> option Z) (whole inner : list Z) (cs : list (list Z)) : Prop :=
  exists indef, framed [None] true indef inner whole /\ segments tg indef 0 inner cs.

(** The headers [es] at the beginning of [whole] are consistent. *)
Definition opens (es : list (option Z)) (whole : list Z) : Prop :=
  (exists p body, whole = p ++ body /\ dchain es true (Z.of_nat (length body)) p)
  \/ (exists p rest, whole = p ++ rest /\ ichain es p).

(** The tags of the segments of a string type, by depth. *)
Definition segment_tags (all_tags : list Z) (d : nat) : option Z :=
  match nth_error all_tags d with
  | Some t => Some t
  | None => match all_tags with [] => None | t :: _ => Some (last all_tags t) end
  end.

(** The contents of a BIT STRING, segment by segment: the first byte of each
    tells the number of unused bits; the last one counts. *)
Definition bits_of (cs : list (list Z)) : list Z := concat (map (@tl Z) cs).
Definition unused_of (cs : list (list Z)) : Z :=
  fold_left (fun u c => match c with [] => u | u' :: _ => u' end) cs 0.

(** The bit string with these bytes and unused bits: [v] has the same bytes,
    but the unused bits of the last one are zero. *)
Inductive bit_string : list Z -> Z -> list Z -> Prop :=
| bits_empty : bit_string [] 0 []
| bits_some bs b u : 0 <= u <= 7 -> bit_string (bs ++ [b]) u (bs ++ [b / 2 ^ u * 2 ^ u]).

Definition small (bs : list Z) : Prop := Z.of_nat (length bs) < 1073741824.

(** A BOOLEAN is false iff all its bytes are zero. *)
Inductive boolean : list Z -> Z -> Prop :=
| bool_false bs : Forall (fun b => b = 0) bs -> boolean bs 0
| bool_true bs b bs' : Forall (fun b => b = 0) bs -> b <> 0 -> boolean (bs ++ b :: bs') b.

(** A member: its leading tag, when known in advance. *)
Definition starts (mtag : option Z) (b : list Z) : Prop := forall t, mtag = Some t -> leading t b.

(** The encodings of a type. *)
Inductive enc : ty -> Z -> list Z -> value -> Prop :=
| enc_prim tags mode p body : dchain (chain tags mode) false (Z.of_nat (length body)) p ->
    enc (TPrim tags) mode (p ++ body) (VBytes body)
| enc_null tags mode p : dchain (chain tags mode) false 0 p -> enc (TNull tags) mode p VNull
| enc_bool tags mode p body b : dchain (chain tags mode) false (Z.of_nat (length body)) p -> boolean body b ->
    enc (TBool tags) mode (p ++ body) (VBool b)
| enc_octets tags all mode p body : dchain (chain tags mode) false (Z.of_nat (length body)) p -> small body ->
    enc (TString STR tags all) mode (p ++ body) (VBytes body)
| enc_octets_constructed tags all mode whole inner cs : opens (chain tags mode) whole ->
    constructed_string (segment_tags all) whole inner cs -> small (concat cs) ->
    enc (TString STR tags all) mode whole (VBytes (concat cs))
| enc_bits tags all mode p body v : dchain (chain tags mode) false (Z.of_nat (length body)) p -> small (tl body) ->
    bit_string (tl body) (hd 0 body) v ->
    enc (TString BIT tags all) mode (p ++ body) (VBits v (hd 0 body))
| enc_bits_constructed tags all mode whole inner cs v : opens (chain tags mode) whole ->
    constructed_string (segment_tags all) whole inner cs -> small (bits_of cs) ->
    bit_string (bits_of cs) (unused_of cs) v ->
    enc (TString BIT tags all) mode whole (VBits v (unused_of cs))
| enc_any tags all mode p body : dchain (chain tags mode) false (Z.of_nat (length body)) p ->
    small (if mode =? 1 then body else p ++ body) ->
    enc (TString ANY tags all) mode (p ++ body) (VBytes (if mode =? 1 then body else p ++ body))
| enc_any_constructed tags all mode whole inner cs : opens (chain tags mode) whole ->
    constructed_string (fun _ => None) whole inner cs ->
    small (if mode =? 1 then inner else whole) ->
    enc (TString ANY tags all) mode whole (VBytes (if mode =? 1 then inner else whole))
| enc_seq tags t2e ms mode indef body whole vs : framed (chain tags mode) true indef body whole ->
    enc_members indef ms body vs -> enc (TSeq tags t2e ms) mode whole (VSeq vs)
| enc_of tags etag elem mode indef body whole vs : framed (chain tags mode) true indef body whole ->
    enc_elements indef etag elem body vs -> enc (TOf tags etag elem) mode whole (VOf vs)
| enc_choice t2e ms k mtag md opt any t bs v : nth_error ms k = Some (Member (Some mtag) md opt any t) ->
    leading mtag bs -> enc t md bs v -> enc (TChoice [] t2e ms) 0 bs (VChoice k v)
| enc_choice_tagged tags t2e ms mode k mtag md opt any t c indef body whole v :
    (mode <> 0 \/ tags <> []) -> framed (chain tags mode) c indef body whole ->
    nth_error ms k = Some (Member (Some mtag) md opt any t) ->
    leading mtag body -> enc t md body v -> enc (TChoice tags t2e ms) mode whole (VChoice k v)
with enc_members : bool -> list member -> list Z -> list (option value) -> Prop :=
| members_nil indef : enc_members indef [] [] []
| members_absent indef mtag md opt any t ms bs vs : (0 < opt)%nat -> enc_members indef ms bs vs ->
    enc_members indef (Member mtag md opt any t :: ms) bs (None :: vs)
| members_present indef mtag md opt any t ms b bs v vs : starts mtag b -> enc t md b v ->
    (indef = true -> opt = S (length ms) -> firstn 2 b <> [0; 0]) ->
    enc_members indef ms bs vs ->
    enc_members indef (Member mtag md opt any t :: ms) (b ++ bs) (Some v :: vs)
with enc_elements : bool -> option Z -> ty -> list Z -> list value -> Prop :=
| elements_nil indef etag t : enc_elements indef etag t [] []
| elements_cons indef etag t b bs v vs : starts etag b -> enc t 0 b v ->
    (indef = true -> firstn 2 b <> [0; 0]) ->
    enc_elements indef etag t bs vs -> enc_elements indef etag t (b ++ bs) (v :: vs).

Scheme enc_mut := Induction for enc Sort Prop
  with enc_members_mut := Induction for enc_members Sort Prop
  with enc_elements_mut := Induction for enc_elements Sort Prop.
Combined Scheme enc_mutind from enc_mut, enc_members_mut, enc_elements_mut.
Scheme segment_mut := Induction for segment Sort Prop
  with segments_mut := Induction for segments Sort Prop.
Combined Scheme segment_mutind from segment_mut, segments_mut.

(** ** Well-formed descriptors

    What the tables the ASN.1 compiler generated have to satisfy for the
    decoder to work; checked by computation on every descriptor used. *)

(** The tags an encoding of a member may start with; [None]: any. *)
Definition first_tags (m : member) : option (list Z) :=
  match m with
  | Member (Some t) _ _ _ _ => Some [t]
  | Member None _ _ _ (TChoice [] _ ms) =>
      Some (concat (map (fun m => match m with Member (Some t) _ _ _ _ => [t] | _ => [] end) ms))
  | Member None _ _ _ _ => None
  end.

Definition key (m : member) : option Z * bool := match m with Member t _ _ any _ => (t, any) end.
Definition optional_of (m : member) : nat := match m with Member _ _ o _ _ => o end.

(** For every member [j] steps ahead that may be the next one present, every
    tag it may start with leads to it; and the table knows the tags of the
    members. *)
Definition position_ok (t2e : list (Z * nat)) (edx : nat) (ms : list member) : bool :=
  match ms with
  | [] => true
  | m :: _ =>
      let o := optional_of m in
      (o <=? length ms)%nat && (o <=? 7)%nat &&
      forallb (fun jm => match first_tags (snd jm) with
                         | Some ts =>
                             forallb (fun t => match find_member t2e t edx (map key ms) o with
                                               | Some n => (n =? fst jm)%nat
                                               | None => false
                                               end) ts
                         | None => (fst jm =? 0)%nat && snd (key (snd jm))
                         end)
        (combine (seq 0 (S o)) ms)
      && forallb (fun e => (snd e <? edx)%nat
                           || match nth_error ms (snd e - edx) with
                              | Some m' => match first_tags m' with
                                           | Some ts => existsb (Z.eqb (fst e)) ts
                                           | None => true
                                           end
                              | None => false
                              end) t2e
  end.

(** A member is OPTIONAL iff its count is positive, and the counts go down by
    one to the next mandatory member. *)
Fixpoint members_ok (t2e : list (Z * nat)) (edx : nat) (ms : list member) : bool :=
  match ms with
  | [] => true
  | m :: ms' =>
      position_ok t2e edx ms
      && match optional_of m with
         | O => true
         | S o => match ms' with [] => (o =? 0)%nat | m' :: _ => (optional_of m' =? o)%nat end
         end
      && members_ok t2e (S edx) ms'
  end.

(** The entries of a CHOICE's table are its members' tags. *)
Definition choice_ok (t2e : list (Z * nat)) (ms : list member) : bool :=
  forallb (fun e => match nth_error ms (snd e) with
                    | Some (Member (Some t) _ _ _ _) => t =? fst e
                    | _ => false
                    end) t2e
  && forallb (fun km => match snd km with
                        | Member (Some t) _ _ _ _ =>
                            match choice_search t2e t with Some el => (el =? fst km)%nat | None => false end
                        | _ => false
                        end) (combine (seq 0 (length ms)) ms).

(** A member whose tag is not known is a CHOICE without tags or an ANY; an ANY
    has no tag of its own. *)
Definition member_mode_ok (md : Z) (any : bool) (mtag : option Z) (t : ty) : bool :=
  ((md =? 0) || (md =? 1) || (md =? -1))
  && match t with
     | TString ANY tags _ => (length tags =? 0)%nat && negb (md =? -1)
                             && match mtag with None => any && (md =? 0) | Some _ => (md =? 1) && negb any end
     | TChoice tags _ _ => (length tags =? 0)%nat && negb (md =? -1) && negb any
                           && match mtag with None => md =? 0 | Some _ => md =? 1 end
     | _ => negb any && match mtag with None => false | Some _ => true end
     end.

Fixpoint wf (t : ty) : bool :=
  match t with
  | TPrim tags | TNull tags | TBool tags => negb (length tags =? 0)%nat
  | TString ANY tags _ => (length tags =? 0)%nat
  | TString _ tags all => negb (length tags =? 0)%nat && negb (length all =? 0)%nat
  | TSeq tags t2e ms =>
      negb (length tags =? 0)%nat && members_ok t2e 0 ms
      && forallb (fun m => match m with Member mtag md _ any t' => member_mode_ok md any mtag t' && wf t' end) ms
  | TOf tags etag elem =>
      negb (length tags =? 0)%nat
      && member_mode_ok 0 (match elem with TString ANY _ _ => true | _ => false end) etag elem && wf elem
  | TChoice tags t2e ms =>
      (length tags =? 0)%nat && choice_ok t2e ms
      && forallb (fun m => match m with Member mtag md _ any t' => member_mode_ok md any mtag t' && wf t' end) ms
  end.
