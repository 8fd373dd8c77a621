(** C89: vCards of Ghostbusters records (RFC 6493). *)
From Coq Require Import String.
From Verif Require Import Base CString.
Notation length := List.length.

Definition blank (c : Z) : Prop := c = 32 \/ c = 9.
Definition begins_with (P : Z -> Prop) (t : list Z) : Prop := match t with c :: _ => P c | [] => False end.

(** [reads t l rest]: the text [t] begins with the line [l], and [rest] follows.  A line ends with CR LF; but CR LF followed by a blank is only a fold, that means nothing (RFC 6350, 3.2). *)
Inductive reads : list Z -> list Z -> list Z -> Prop :=
| reads_end rest : ~ begins_with blank rest -> reads (13 :: 10 :: rest) [] rest
| reads_fold b t l rest : blank b -> reads t l rest -> reads (13 :: 10 :: b :: t) l rest
| reads_char c t l rest : ~ (c = 13 /\ begins_with (eq 10) t) -> reads t l rest -> reads (c :: t) (c :: l) rest.
(** All of the text, line by line. *)
Inductive lines_of : list Z -> list (list Z) -> Prop :=
| lines_nil : lines_of [] []
| lines_cons t l rest ls : reads t l rest -> lines_of rest ls -> lines_of t (l :: ls).

(** Letters are the same in either case. *)
Definition lower (c : Z) : Z := if (65 <=? c) && (c <=? 90) then c + 32 else c.
Definition same (a b : list Z) : Prop := map lower a = map lower b.
Definition starts (tag l : list Z) : Prop := exists a b, l = a ++ b /\ same a tag.

Definition names_someone (l : list Z) : Prop := starts (cstr "FN:") l.
Definition tells_how (l : list Z) : Prop := exists tag, In tag [cstr "ORG:"; cstr "ADR;"; cstr "TEL;"; cstr "EMAIL:"; cstr "EMAIL;"]%string /\ starts tag l.
Definition good_vcard (text : list Z) : Prop :=
  exists first version properties last, lines_of text (first :: version :: properties ++ [last]) /\
    same first (cstr "BEGIN:VCARD") /\ same version (cstr "VERSION:4.0") /\ same last (cstr "END:VCARD") /\
    Forall (fun l => names_someone l \/ tells_how l) properties /\ Exists names_someone properties /\ Exists tells_how properties.

(** RFC 6493, 5: the properties FN, ORG, ADR, TEL and EMAIL, as RFC 6350 defines them: a name, maybe parameters that begin with ';', a ':', and a value. *)
Definition property (name l : list Z) : Prop := exists params value, (params = [] \/ exists p, params = 59 :: p) /\ exists n, same n name /\ l = n ++ params ++ 58 :: value.
Definition rfc6493_vcard (text : list Z) : Prop :=
  exists properties, lines_of text (cstr "BEGIN:VCARD" :: cstr "VERSION:4.0" :: properties ++ [cstr "END:VCARD"]) /\
    Forall (fun l => exists n, In n [cstr "FN"; cstr "ORG"; cstr "ADR"; cstr "TEL"; cstr "EMAIL"]%string /\ property n l) properties /\
    Exists (property (cstr "FN")) properties /\
    Exists (fun l => exists n, In n [cstr "ORG"; cstr "ADR"; cstr "TEL"; cstr "EMAIL"]%string /\ property n l) properties.
