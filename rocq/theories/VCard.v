(** Model of src/object/vcard.c: the contents of a Ghostbusters record.

    The buffer of the line is modelled as memory: a list of bytes that may be
    uninitialised ([None]); reading one of those, or reading or writing outside, is
    [UB].  The record itself is a list of bytes.  Not modelled: running out of memory
    (the process ends), the log's messages (but that they print the line, which must be
    a string). *)
From Coq Require Import String.
From Verif Require Import Base CString.
Notation length := List.length.

Definition CR : Z := 13.
Definition LF : Z := 10.

(** src/object/vcard.c:28-35 [struct vcard_line].  [vl_val] has [str.size] elements. *)
Record vcard_line := { vl_val : list (option Z); vl_len : nat; vl_offset : nat }.
(** src/object/vcard.c:37-42 [enum string_analysis]. *)
Inductive string_analysis := SA_COPY_CHARA | SA_LINE_ENDED | SA_SKIP_THREE_CHARAS | SA_ERROR.

Definition read (s : list Z) (pos : nat) : res Z := match nth_error s pos with Some c => Ok c | None => UB end.

(** src/object/vcard.c:48-52 [next_chara]: the position, or NULL. *)
Definition next_chara (s : list Z) (pos : nat) : option nat := if Nat.ltb pos (length s - 1) then Some (pos + 1)%nat else None.

(** src/object/vcard.c:57-94 [analyze_pos]. *)
Definition analyze_pos (s : list Z) (pos : nat) : res string_analysis :=
  bind (read s pos) (fun c =>
  if negb (c =? CR) then Ok SA_COPY_CHARA
  else match next_chara s pos with
       | None => Ok SA_ERROR
       | Some n1 =>
           bind (read s n1) (fun c1 =>
           if negb (c1 =? LF) then Ok SA_COPY_CHARA
           else match next_chara s (pos + 1) with
                | None => Ok SA_LINE_ENDED
                | Some n2 => bind (read s n2) (fun c2 => if (c2 =? 32) || (c2 =? 9) then Ok SA_SKIP_THREE_CHARAS else Ok SA_LINE_ENDED)
                end)
       end).

(** src/object/vcard.c:96-101 [double_line_size]. *)
Definition double_line_size (l : vcard_line) : vcard_line :=
  {| vl_val := vl_val l ++ repeat None (length (vl_val l)); vl_len := vl_len l; vl_offset := vl_offset l |}.
(** src/object/vcard.c:103-112 [add_chara]. *)
Definition add_chara (l : vcard_line) (c : Z) (inc : bool) : res vcard_line :=
  let l := if Nat.eqb (vl_len l + 1) (length (vl_val l)) then double_line_size l else l in
  if Nat.ltb (vl_len l) (length (vl_val l))
  then Ok {| vl_val := upd (vl_val l) (vl_len l) (Some c); vl_len := (if inc then vl_len l + 1 else vl_len l)%nat; vl_offset := vl_offset l |}
  else UB.

(** src/object/vcard.c:120-155 [line_next]: its loop, at most [fuel] times; and itself. *)
Fixpoint line_loop (fuel : nat) (s : list Z) (pos : nat) (l : vcard_line) : res vcard_line :=
  if Nat.ltb pos (length s) then
    match fuel with
    | O => UB
    | S fuel =>
        bind (analyze_pos s pos) (fun a =>
        match a with
        | SA_COPY_CHARA => bind (read s pos) (fun c => bind (add_chara l c true) (line_loop fuel s (pos + 1)))
        | SA_LINE_ENDED => add_chara {| vl_val := vl_val l; vl_len := vl_len l; vl_offset := vl_offset l + (pos + 2) |} 0 false
        | SA_SKIP_THREE_CHARAS => line_loop fuel s (pos + 3) l
        | SA_ERROR => Err EINVAL
        end)
    end
  else Err EINVAL.
Definition line_next (text : list Z) (l : vcard_line) : res vcard_line :=
  if Nat.eqb (length text) (vl_offset l) then Err EINVAL
  else if Nat.ltb (length text) (vl_offset l) then UB    (* string.len would wrap around *)
  else line_loop (length text) (skipn (vl_offset l) text) 0 {| vl_val := vl_val l; vl_len := 0; vl_offset := vl_offset l |}.

(** strncasecmp(val + i, s, length s) == 0, in the C locale. *)
Definition tolower (c : Z) : Z := if (65 <=? c) && (c <=? 90) then c + 32 else c.
Fixpoint strncaseeq (val : list (option Z)) (i : nat) (s : list Z) : res bool :=
  match s with
  | [] => Ok true
  | c :: s =>
      match nth_error val i with
      | Some (Some b) => if negb (tolower b =? tolower c) then Ok false else if b =? 0 then Ok true else strncaseeq val (i + 1) s
      | _ => UB
      end
  end.
(** Printing the line, with %s. *)
Fixpoint print_line (val : list (option Z)) : res unit :=
  match val with
  | Some b :: val => if b =? 0 then Ok tt else print_line val
  | _ => UB
  end.

(** src/object/vcard.c:157-179 [line_validate]. *)
Definition line_validate (l : vcard_line) (expected : list Z) : res unit :=
  bind (if Nat.eqb (vl_len l) (length expected) then strncaseeq (vl_val l) 0 expected else Ok false) (fun b =>
  if b : bool then Ok tt else bind (print_line (vl_val l)) (fun _ => Err EINVAL)).
(** src/object/vcard.c:184-189 [line_starts_with]. *)
Definition line_starts_with (l : vcard_line) (tag : list Z) : res bool := strncaseeq (vl_val l) 0 tag.
Fixpoint starts_with_any (l : vcard_line) (tags : list (list Z)) : res bool :=
  match tags with
  | [] => Ok false
  | t :: tags => bind (line_starts_with l t) (fun b => if b : bool then Ok true else starts_with_any l tags)
  end.

(** src/object/vcard.c:214-238: the loop; the line it ended at, and what was found.  Each iteration consumes at least two bytes. *)
Fixpoint property_loop (fuel : nat) (text : list Z) (l : vcard_line) (fn useful : bool) : res (vcard_line * bool * bool) :=
  match fuel with
  | O => UB
  | S fuel =>
      bind (line_next text l) (fun l =>
      bind (line_starts_with l (cstr "FN:")) (fun b =>
      if b : bool then property_loop fuel text l true useful
      else bind (starts_with_any l [cstr "ORG:"; cstr "ADR;"; cstr "TEL;"; cstr "EMAIL:"; cstr "EMAIL;"]%string) (fun b =>
      if b : bool then property_loop fuel text l fn true
      else bind (line_starts_with l (cstr "END:")) (fun b =>
      if b : bool then Ok (l, fn, useful)
      else bind (print_line (vl_val l)) (fun _ => Err EINVAL)))))
  end.

(** src/object/vcard.c:191-249 [__handle_ghostbusters_vcard], src/object/vcard.c:251-266 [handle_ghostbusters_vcard]. *)
Definition handle_ghostbusters_vcard (text : list Z) : res unit :=
  let l := {| vl_val := repeat None 81; vl_len := 0; vl_offset := 0 |} in
  bind (line_next text l) (fun l =>
  bind (line_validate l (cstr "BEGIN:VCARD")) (fun _ =>
  bind (line_next text l) (fun l =>
  bind (line_validate l (cstr "VERSION:4.0")) (fun _ =>
  bind (property_loop (S (length text)) text l false false) (fun '(l, fn, useful) =>
  bind (line_validate l (cstr "END:VCARD")) (fun _ =>
  if negb (Nat.eqb (length text) (vl_offset l)) then Err EINVAL
  else if negb fn then Err EINVAL
  else if negb useful then Err EINVAL
  else Ok tt)))))).
