(** Reading addresses: an independent reader of the notations of RFC 4291 section 2.2
    and of dotted IPv4 addresses. *)
From Verif Require Import Base OidSpec.
Notation length := List.length.

(** The pieces of a text separated by [c]. *)
Fixpoint split (c : Z) (s : list Z) : list (list Z) :=
  match s with
  | [] => [[]]
  | x :: s => if x =? c then [] :: split c s else match split c s with p :: t => (x :: p) :: t | [] => [[x]] end
  end.
(** Decimal numbers, without leading zeros. *)
Definition decimal (s : list Z) : bool :=
  forallb (fun c => (48 <=? c) && (c <=? 57)) s && match s with [] => false | [_] => true | c :: _ => negb (c =? 48) end.
Definition dec (s : list Z) : option Z := if decimal s then Some (number s) else None.
(** Hexadecimal numbers of one to four digits, in lower case. *)
Definition hexval (c : Z) : Z := if c <? 58 then c - 48 else c - 87.
Definition hexnum (s : list Z) : Z := fold_left (fun v c => v * 16 + hexval c) s 0.
Definition hexdigit (c : Z) : bool := (48 <=? c) && (c <=? 57) || (97 <=? c) && (c <=? 102).
Definition hexword (s : list Z) : bool := forallb hexdigit s && Nat.leb 1 (length s) && Nat.leb (length s) 4.
(** "a.b.c.d". *)
Definition read4 (s : list Z) : option Z :=
  match map dec (split 46 s) with
  | [Some a; Some b; Some c; Some d] => if (a <? 256) && (b <? 256) && (c <? 256) && (d <? 256) then Some (a * 16777216 + b * 65536 + c * 256 + d) else None
  | _ => None
  end.
(** A piece between colons: one word, or a dotted address; and several. *)
Definition piece (p : list Z) : option (list Z) :=
  if existsb (Z.eqb 46) p then match read4 p with Some v => Some [v / 65536; v mod 65536] | None => None end
  else if hexword p then Some [hexnum p] else None.
Fixpoint pieces (ps : list (list Z)) : option (list Z) :=
  match ps with
  | [] => Some []
  | p :: ps => match piece p, pieces ps with Some a, Some b => Some (a ++ b) | _, _ => None end
  end.
(** "::" leaves an empty piece: what is before it, and what is after it if it is there. *)
Fixpoint until_gap (ps : list (list Z)) : list (list Z) * option (list (list Z)) :=
  match ps with
  | [] => ([], None)
  | [] :: ps => ([], Some ps)
  | p :: ps => let '(a, b) := until_gap ps in (p :: a, b)
  end.
(** After it, there is nothing ("x::" leaves two empty pieces at the end) or more pieces; zeros fill up the eight words. *)
Definition fill (before : list (list Z)) (after : list (list Z)) : option (list Z) :=
  match pieces before, match after with [] => None | [[]] => Some [] | _ => pieces after end with
  | Some a, Some b => if Nat.leb (length a + length b) 7 then Some (a ++ repeat 0 (8 - length a - length b) ++ b) else None
  | _, _ => None
  end.
Definition read_pieces (ps : list (list Z)) : option (list Z) :=
  match ps with
  | [] :: [] :: r => fill [] r   (* "::x": two empty pieces at the beginning *)
  | [] :: _ => None
  | _ => match until_gap ps with
         | (a, Some b) => fill a b
         | (a, None) => match pieces a with Some l => if Nat.eqb (length l) 8 then Some l else None | None => None end
         end
  end.
Definition read6 (s : list Z) : option (list Z) := read_pieces (split 58 s).

(** The address those words are. *)
Definition value (ws : list Z) : Z := fold_left (fun v w => v * 65536 + w) ws 0.
