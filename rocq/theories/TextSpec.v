(** Specification vocabulary for C47, C48, C49. *)
From Verif Require Import Base.

(** The tokens of a string: its maximal, not empty, substrings without separators. *)
Inductive tokens (sep : Z) : list Z -> list (list Z) -> Prop :=
| tokens_none s : Forall (fun c => c = sep) s -> tokens sep s []
| tokens_more seps tok rest l :
    Forall (fun c => c = sep) seps -> tok <> [] -> ~ In sep tok -> (rest = [] \/ exists r, rest = sep :: r) ->
    tokens sep rest l -> tokens sep (seps ++ tok ++ rest) (tok :: l).

(** RFC 4648, section 4: base64; section 5: base64url, here without padding. *)
Definition alphabet (c62 c63 : Z) (i : Z) : Z :=
  if i <? 26 then 65 + i else if i <? 52 then 97 + (i - 26) else if i <? 62 then 48 + (i - 52) else if i =? 62 then c62 else c63.
Fixpoint rfc4648 (c62 c63 : Z) (pad : list Z) (data : list Z) : list Z :=
  let ch := alphabet c62 c63 in
  match data with
  | [] => []
  | [a] => [ch (a / 4); ch (a mod 4 * 16)] ++ pad ++ pad
  | [a; b] => [ch (a / 4); ch (a mod 4 * 16 + b / 16); ch (b mod 16 * 4)] ++ pad
  | a :: b :: c :: data => [ch (a / 4); ch (a mod 4 * 16 + b / 16); ch (b mod 16 * 4 + c / 64); ch (c mod 64)] ++ rfc4648 c62 c63 pad data
  end.
(** '+', '/', '='; '-', '_'. *)
Definition base64 : list Z -> list Z := rfc4648 43 47 [61].
Definition base64url : list Z -> list Z := rfc4648 45 95 [].

(** A decoder of base64, to show there's one. *)
Definition value (c : Z) : option Z :=
  if (65 <=? c) && (c <=? 90) then Some (c - 65) else if (97 <=? c) && (c <=? 122) then Some (c - 97 + 26)
  else if (48 <=? c) && (c <=? 57) then Some (c - 48 + 52) else if c =? 43 then Some 62 else if c =? 47 then Some 63 else None.
Fixpoint unbase64 (s : list Z) : option (list Z) :=
  match s with
  | [] => Some []
  | c0 :: c1 :: c2 :: c3 :: s =>
      match value c0, value c1, value c2, value c3 with
      | Some a, Some b, Some c, Some d =>
          option_map (fun r => [a * 4 + b / 16; b mod 16 * 16 + c / 4; c mod 4 * 64 + d] ++ r) (unbase64 s)
      | Some a, Some b, Some c, None => if (c3 =? 61) then match s with [] => Some [a * 4 + b / 16; b mod 16 * 16 + c / 4] | _ => None end else None
      | Some a, Some b, None, None => if (c2 =? 61) && (c3 =? 61) then match s with [] => Some [a * 4 + b / 16] | _ => None end else None
      | _, _, _, _ => None
      end
  | _ => None
  end.

(** Decimal digits, and the number they write. *)
Definition decimal (ds : list Z) : Prop := ds <> [] /\ Forall (fun c => 48 <= c <= 57) ds.
Definition number (ds : list Z) : Z := fold_left (fun n c => 10 * n + (c - 48)) ds 0.
