(** Object identifiers as X.690 8.19 defines their encoding, independent of the
    model. *)
From Verif Require Import Base.

Definition base128 (bs : list Z) : Z := fold_left (fun v b => v * 128 + b) bs 0.

(** One subidentifier: continuation octets, then an octet below 128. *)
Inductive subid : list Z -> Z -> Prop :=
| subid_intro cont last : Forall (fun c => 0 <= c < 128) cont -> 0 <= last < 128 ->
    subid (map (fun c => 128 + c) cont ++ [last]) (base128 (cont ++ [last])).

Inductive subids : list Z -> list Z -> Prop :=
| subids_nil : subids [] []
| subids_cons b bs v vs : subid b v -> subids bs vs -> subids (b ++ bs) (v :: vs).

(** The two first arcs share a subidentifier. *)
Definition first_arcs (v : Z) : list Z :=
  if 80 <=? v then [2; v - 80] else if 40 <=? v then [1; v - 40] else [0; v].

(** [b] encodes the object identifier with these arcs. *)
Definition encodes (b : list Z) (arcs : list Z) : Prop :=
  exists v vs, subids b (v :: vs) /\ arcs = first_arcs v ++ vs.

(** Dotted notation: the arcs in decimal. *)
Definition number (ds : list Z) : Z := fold_left (fun v d => v * 10 + (d - 48)) ds 0.
Definition numeral (ds : list Z) (n : Z) : Prop :=
  ds <> [] /\ Forall (fun d => 48 <= d <= 57) ds /\ number ds = n /\ (hd 0 ds = 48 -> ds = [48]).
Inductive dotted : list Z -> list Z -> Prop :=
| dotted_one ds n : numeral ds n -> dotted ds [n]
| dotted_more ds n s ns : numeral ds n -> dotted s ns -> dotted (ds ++ 46 :: s) (n :: ns).
