(** What a timestamp is, without reference to the model: RFC 3339 texts, and the
    Gregorian calendar, one day after the other. *)
From Coq Require Import String.
From Verif Require Import Base CString.
Notation length := List.length.
Open Scope list_scope.
Open Scope Z_scope.

Definition leap_year (y : Z) : Prop := (4 | y) /\ (~ (100 | y) \/ (400 | y)).
Inductive month_length (y : Z) : Z -> Z -> Prop :=
| ML31 m : In m [1; 3; 5; 7; 8; 10; 12] -> month_length y m 31
| ML30 m : In m [4; 6; 9; 11] -> month_length y m 30
| ML29 : leap_year y -> month_length y 2 29
| ML28 : ~ leap_year y -> month_length y 2 28.
(** The day after. *)
Inductive next_day : Z * Z * Z -> Z * Z * Z -> Prop :=
| ND_day y m d n : month_length y m n -> 1 <= d < n -> next_day (y, m, d) (y, m, d + 1)
| ND_month y m n : month_length y m n -> m < 12 -> next_day (y, m, n) (y, m + 1, 1)
| ND_year y : next_day (y, 12, 31) (y + 1, 1, 1).
(** The day number [n] (0 is the first of January 1970) is the date [d]. *)
Inductive is_day : Z -> Z * Z * Z -> Prop :=
| ID_epoch : is_day 0 (1970, 1, 1)
| ID_after n d d' : is_day n d -> next_day d d' -> is_day (n + 1) d'
| ID_before n d d' : is_day n d -> next_day d' d -> is_day (n - 1) d'.

(** [k] digits. *)
Fixpoint pad (k : nat) (n : Z) : list Z :=
  match k with
  | O => []
  | S k => pad k (n / 10) ++ [48 + n mod 10]
  end.
Definition timestamp (y m d H M S : Z) : list Z :=
  pad 4 y ++ cstr "-" ++ pad 2 m ++ cstr "-" ++ pad 2 d ++ cstr "T" ++ pad 2 H ++ cstr ":" ++ pad 2 M ++ cstr ":" ++ pad 2 S ++ cstr "Z".
(** The text of the second [t] of Unix time: its date and time of day, in UTC. *)
Definition text_of (t : Z) (s : list Z) : Prop :=
  exists day y m d H M S, is_day day (y, m, d) /\ 0 <= H < 24 /\ 0 <= M < 60 /\ 0 <= S < 60 /\ t = day * 86400 + H * 3600 + M * 60 + S /\ s = timestamp y m d H M S.
(** A number as strptime() takes it: after any spaces, one to [k] digits. *)
Definition digit (c : Z) : Prop := 48 <= c <= 57.
Definition value (ds : list Z) : Z := fold_left (fun a c => a * 10 + (c - 48)) ds 0.
Definition number_text (k : nat) (lo hi : Z) (s : list Z) (v : Z) : Prop :=
  exists j ds, s = repeat 32 j ++ ds /\ (1 <= length ds <= k)%nat /\ Forall digit ds /\ v = value ds /\ lo <= v <= hi.
(** 10000-01-01T00:00:00Z. *)
Definition year_10000 : Z := 253402300800.
