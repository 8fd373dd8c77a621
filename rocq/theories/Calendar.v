(** Timestamps of the cache's index: src/json_util.c over the C library's calendar. *)
From Coq Require Import String.
From Verif Require Import Base CString.
Notation length := List.length.
Open Scope list_scope.
Open Scope Z_scope.

(** ** The C library *)

(** struct tm (the fields that are used here); tm_mon counts from 0, tm_year
    from 1900. *)
Record tm := { tm_year : Z; tm_mon : Z; tm_mday : Z; tm_hour : Z; tm_min : Z; tm_sec : Z }.
(** src/json_util.c:119 memset(&tm, 0, sizeof(tm)). *)
Definition tm_zero : tm := {| tm_year := 0; tm_mon := 0; tm_mday := 0; tm_hour := 0; tm_min := 0; tm_sec := 0 |}.

(** The Gregorian date of a day, counted from 1970-01-01, in 400-year cycles of
    years which start in March. *)
Definition civil_in_era (doe : Z) : Z * Z * Z :=
  let yoe := (doe - doe / 1460 + doe / 36524 - doe / 146096) / 365 in
  let doy := doe - (365 * yoe + yoe / 4 - yoe / 100) in
  let mp := (5 * doy + 2) / 153 in
  let d := doy - (153 * mp + 2) / 5 + 1 in
  let m := if mp <? 10 then mp + 3 else mp - 9 in
  (if m <=? 2 then yoe + 1 else yoe, m, d).
Definition civil (z : Z) : Z * Z * Z :=
  let z' := z + 719468 in
  let '(y, m, d) := civil_in_era (z' mod 146097) in (y + 400 * (z' / 146097), m, d).
(** And back; the day needn't be one of the month. *)
Definition days_from_civil (y m d : Z) : Z :=
  let y' := if m <=? 2 then y - 1 else y in
  let yoe := y' mod 400 in
  let doy := (153 * ((m + 9) mod 12) + 2) / 5 + d - 1 in
  (y' / 400) * 146097 + (yoe * 365 + yoe / 4 - yoe / 100 + doy) - 719468.

(** gmtime_r(); tm_year is an int, or there's EOVERFLOW. *)
Definition gmtime_r (t : Z) : option tm :=
  let '(y, m, d) := civil (t / 86400) in
  let s := t mod 86400 in
  if (y - 1900 <? -2147483648) || (2147483647 <? y - 1900) then None
  else Some {| tm_year := y - 1900; tm_mon := m - 1; tm_mday := d; tm_hour := s / 3600; tm_min := s / 60 mod 60; tm_sec := s mod 60 |}.
(** timegm(), of a month which is in range (as all of strptime()'s are); days
    and seconds needn't be. *)
Definition timegm (x : tm) : Z :=
  days_from_civil (tm_year x + 1900) (tm_mon x + 1) (tm_mday x) * 86400 + tm_hour x * 3600 + tm_min x * 60 + tm_sec x.

(** What a conversion of strftime() prints: two digits; a number. *)
Definition two_digits (n : Z) : list Z := [48 + n / 10; 48 + n mod 10].
Fixpoint digits (fuel : nat) (n : Z) (acc : list Z) : list Z :=
  match fuel with
  | O => acc
  | S fuel => let acc := (48 + n mod 10) :: acc in if n <? 10 then acc else digits fuel (n / 10) acc
  end.
Definition decimal (n : Z) : list Z := if n <? 0 then 45 :: digits 20 (- n) [] else digits 20 n [].

(** src/json_util.c:13 [JSON_TS_FORMAT]: the directives of
    "%Y-%m-%dT%H:%M:%SZ". *)
Inductive directive := DY | Dm | Dd | DH | DM | DS | Lit (c : Z).
Definition JSON_TS_FORMAT : list directive :=
  [DY; Lit 45; Dm; Lit 45; Dd; Lit 84; DH; Lit 58; DM; Lit 58; DS; Lit 90].
(** src/json_util.c:14. *)
Definition JSON_TS_LEN : Z := 21.

Definition print (x : tm) (d : directive) : list Z :=
  match d with
  | DY => decimal (tm_year x + 1900)     (* years before 1000 may be padded, depending on the library *)
  | Dm => two_digits (tm_mon x + 1)
  | Dd => two_digits (tm_mday x)
  | DH => two_digits (tm_hour x)
  | DM => two_digits (tm_min x)
  | DS => two_digits (tm_sec x)
  | Lit c => [c]
  end.
(** strftime(): nothing, if the text and its NUL don't fit. *)
Definition strftime (max : Z) (fmt : list directive) (x : tm) : option (list Z) :=
  let s := flat_map (print x) fmt in
  if Z.of_nat (length s) + 1 <=? max then Some s else None.

(** strptime() of glibc: a number is preceded by any number of spaces, and
    has from one to [n] digits; fewer, if another one would make it too large
    anyway. *)
Fixpoint skip_spaces (s : list Z) : list Z :=
  match s with
  | c :: r => if c =? 32 then skip_spaces r else s
  | [] => s
  end.
Definition isdigit (c : Z) : bool := (48 <=? c) && (c <=? 57).
Fixpoint number (n : nat) (to : Z) (val : Z) (s : list Z) : Z * list Z :=
  match n, s with
  | S n, c :: r => if isdigit c && (val * 10 <=? to) then number n to (val * 10 + (c - 48)) r else (val, s)
  | _, _ => (val, s)
  end.
Definition get_number (from to : Z) (n : nat) (s : list Z) : option (Z * list Z) :=
  match skip_spaces s with
  | c :: r =>
    if isdigit c then
      let '(v, r) := number (pred n) to (c - 48) r in
      if (v <? from) || (to <? v) then None else Some (v, r)
    else None
  | [] => None
  end.
Definition with_field (x : tm) (d : directive) (v : Z) : tm :=
  match d with
  | DY => {| tm_year := v - 1900; tm_mon := tm_mon x; tm_mday := tm_mday x; tm_hour := tm_hour x; tm_min := tm_min x; tm_sec := tm_sec x |}
  | Dm => {| tm_year := tm_year x; tm_mon := v - 1; tm_mday := tm_mday x; tm_hour := tm_hour x; tm_min := tm_min x; tm_sec := tm_sec x |}
  | Dd => {| tm_year := tm_year x; tm_mon := tm_mon x; tm_mday := v; tm_hour := tm_hour x; tm_min := tm_min x; tm_sec := tm_sec x |}
  | DH => {| tm_year := tm_year x; tm_mon := tm_mon x; tm_mday := tm_mday x; tm_hour := v; tm_min := tm_min x; tm_sec := tm_sec x |}
  | DM => {| tm_year := tm_year x; tm_mon := tm_mon x; tm_mday := tm_mday x; tm_hour := tm_hour x; tm_min := v; tm_sec := tm_sec x |}
  | DS => {| tm_year := tm_year x; tm_mon := tm_mon x; tm_mday := tm_mday x; tm_hour := tm_hour x; tm_min := tm_min x; tm_sec := v |}
  | Lit _ => x
  end.
Definition parse (x : tm) (d : directive) (s : list Z) : option (tm * list Z) :=
  let num from to n := option_map (fun '(v, r) => (with_field x d v, r)) (get_number from to n s) in
  match d with
  | DY => num 0 9999 4%nat
  | Dm => num 1 12 2%nat
  | Dd => num 1 31 2%nat
  | DH => num 0 23 2%nat
  | DM => num 0 59 2%nat
  | DS => num 0 61 2%nat
  | Lit c => match s with b :: r => if b =? c then Some (x, r) else None | [] => None end
  end.
Fixpoint strptime (s : list Z) (fmt : list directive) (x : tm) : option (list Z * tm) :=
  match fmt with
  | [] => Some (s, x)
  | d :: fmt => match parse x d s with Some (x, s) => strptime s fmt x | None => None end
  end.

(** ** FORT *)

(** src/json_util.c:110-132 [str2tt]. *)
Definition str2tt (str : list Z) : res Z :=
  match strptime str JSON_TS_FORMAT tm_zero with
  | None => Err EINVAL
  | Some (consumed, x) =>
    match consumed with
    | _ :: _ => Err EINVAL
    | [] => let time := timegm x in if time =? -1 then Err EINVAL else Ok time
    end
  end.
(** src/json_util.c:231-244 [tt2str]; 75 is EOVERFLOW. *)
Definition tt2str (t : Z) : res (list Z) :=
  match gmtime_r t with
  | None => Err (EOTHER 75)
  | Some x =>
    match strftime JSON_TS_LEN JSON_TS_FORMAT x with
    | None => Err ENOSPC
    | Some s => Ok s
    end
  end.
(** What [LocalCache] takes for these two: failures aren't told apart. *)
Definition ok_of {A : Type} (r : res A) : option A := match r with Ok a => Some a | _ => None end.
