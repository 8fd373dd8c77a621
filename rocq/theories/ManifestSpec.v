(** Specification vocabulary for manifests (C40-C42). *)
From Coq Require Import String.
From Verif Require Import Base CString CLib PathBuilder Manifest.
From Coq Require Import Permutation.
Notation length := List.length.

(** ** The proleptic Gregorian calendar *)
Definition leap (y : Z) : bool := (y mod 4 =? 0) && (negb (y mod 100 =? 0) || (y mod 400 =? 0)).
Definition month_days (y m : Z) : Z :=
  match m with
  | 0 => 31 | 1 => if leap y then 29 else 28 | 2 => 31 | 3 => 30 | 4 => 31 | 5 => 30
  | 6 => 31 | 7 => 31 | 8 => 30 | 9 => 31 | 10 => 30 | _ => 31
  end.
(** The days of the years 0 ... y-1; of the year y's months 0 ... m-1. *)
Definition days_before_year (y : Z) : Z := 365 * y + (y - 1) / 4 - (y - 1) / 100 + (y - 1) / 400 + 1.
Definition days_before_month (y m : Z) : Z :=
  fold_right (fun k acc => (if k <? m then month_days y k else 0) + acc) 0 [0; 1; 2; 3; 4; 5; 6; 7; 8; 9; 10].
(** The moment: seconds since the start of the year 0, without leap seconds. *)
Definition moment (t : tm) : Z :=
  let y := tm_year t + 1900 in
  86400 * (days_before_year y + days_before_month y (tm_mon t) + (tm_mday t - 1)) + 3600 * tm_hour t + 60 * tm_min t + tm_sec t.
(** A date and time that exists. *)
Definition real (t : tm) : Prop :=
  0 <= tm_mon t <= 11 /\ 1 <= tm_mday t <= month_days (tm_year t + 1900) (tm_mon t) /\
  0 <= tm_hour t <= 23 /\ 0 <= tm_min t <= 59 /\ 0 <= tm_sec t <= 59.

(** The text of a GeneralizedTime, of which the decoder looks only at what precedes
    the Z and the Z: YYYYMMDDHHMMSS, a fraction, Z.  [num n s v]: [s] is [n] digits,
    of value [v]. *)
Definition is_digit (c : Z) : Prop := 48 <= c <= 57.
Definition num (n : nat) (s : list Z) (v : Z) : Prop :=
  length s = n /\ Forall is_digit s /\ v = fold_left (fun a c => 10 * a + (c - 48)) s 0.
Definition fraction (s : list Z) : Prop := s = [] \/ exists c ds, s = c :: ds /\ (c = 44 \/ c = 46) /\ Forall is_digit ds.
Definition gt_text (s : list Z) (y mo d h mi se : Z) : Prop :=
  exists sy smo sd sh smi sse fr rest, s = sy ++ smo ++ sd ++ sh ++ smi ++ sse ++ fr ++ 90 :: rest /\
    num 4 sy y /\ num 2 smo mo /\ num 2 sd d /\ num 2 sh h /\ num 2 smi mi /\ num 2 sse se /\ fraction fr.

(** ** The files *)
Definition ends_with (s e : list Z) : Prop := exists p, s = p ++ e.

Section Entries.
  Variable J : Z.
  Variable repository : list Z.
  Variable tal notif : option (list Z).
  Variable hash_file : list Z -> Z + list Z.
  Variable not_found not_match : action.
  Variable mft : rpki_uri.

  (** An entry that doesn't get the manifest rejected.  It's about a file that's
      there, or about one that's missing (and missing files are tolerated). *)
  Inductive entry_ok : fah -> option rpki_uri -> Prop :=
  | eo_match f u : uri_create_mft J repository tal notif mft (f_file f) = Ok u -> f_unused f = 0 -> hash_file (u_local u) = inr (f_hash f) -> entry_ok f (Some u)
  | eo_mismatch f u h : uri_create_mft J repository tal notif mft (f_file f) = Ok u -> f_unused f = 0 -> hash_file (u_local u) = inr h -> not_match <> INAC_ERROR -> entry_ok f (Some u)
  | eo_missing f u e : uri_create_mft J repository tal notif mft (f_file f) = Ok u -> f_unused f = 0 -> hash_file (u_local u) = inl e -> e = 2 \/ e = 13 -> not_found <> INAC_ERROR -> entry_ok f None.

  Definition present (l : list (option rpki_uri)) : list rpki_uri := flat_map (fun o => match o with Some u => [u] | None => [] end) l.

  (** The members of a list of a kind, as many times each. *)
  Inductive sublist (P : rpki_uri -> Prop) : list rpki_uri -> list rpki_uri -> Prop :=
  | sl_nil : sublist P [] []
  | sl_in u l k : P u -> sublist P l k -> sublist P (u :: l) (u :: k)
  | sl_out u l k : ~ P u -> sublist P l k -> sublist P (u :: l) k.
  Definition of_kind (kind : list Z) (files got : list rpki_uri) : Prop :=
    exists k, sublist (fun u => ends_with (u_global u) kind) files k /\ Permutation got k.
End Entries.
