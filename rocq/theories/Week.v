(** When a cached file is too old: get_days_ago() of src/cache/local_cache.c,
    over the C library's local time. *)
From Verif Require Import Base PathBuilder LocalCache Calendar.

(** The time zone: what's added to UTC in winter and in summer, and when
    it's summer. *)
Record zone := { z_std : Z; z_dst : Z; z_isdst : Z -> bool }.
Definition offset (z : zone) (isdst : bool) : Z := if isdst then z_dst z else z_std z.
(** localtime_r(): the date and time, and tm_isdst. *)
Definition localtime_r (z : zone) (t : Z) : option (tm * bool) :=
  option_map (fun x => (x, z_isdst z t)) (gmtime_r (t + offset z (z_isdst z t))).
(** mktime(), of a month in range and a day which needn't be of it.  As in glibc,
    tm_isdst tells which of the two offsets to use, also when it's not the one
    in use then. *)
Definition mktime (z : zone) (x : tm) (isdst : bool) : Z := timegm x - offset z isdst.

(** src/cache/local_cache.c:817-838 [get_days_ago]; [now]: what time() says.
    pr_crit() ends the program: [Err]. *)
Definition get_days_ago (z : zone) (now days : Z) : res Z :=
  if now =? -1 then Err (EOTHER 1)
  else match localtime_r z now with
       | None => Err (EOTHER 1)
       | Some (x, isdst) =>
           let x := {| tm_year := tm_year x; tm_mon := tm_mon x; tm_mday := tm_mday x - days; tm_hour := tm_hour x; tm_min := tm_min x; tm_sec := tm_sec x |} in
           let last_week := mktime z x isdst in
           if last_week =? -1 then Err (EOTHER 1) else Ok last_week
       end.
(** src/cache/local_cache.c:965-978 [cache_cleanup], with its clock. *)
Definition cleanup_at (J : Z) (repository : list Z) (FE : fsenv) (z : zone) (now : Z) (c : cache) (visits : list (list Z)) (t : tree) : res (cache * tree) :=
  bind (get_days_ago z now 7) (fun last_week => cache_cleanup J repository FE c last_week visits t).
