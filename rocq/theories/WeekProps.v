(** * C110: cached files are kept for seven days *)
From Coq Require Import String.
From Verif Require Import Base BaseLemmas CString PathBuilder PathProps LocalCache LocalCacheSpec LocalCacheProps Calendar CalendarSpec CalendarProofs CalendarProofs2 Week.
Notation length := List.length.
Open Scope list_scope.
Open Scope Z_scope.

(** The clocks of which this is: from 1970-01-09 until a day before the year 10000, in
    zones within a day of UTC. *)
Definition usual (z : zone) (now : Z) : Prop := 8 * 86400 <= now < year_10000 - 86400 /\ -86400 < z_std z < 86400 /\ -86400 < z_dst z < 86400.

Lemma timegm_back t x : gmtime_r t = Some x -> timegm x = t.
Proof.
  unfold gmtime_r. destruct (civil (t / 86400)) as [[y m] d] eqn:E. destruct (_ || _)%bool; [discriminate|]. intros [= <-]. unfold timegm. cbn [tm_year tm_mon tm_mday tm_hour tm_min tm_sec].
  replace (y - 1900 + 1900) with y by lia. replace (m - 1 + 1) with m by lia. rewrite (civil_back _ _ _ _ E). pose proof (Z.div_mod t 86400 ltac:(lia)). set (s := t mod 86400) in *.
  pose proof (Z.div_mod s 60 ltac:(lia)) as A. pose proof (Z.div_mod (s / 60) 60 ltac:(lia)) as B. replace (s / 60 / 60) with (s / 3600) in B by (rewrite Z.div_div by lia; reflexivity). lia.
Qed.
(** Whatever the zone, and wherever summer begins or ends: days of 24 hours. *)
Theorem C110_days_ago : forall z now days, usual z now -> 0 <= days <= 7 -> get_days_ago z now days = Ok (now - days * 86400).
Proof.
  intros z now days (H1 & H2 & H3) D. unfold get_days_ago. replace (now =? -1) with false by (symmetry; apply Z.eqb_neq; lia). unfold localtime_r. set (i := z_isdst z now). set (o := offset z i).
  assert (O : -86400 < o < 86400) by (unfold o, offset; destruct i; assumption).
  assert (G : exists x, gmtime_r (now + o) = Some x).
  { unfold gmtime_r. pose proof (year_range ((now + o) / 86400)) as Y. destruct (civil ((now + o) / 86400)) as [[y m] d]. 
    assert (0 <= (now + o) / 86400 < 2932897) as R by (split; [apply Z.div_pos; lia|apply Z.div_lt_upper_bound; unfold year_10000 in *; lia]). specialize (Y R).
    replace (_ || _)%bool with false by (symmetry; apply orb_false_iff; rewrite !Z.ltb_ge; lia). eauto. }
  destruct G as (x & G). rewrite G. cbn [option_map]. pose proof (timegm_back _ _ G) as B. unfold mktime.
  assert (E : timegm {| tm_year := tm_year x; tm_mon := tm_mon x; tm_mday := tm_mday x - days; tm_hour := tm_hour x; tm_min := tm_min x; tm_sec := tm_sec x |} = now + o - days * 86400).
  { rewrite <- B. unfold timegm. cbn [tm_year tm_mon tm_mday tm_hour tm_min tm_sec]. rewrite (dfc_day _ _ (tm_mday x - days)), (dfc_day _ _ (tm_mday x)). lia. }
  rewrite E. fold o. replace (now + o - days * 86400 - o) with (now - days * 86400) by lia. replace (_ =? -1) with false by (symmetry; apply Z.eqb_neq; lia). reflexivity.
Qed.

Section Cleanup.
  Variables (J : Z) (repository : list Z) (FE : fsenv) (z : zone) (now : Z) (c c' : cache) (visits : list (list Z)) (t t' : tree).
  Hypothesis clock : usual z now.
  Hypothesis conf : conf_ok repository (Some (ca_tal c)) None.
  Hypothesis keys : NoDup (map cn_key (ca_ht c)).
  Hypothesis run : cleanup_at J repository FE z now c visits t = Ok (c', t').
  Notation node_path := (node_path J repository (ca_tal c)).
  Lemma run7 : cache_cleanup J repository FE c (now - 7 * 86400) visits t = Ok (c', t').
  Proof using clock run. unfold cleanup_at in run. rewrite (C110_days_ago z now 7 clock ltac:(lia)) in run. exact run. Qed.
  (** What was last downloaded, or tried, seven days ago or earlier is forgotten. *)
  Theorem C110_old n : In n (ca_ht c) -> cn_ts n <= now - 7 * 86400 -> ~ In n (ca_ht c').
  Proof using clock conf keys run. intros I O K. apply (C37_nodes J repository FE c c' _ visits t t' conf keys run7) in K. lia. Qed.
  (** What's of the last seven days stays, with its file and all that belongs to it
      (of paths which aren't inside of each other). *)
  Theorem C110_recent n k : In n (ca_ht c) -> now - 7 * 86400 < cn_ts n -> In (cn_key n, k) t ->
    (forall m p q, In m (ca_ht c) -> m <> n -> node_path m p -> node_path n q -> ~ related p q) ->
    In n (ca_ht c') /\ forall e p, In e t -> node_path n p -> related (fst e) p -> In e t'.
  Proof using clock conf keys run. intros I R T A. apply (C37_fresh_partial J repository FE c c' _ visits t t' conf keys run7 n k); auto. Qed.
End Cleanup.

(** Central Europe, 1700000000 (2023-11-14), when it was last summer less than 7 days before
    2023-10-31; and the cleanup of a node which is a week old, and of one that isn't. *)
Definition europe : zone := {| z_std := 3600; z_dst := 7200; z_isdst := fun t => t <? 1698541200 |}.
Example C110_nonvacuous : usual europe 1698750000 /\ z_isdst europe 1698750000 = false /\ z_isdst europe (1698750000 - 7 * 86400) = true /\ get_days_ago europe 1698750000 7 = Ok (1698750000 - 604800) /\
  exists t', cleanup_at 7 ex_repo ex_fs {| z_std := 0; z_dst := 0; z_isdst := fun _ => false |} (604800 + 604800)
    {| ca_tal := ex_talname; ca_startup := 0; ca_ht := [{| cn_url := ex_curi UT_HTTPS true (cstr "https://victim.net/n.xml"); cn_ts := 604801; cn_result := 0; cn_happened := true; cn_sts := 0 |};
       {| cn_url := ex_curi UT_RSYNC false (cstr "rsync://a/m/"); cn_ts := 604800; cn_result := 0; cn_happened := true; cn_sts := 10 |}] |} (map fst ex_tree) ex_tree =
    Ok ({| ca_tal := ex_talname; ca_startup := 0; ca_ht := [{| cn_url := ex_curi UT_HTTPS true (cstr "https://victim.net/n.xml"); cn_ts := 604801; cn_result := 0; cn_happened := true; cn_sts := 0 |}] |}, t') /\
    In (cstr "/var/cache/fort/lacnic/https/victim.net/n.xml", false) t'.
Proof.
  split; [unfold usual, year_10000, europe; cbn [z_std z_dst]; lia|]. split; [vm_compute; reflexivity|]. split; [vm_compute; reflexivity|]. split; [vm_compute; reflexivity|]. eexists. split; [vm_compute; reflexivity|]. vm_compute. tauto. Qed.
Print Assumptions C110_days_ago. Print Assumptions C110_old. Print Assumptions C110_recent.
