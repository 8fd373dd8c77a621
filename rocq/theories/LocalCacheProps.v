(** C35-C37, C56, C57: the local cache. *)
From Coq Require Import String.
From Verif Require Import Base BaseLemmas CString CLib PathBuilder PathSpec PathProofs PathProofs2 PathProofs3 PathProofs4 PathProps
  Resources Rrdp RrdpProofs2 Slurm LocalCache LocalCacheSpec LocalCacheProofs LocalCacheProofs2.
Notation length := List.length.

Definition ex_talname : list Z := cstr "lacnic".
Definition ex_curi (t : uri_type) (notif : bool) (g : list Z) : curi :=
  {| c_uri := match uri_create 7 ex_repo ex_tal t None g with
              | Ok u => u
              | _ => {| u_global := []; u_local := []; u_type := t |}
              end; c_notif := notif |}.

(** ** C35: one attempt per URL and run. *)

(** While the clock doesn't go back before the start of the run: nothing is
    fetched twice, and all requests for the same URL (the same file; the same
    module, for rsync) get the same result. *)
Theorem C35_once_partial J repository rsync http E us s rs s' :
  requests J repository rsync http E us s rs s' ->
  (forall n, ca_startup (fst s) <= ce_clock E n) ->
  Forall (url_ok J repository (ca_tal (fst s))) us -> index_ok J repository (ca_tal (fst s)) (ca_ht (fst s)) ->
  (exists fetched, cw_log (snd s') = cw_log (snd s) ++ fetched /\ NoDup fetched) /\
  (forall i j u v url url' r r', nth_error us i = Some u -> nth_error us j = Some v ->
     get_url J repository u (ca_tal (fst s)) = Ok url -> get_url J repository v (ca_tal (fst s)) = Ok url' -> c_local url = c_local url' ->
     nth_error rs i = Some r -> nth_error rs j = Some r' -> r = r').
Proof.
  intros R CL W IX. destruct (requests_inv _ _ _ _ _ _ _ _ _ R CL W IX) as (T & S & IX' & _ & new & L & ND & _).
  split; [exists new; auto|].
  assert (X : forall i u url r, nth_error us i = Some u -> get_url J repository u (ca_tal (fst s)) = Ok url -> nth_error rs i = Some r ->
    exists n, recent (fst s') (c_local url) n /\ cn_result n = r).
  { clear new L ND T S IX'. induction R as [s|u us [c w] r [c1 w1] rs s' D R IH]; intros i v url rr Iv G Ir.
    - destruct i; discriminate.
    - cbn [fst snd] in *. inversion W; subst.
      assert (ST : ca_tal c1 = ca_tal c /\ ca_startup c1 = ca_startup c /\ index_ok J repository (ca_tal c) (ca_ht c1)).
      { assert (R1 : requests J repository rsync http E [u] (c, w) [r] (c1, w1)) by (econstructor; [exact D|constructor]).
        assert (W1 : Forall (url_ok J repository (ca_tal c)) [u]) by (constructor; auto).
        destruct (requests_inv _ _ _ _ _ _ _ _ _ R1 CL W1 IX) as (A & B & C & _). auto. }
      destruct ST as (T1 & S1 & IX1). rewrite <- T1, <- S1 in *.
      destruct i as [|i]; cbn [nth_error] in Iv, Ir.
      + inversion Iv; subst v. inversion Ir; subst rr.
        destruct (download_result J repository rsync http E u c w (c1, w1) r url) as (n & RN & RR); auto; try (rewrite <- ?T1; auto; fail).
        { rewrite <- S1. auto. }
        exists n. split; auto. destruct (requests_inv _ _ _ _ _ _ _ _ _ R CL H2 IX1) as (_ & _ & _ & KEEP & _). apply KEEP. exact RN.
      + eapply IH; eauto. }
  intros i j u v url url' r r' Iu Iv G G' E' Ir Ir'. destruct (X _ _ _ _ Iu G Ir) as (n & [F _] & <-). destruct (X _ _ _ _ Iv G' Ir') as (m & [F' _] & <-).
  rewrite <- E' in F'. congruence.
Qed.
(** The first request of a run for a URL does fetch it, and returns the result. *)
Theorem C35_first J repository rsync http E u c w cw' r url :
  cache_download J repository rsync http E u (c, w) = Ok (cw', r) ->
  url_ok J repository (ca_tal c) u -> index_ok J repository (ca_tal c) (ca_ht c) ->
  get_url J repository u (ca_tal c) = Ok url ->
  (forall n, In n (ca_ht c) -> cn_key n = c_local url -> cn_ts n < ca_startup c) ->
  exists f, cw_log (snd cw') = cw_log w ++ [f] /\ r = ce_result E (cw_n w) /\
    ((forall n, In n (ca_ht c) -> cn_key n <> c_local url) -> fetch_of rsync http url = Some f).
Proof.
  intros D W IX G OLD. destruct (download_cases _ _ _ _ _ _ _ _ _ _ W IX D) as [(-> & [(e & G')|(url' & n & G' & F & T & ->)])|(url' & f & n & c' & G' & _ & -> & _ & _ & _ & FO & K & _ & _ & R & _ & FIND)]; rewrite G in G'; inversion G'; subst.
  - exfalso. destruct (find_key _ _ _ F) as [K I]. specialize (OLD _ I K). lia.
  - exists f. split; auto. split; auto. intros NEW.
    unfold cache_download in D. rewrite G in D.
    assert (FN : find_node (ca_ht c) (c_local url') = None). { destruct (find_node (ca_ht c) (c_local url')) eqn:F; auto. apply find_key in F. destruct F as [K' I]. destruct (NEW _ I K'). }
    rewrite FN in D. cbn [cn_url] in D. destruct (fetch_of rsync http url') as [f'|]; [|discriminate]. cbv zeta in D.
    destruct (ce_clock E (cw_n w) =? -1); [discriminate|]. inversion D. apply (f_equal cw_log) in H1 || idtac.
    match goal with H : cw_log w ++ [f'] = cw_log w ++ [f] |- _ => apply app_inv_head in H; congruence end.
Qed.
(** Without the clock's help (it is the wall clock), a URL is fetched again. *)
Definition ex_url1 := ex_curi UT_HTTPS false (cstr "https://a/b.cer").
Definition ex_cache0 : cache := {| ca_tal := ex_talname; ca_ht := []; ca_startup := 1000 |}.
Definition ex_w0 : cworld := {| cw_log := []; cw_n := 0 |}.
Definition log_of (r : res ((cache * cworld) * Z)) : option (list fetch) := match r with Ok ((_, w), _) => Some (cw_log w) | _ => None end.
Theorem C35_clock_refuted : exists E s' rs, requests 7 ex_repo true true E [ex_url1; ex_url1] (ex_cache0, ex_w0) rs s' /\
  url_ok 7 ex_repo ex_talname ex_url1 /\ cw_log (snd s') = [FHttp (cstr "https://a/b.cer"); FHttp (cstr "https://a/b.cer")].
Proof.
  exists {| ce_result := fun _ => 0; ce_clock := fun _ => 999 |}. eexists. eexists. split; [|split].
  - econstructor; [vm_compute; reflexivity|]. econstructor; [vm_compute; reflexivity|constructor].
  - split; [intros H; vm_compute in H; discriminate|]. vm_compute. reflexivity.
  - vm_compute. reflexivity.
Qed.
(** Two TAs or CAs naming files of one rsync module: one rsync. *)
Definition ex_r1 := ex_curi UT_RSYNC false (cstr "rsync://a/m/x/1.cer").
Definition ex_r2 := ex_curi UT_RSYNC false (cstr "rsync://a/m/2.mft").
Example C35_nonvacuous : exists s' rs, requests 7 ex_repo true true {| ce_result := fun _ => -5; ce_clock := fun n => 1001 + Z.of_nat n |} [ex_r1; ex_url1; ex_r2; ex_url1] (ex_cache0, ex_w0) rs s' /\
  cw_log (snd s') = [FRsync (cstr "rsync://a/m/"); FHttp (cstr "https://a/b.cer")] /\ rs = [-5; -5; -5; -5] /\
  (forall n, ca_startup (fst (ex_cache0, ex_w0)) <= 1001 + Z.of_nat n) /\
  Forall (url_ok 7 ex_repo ex_talname) [ex_r1; ex_url1; ex_r2; ex_url1] /\ index_ok 7 ex_repo ex_talname [].
Proof.
  eexists. eexists. split; [|split; [|split; [|split; [|split]]]].
  - econstructor; [vm_compute; reflexivity|]. econstructor; [vm_compute; reflexivity|]. econstructor; [vm_compute; reflexivity|]. econstructor; [vm_compute; reflexivity|constructor].
  - vm_compute. reflexivity.
  - reflexivity.
  - intros n. cbn [fst ca_startup ex_cache0]. lia.
  - repeat (apply Forall_cons; [split; [intros H; vm_compute in H; discriminate|vm_compute; reflexivity]|]). constructor.
  - split; constructor.
Qed.

(** ** C36: alternatives. *)
Section C36.
  Variable J : Z.
  Variable repository : list Z.
  Variables (rsync_enabled http_enabled : bool).
  Variable E : cenv.
  Variable D : Type.
  Variable rrdp_update : curi -> astate D -> res (astate D * Z).
  Variable cb : curi -> astate D -> res (astate D * Z).
  Variables (http_priority rsync_priority : Z).
  Variable use_rrdp : bool.
  Notation update := (update J repository rsync_enabled http_enabled E D rrdp_update use_rrdp).
  Notation updating := (updating use_rrdp rrdp_update (cache_download J repository rsync_enabled http_enabled E)).
  Lemma updating_eq u s : update u s = updating u s.
  Proof.
    unfold LocalCache.update, LocalCacheSpec.updating, is_https, type_eqb. destruct (c_type u), use_rrdp; cbn [andb]; auto; unfold bind;
      destruct (cache_download J repository rsync_enabled http_enabled E u (fst s)) as [[]| |]; reflexivity.
  Qed.
  Lemma tried_updating l s s' r : tried update cb l s s' r <-> tried updating cb l s s' r.
  Proof.
    split; intros T; induction T; try (econstructor 1; fail).
    1,4: eapply tr_fail; eauto; rewrite ?updating_eq in *; auto; rewrite <- ?updating_eq; eauto.
    1,3: eapply tr_unused; eauto; rewrite ?updating_eq in *; auto; rewrite <- ?updating_eq; eauto.
    all: eapply tr_used; eauto; rewrite ?updating_eq in *; auto; rewrite <- ?updating_eq; eauto.
  Qed.
  Notation cache_download_alt := (cache_download_alt J repository rsync_enabled http_enabled E D rrdp_update cb http_priority rsync_priority use_rrdp).

  (** They are tried in order of preference; the first that is updated and that
      the caller accepts (or fails on) ends it; when there's none, the caller gets
      one of the best cached ones, or there's an error. *)
  Theorem C36_fallback uris s s' e : cache_download_alt uris s = Ok (s', e) ->
    exists s1 r, tried updating cb (preference http_priority rsync_priority uris) s s1 r /\
      match r with
      | Some e1 => s' = s1 /\ e = e1
      | None => NoDup (map cn_key (ca_ht (fst (fst s1)))) ->
          (exists u, best_cached J repository (fst (fst s1)) uris u /\ cb u s1 = Ok (s', e)) \/
          ((forall u n, In u uris -> ~ cached_as J repository (fst (fst s1)) u n) /\ s' = s1 /\ e = ESRCH_Z)
      end.
  Proof.
    rewrite alt_preference. destruct (download_all _ _ _ _ _ _ _ _ _ _ s) as [[s1 e1]| |] eqn:DA; cbn [bind]; try discriminate.
    apply all_tried in DA. destruct DA as (r & T & R). intros H. exists s1, r. split; [apply tried_updating; auto|]. destruct r as [e2|]; cbn [reported] in R.
    - destruct R as [<- L]. destruct (e1 <=? 0) eqn:Q; [|lia]. inversion H; auto.
    - destruct (e1 <=? 0) eqn:Q; [lia|]. intros ND. unfold cache_recover in H.
      destruct (cache_recover_loop J repository (fst (fst s1)) uris None) as [b| |] eqn:RL; cbn [bind] in H; try discriminate.
      assert (B0 : best_so_far J repository (fst (fst s1)) [] None) by (intros u n []).
      assert (B : best_so_far J repository (fst (fst s1)) ([] ++ uris) b) by (eapply recover_loop; eauto). cbn [app] in B.
      destruct b as [[u n]|]; cbn [option_map fst] in H.
      + left. exists u. split; auto. cbn in B. destruct B as (I & C & M). split; auto. exists n. auto.
      + right. cbn in B. inversion H; subst. auto.
  Qed.
  (** And conversely: as soon as one is used, that's it. *)
  Theorem C36_first uris s s' e : tried updating cb (preference http_priority rsync_priority uris) s s' (Some e) -> cache_download_alt uris s = Ok (s', e).
  Proof.
    intros T. apply tried_updating in T. apply tried_all in T. destruct T as (e' & DA & R). cbn in R. destruct R as [-> L]. rewrite alt_preference, DA. cbn [bind].
    destruct (e <=? 0) eqn:Q; [auto|lia].
  Qed.
End C36.
(** Trying has one outcome. *)
Theorem C36_determined S (update use : curi -> S -> res (S * Z)) l s s1 r1 s2 r2 :
  tried update use l s s1 r1 -> tried update use l s s2 r2 -> s1 = s2 /\ r1 = r2.
Proof.
  intros T. revert s2 r2. induction T; intros s2' r2 T2; inversion T2; subst; auto;
    repeat match goal with A : ?x = Ok _, B : ?x = Ok _ |- _ => rewrite A in B; inversion B; subst; clear B end; try congruence; try lia; auto.
Qed.
Definition ex_node (t : uri_type) (g : list Z) (ts result sts : Z) : cnode :=
  {| cn_url := ex_curi t false g; cn_ts := ts; cn_result := result; cn_happened := true; cn_sts := sts |}.
(** HTTP first, both fail: the RRDP (older success) loses against rsync's. *)
Definition ex_alts := [ex_curi UT_RSYNC false (cstr "rsync://a/m/x.cer"); ex_curi UT_HTTPS false (cstr "https://a/x.cer")].
Definition ex_cb (u : curi) (s : astate (list (list Z))) : res (astate (list (list Z)) * Z) := Ok ((fst s, snd s ++ [c_global u]), 0).
Definition ex_alt (hp rp : Z) (result : nat -> Z) :=
  cache_download_alt 7 ex_repo true true {| ce_result := result; ce_clock := fun n => 1001 |} (list (list Z))
    (fun _ s => Ok (s, -1)) ex_cb hp rp false ex_alts
    (({| ca_tal := ex_talname; ca_startup := 1000;
         ca_ht := [ex_node UT_HTTPS (cstr "https://a/x.cer") 10 0 10; ex_node UT_RSYNC (cstr "rsync://a/m/") 20 0 20] |}, ex_w0), []).
Definition alt_view (r : res (astate (list (list Z)) * Z)) := match r with Ok ((_, w), d, e) => Some (cw_log w, d, e) | _ => None end.
Example C36_nonvacuous :
  alt_view (ex_alt 60 50 (fun _ => -5)) = Some ([FHttp (cstr "https://a/x.cer"); FRsync (cstr "rsync://a/m/")], [cstr "rsync://a/m/x.cer"], 0) /\
  alt_view (ex_alt 60 50 (fun n => match n with 0%nat => -5 | _ => 0 end)) = Some ([FHttp (cstr "https://a/x.cer"); FRsync (cstr "rsync://a/m/")], [cstr "rsync://a/m/x.cer"], 0) /\
  alt_view (ex_alt 50 60 (fun n => 0)) = Some ([FRsync (cstr "rsync://a/m/")], [cstr "rsync://a/m/x.cer"], 0) /\
  alt_view (ex_alt 60 50 (fun n => 0)) = Some ([FHttp (cstr "https://a/x.cer")], [cstr "https://a/x.cer"], 0).
Proof. vm_compute. auto. Qed.

(** ** C37: cleanup. *)
Section C37.
  Variable J : Z.
  Variable repository : list Z.
  Variable FE : fsenv.
  Variables (c c' : cache) (last_week : Z) (visits : list (list Z)) (t t' : tree).
  Hypothesis conf : conf_ok repository (Some (ca_tal c)) None.
  Hypothesis keys : NoDup (map cn_key (ca_ht c)).
  Hypothesis run : cache_cleanup J repository FE c last_week visits t = Ok (c', t').
  Notation node_path := (node_path J repository (ca_tal c)).
  Notation tal_json := (tal_json repository (ca_tal c)).

  Lemma cleanup_split : exists t1, cleanup_nodes J repository FE (ca_tal c) last_week (ca_ht c) (ca_ht c) t = Ok (ca_ht c', t1) /\
    delete_unknown_files J repository FE (ca_tal c) (ca_ht c') visits t1 = Ok t'.
  Proof using run.
    unfold cache_cleanup in run. destruct (cleanup_nodes J repository FE (ca_tal c) last_week (ca_ht c) (ca_ht c) t) as [[ht t1]| |]; cbn [bind] in run; try discriminate.
    destruct (delete_unknown_files J repository FE (ca_tal c) ht visits t1) as [t2| |] eqn:U; cbn [bind] in run; inversion run; subst. exists t1. auto.
  Qed.
  (** Nothing appears; the nodes kept are as they were, and fresh. *)
  Theorem C37_nodes : (forall n, In n (ca_ht c') -> In n (ca_ht c) /\ last_week < cn_ts n) /\ (forall e, In e t' -> In e t).
  Proof using conf keys run.
    destruct conf as (C1 & C2 & _). destruct cleanup_split as (t1 & A & B).
    destruct (cleanup_nodes_inv J repository FE (ca_tal c) last_week (ca_ht c) keys _ _ _ _ (fun n I => I) keys A) as (N1 & N2 & _ & N4 & _).
    destruct (unknown_inv J repository FE (ca_tal c) C1 C2 _ _ _ _ B) as (U1 & _). split; auto.
  Qed.
  (** What belongs to a kept node, or to the index file, stays - unless it is at or
      below a path of a node that's removed. *)
  Theorem C37_kept e : In e t ->
    related (fst e) tal_json \/ (exists n p, In n (ca_ht c') /\ node_path n p /\ related (fst e) p) ->
    (forall r p, In r (ca_ht c) -> ~ In r (ca_ht c') -> node_path r p -> fst e <> p /\ ~ above p (fst e)) ->
    In e t'.
  Proof using conf keys run.
    destruct conf as (C1 & C2 & _). destruct cleanup_split as (t1 & A & B).
    destruct (cleanup_nodes_inv J repository FE (ca_tal c) last_week (ca_ht c) keys _ _ _ _ (fun n I => I) keys A) as (_ & _ & _ & _ & N5 & _).
    destruct (unknown_inv J repository FE (ca_tal c) C1 C2 _ _ _ _ B) as (_ & U2 & _). intros I R P. apply U2; [|tauto].
    apply N5; auto. intros r p IR NR NP. destruct (at_or_below p (fst e)) eqn:Q; auto. apply aob_iff in Q. destruct (P r p IR NR NP). destruct Q; [congruence|contradiction].
  Qed.
  (** When the paths of different nodes are apart, a fresh node whose file exists is
      kept, and with it everything at, above or below its paths. *)
  Theorem C37_fresh_partial n k :
    (forall m p q, In m (ca_ht c) -> m <> n -> node_path m p -> node_path n q -> ~ related p q) ->
    In n (ca_ht c) -> last_week < cn_ts n -> In (cn_key n, k) t ->
    In n (ca_ht c') /\ forall e p, In e t -> node_path n p -> related (fst e) p -> In e t'.
  Proof using conf keys run.
    intros APART I F X. destruct cleanup_split as (t1 & A & B).
    destruct (cleanup_nodes_inv J repository FE (ca_tal c) last_week (ca_ht c) keys _ _ _ _ (fun n I => I) keys A) as (_ & _ & _ & _ & _ & N6).
    assert (KN : In n (ca_ht c')).
    { eapply N6; eauto. intros r p IR NR NE NP. destruct (at_or_below p (cn_key n)) eqn:Q; auto. exfalso. apply (APART r p (cn_key n) IR NE NP); [left; auto|].
      apply aob_iff in Q. destruct Q as [<-|Q]; [left; auto|right; left; auto]. }
    split; auto. intros e p IE NP R. apply C37_kept; auto.
    - right. exists n, p. auto.
    - intros r q IR NR NQ. assert (r <> n) by congruence.
      assert (NAB : at_or_below q (fst e) = false).
      { destruct (at_or_below q (fst e)) eqn:Q; auto. exfalso. apply (APART r q p IR H NQ NP). eapply related_apart; eauto. }
      split; intros Q; [|]; assert (at_or_below q (fst e) = true) by (apply aob_iff; auto); congruence.
  Qed.
  (** What's left over is deleted: a file (or empty directory) related to no kept
      node and not to the index. *)
  Theorem C37_unknown p : (length tal_json < 4096)%nat -> (forall q, fe_rm FE q = true) ->
    In p visits -> ~ related p tal_json -> (forall n q, In n (ca_ht c') -> node_path n q -> ~ related p q) ->
    (forall e, In e t -> ~ above p (fst e)) -> forall k, ~ In (p, k) t'.
  Proof using conf keys run.
    intros L RM IV N1 N2 LEAF k IN. destruct conf as (C1 & C2 & _). destruct cleanup_split as (t1 & A & B).
    destruct (cleanup_nodes_inv J repository FE (ca_tal c) last_week (ca_ht c) keys _ _ _ _ (fun n I => I) keys A) as (_ & _ & _ & N4 & _).
    destruct (unknown_inv J repository FE (ca_tal c) C1 C2 _ _ _ _ B) as (_ & _ & U3).
    apply (U3 L RM p IV N1 N2 (fun e I => LEAF e (N4 e I)) (p, k) IN). reflexivity.
  Qed.
End C37.
(** Cleanup never breaks. *)
Theorem C37_total J repository FE c last_week visits t : conf_ok repository (Some (ca_tal c)) None ->
  Forall (fun n => printable (c_global (cn_url n))) (ca_ht c) ->
  exists r, cache_cleanup J repository FE c last_week visits t = Ok r.
Proof.
  intros (C1 & C2 & _) P. 
  assert (CG : forall n, printable (c_global (cn_url n)) -> (exists x, cage_of J repository (ca_tal c) (cn_url n) = Ok x) \/ exists e, cage_of J repository (ca_tal c) (cn_url n) = Err e).
  { intros n PN. unfold cage_of. destruct (C27_total J repository (Some (ca_tal c)) UT_CAGED (Some (c_global (cn_url n))) []) as [(u & ->)|(e & ->)]; cbn [bind]; eauto.
    - split; auto. split; auto. cbn. apply printable_nul. auto.
    - discriminate. }
  assert (DN : forall n ht t, printable (c_global (cn_url n)) -> Forall (fun n => printable (c_global (cn_url n))) ht ->
    exists ht' t', delete_node_and_cage J repository FE (ca_tal c) n ht t = Ok (ht', t') /\ Forall (fun n => printable (c_global (cn_url n))) ht').
  { intros n ht t0 PN F. assert (F' : Forall (fun n => printable (c_global (cn_url n))) (delete_node ht n)).
    { rewrite Forall_forall in *. intros m I. apply delete_in in I. apply F. tauto. }
    unfold delete_node_and_cage. destruct (c_notif (cn_url n)); [|eauto]. destruct (CG n PN) as [(x & ->)|(e & ->)]; eauto. }
  assert (CL : forall nodes ht t, Forall (fun n => printable (c_global (cn_url n))) nodes -> Forall (fun n => printable (c_global (cn_url n))) ht ->
    exists ht' t', cleanup_nodes J repository FE (ca_tal c) last_week nodes ht t = Ok (ht', t') /\ Forall (fun n => printable (c_global (cn_url n))) ht').
  { induction nodes as [|n nodes IH]; cbn [cleanup_nodes]; intros ht t0 FN F; [eauto|]. inversion FN; subst. unfold cleanup_node.
    destruct (negb _ && negb _).
    - destruct (DN n ht t0) as (ht1 & t1 & -> & F1); auto. cbn [bind]. apply IH; auto.
    - destruct (negb (is_node_fresh n last_week)); [|cbn [bind]; apply IH; auto].
      destruct (DN n ht (rm_rf FE (cn_key n) t0)) as (ht1 & t1 & -> & F1); auto. cbn [bind]. apply IH; auto. }
  assert (BD : forall ht, Forall (fun n => printable (c_global (cn_url n))) ht -> exists l, build_dnc J repository (ca_tal c) ht = Ok l).
  { induction ht as [|n ht IH]; cbn [build_dnc]; intros F; [eauto|]. inversion F; subst. destruct (IH H2) as (l & ->).
    destruct (c_notif (cn_url n)); [destruct (CG n H1) as [(x & ->)|(e & ->)]|]; cbn [bind]; eauto. }
  unfold cache_cleanup. destruct (CL _ _ t P P) as (ht & t1 & -> & F). cbn [bind]. unfold delete_unknown_files.
  destruct (meta_cases J repository (ca_tal c) C1 C2) as [(pb & -> & -> & pb' & PP)| ->]; cbn [bind]; [|eauto].
  destruct (BD ht F) as (l & ->). cbn [bind]. rewrite PP. cbn [bind]. eauto.
Qed.

(** An expired node at the path above a fresh one takes it with it: a request for
    "https://victim.net/" (which any CA can cause, and which fails) makes, a week
    later, the cleanup delete the files of all of victim.net's URLs, and - the
    victim's node comes later in the index - its RRDP repository. *)
Definition ex_victim : cnode :=
  {| cn_url := ex_curi UT_HTTPS true (cstr "https://victim.net/n.xml"); cn_ts := 1000; cn_result := 0; cn_happened := true; cn_sts := 1000 |}.
Definition ex_evil : cnode :=
  {| cn_url := ex_curi UT_HTTPS false (cstr "https://victim.net/"); cn_ts := 10; cn_result := -5; cn_happened := false; cn_sts := 0 |}.
Definition ex_tree : tree :=
  [(cstr "/var/cache/fort/lacnic/https", true); (cstr "/var/cache/fort/lacnic/https/victim.net", true);
   (cstr "/var/cache/fort/lacnic/https/victim.net/n.xml", false);
   (cstr "/var/cache/fort/lacnic/rrdp/victim.net/n.xml/a/b.cer", false);
   (cstr "/var/cache/fort/lacnic/tal.json", false); (cstr "/var/cache/fort/lacnic/old", false)].
Definition ex_fs : fsenv := {| fe_stat := fun _ => false; fe_rm := fun _ => true |}.
Definition ex_cleanup (ht : list cnode) : option (list (list Z) * list (list Z)) :=
  match cache_cleanup 7 ex_repo ex_fs {| ca_tal := ex_talname; ca_ht := ht; ca_startup := 2000 |} 500 (map fst ex_tree) ex_tree with
  | Ok (c, t) => Some (map (fun n => c_global (cn_url n)) (ca_ht c), map fst t)
  | _ => None
  end.
Theorem C37_nested_refuted : ex_cleanup [ex_evil; ex_victim] = Some ([], [cstr "/var/cache/fort/lacnic/tal.json"]) /\
  500 < cn_ts ex_victim /\ cn_result ex_victim = 0 /\ t_exists (cn_key ex_victim) ex_tree = true.
Proof. vm_compute. auto. Qed.
Example C37_nonvacuous : ex_cleanup [ex_victim] = Some ([cstr "https://victim.net/n.xml"],
  [cstr "/var/cache/fort/lacnic/https"; cstr "/var/cache/fort/lacnic/https/victim.net"; cstr "/var/cache/fort/lacnic/https/victim.net/n.xml";
   cstr "/var/cache/fort/lacnic/rrdp/victim.net/n.xml/a/b.cer"; cstr "/var/cache/fort/lacnic/tal.json"]).
Proof. vm_compute. auto. Qed.
(** The hypothesis of [C37_fresh_partial] holds there. *)
Example C37_apart : forall m p q, In m [ex_victim] -> m <> ex_victim ->
  node_path 7 ex_repo ex_talname m p -> node_path 7 ex_repo ex_talname ex_victim q -> ~ related p q.
Proof. intros m p q [<-|[]] N. congruence. Qed.
Definition ex_other : cnode :=
  {| cn_url := ex_curi UT_RSYNC false (cstr "rsync://a/m/"); cn_ts := 10; cn_result := 0; cn_happened := true; cn_sts := 10 |}.
Example C37_apart2 : (forall m p q, In m [ex_victim; ex_other] -> m <> ex_victim ->
  node_path 7 ex_repo ex_talname m p -> node_path 7 ex_repo ex_talname ex_victim q -> ~ related p q) /\
  ex_cleanup [ex_other; ex_victim] = ex_cleanup [ex_victim].
Proof.
  split; [|vm_compute; reflexivity]. intros m p q [<-|[<-|[]]] N P Q; [congruence|].
  assert (P' : p = cstr "/var/cache/fort/lacnic/rsync/a/m"). { destruct P as [->|[P _]]; [vm_compute; reflexivity|vm_compute in P; discriminate]. }
  assert (Q' : q = cstr "/var/cache/fort/lacnic/https/victim.net/n.xml" \/ q = cstr "/var/cache/fort/lacnic/rrdp/victim.net/n.xml").
  { destruct Q as [->|[_ Q]]; [left; vm_compute; reflexivity|right]. vm_compute in Q. inversion Q. reflexivity. }
  intros R. apply is_cached1_iff in R. destruct Q' as [->| ->]; subst p; vm_compute in R; discriminate.
Qed.

(** ** C56: an rsync URI is fetched as its module. *)

Lemma split_unique_first (a s b t : list Z) : a ++ 47 :: s = b ++ 47 :: t -> ~ In 47 a -> ~ In 47 b -> a = b /\ s = t.
Proof.
  revert b. induction a as [|x a IH]; intros [|y b] H Na Nb; cbn in H; inversion H; subst; auto.
  - destruct Nb. left. auto.
  - destruct Na. left. auto.
  - destruct (IH b H2) as [-> ->]; auto; intros I; [apply Na|apply Nb]; right; auto.
Qed.
(** [u] = "rsync://<d>/<m><rest>": what's fetched is "rsync://<d>/<m>/"; any other
    rsync URI is refused. *)
Theorem C56_module J repository tal u v : conf_ok repository (Some tal) None -> c_type u = UT_RSYNC ->
  get_url J repository u tal = Ok v ->
  (exists text, c_global u = cstr "rsync://" ++ text) ->
  exists d m rest, ~ In 47 d /\ ~ In 47 m /\ c_global u = cstr "rsync://" ++ d ++ 47 :: m ++ rest /\
    ((rest = [] /\ m <> []) \/ exists t, rest = 47 :: t) /\
    c_global v = cstr "rsync://" ++ d ++ 47 :: m ++ [47] /\ c_type v = UT_RSYNC.
Proof.
  intros C T G (text & GU).
  assert (X : (exists d m rest, text = d ++ 47 :: m ++ rest /\ ~ In 47 d /\ ~ In 47 m /\ ((rest = [] /\ m <> []) \/ exists t, rest = 47 :: t)) \/
    (forall d m rest, text = d ++ 47 :: m ++ rest -> ~ In 47 d -> ~ In 47 m -> ~ ((rest = [] /\ m <> []) \/ exists t, rest = 47 :: t))).
  { destruct (split_first text) as (d & cs & S). inversion S; subst.
    - right. intros d' m rest -> _ _ _. match goal with H : ~ In 47 _ |- _ => apply H end. apply in_app_iff. right. left. auto.
    - destruct (split_first s) as (m & cs1 & S'). inversion S'; subst.
      + destruct m as [|x m].
        * right. intros d' m rest E ND NM K. apply split_unique_first in E; auto. destruct E as [-> E].
          destruct m; [|discriminate]. cbn in E. subst rest. destruct K as [[_ K]|(t & K)]; [congruence|discriminate].
        * left. exists d, (x :: m), []. rewrite app_nil_r. repeat split; auto. left. split; auto. discriminate.
      + left. exists d, m, (47 :: s0). repeat split; auto. right. eauto. }
  destruct X as [(d & m & rest & -> & ND & NM & K)|N].
  - rewrite (get_url_module J repository tal u d m rest T GU ND NM K) in G.
    destruct (uri_create J repository (Some tal) UT_RSYNC None (module_url d m)) as [w| |] eqn:U; cbn [bind] in G; inversion G; subst.
    apply uri_create_inv in U. destruct U as (U1 & U2 & _). exists d, m, rest. repeat split; auto.
  - rewrite (get_url_refuses J repository tal u text T GU N) in G. discriminate.
Qed.
Lemma walk_nil d r : walk d [] r -> r = d.
Proof. intros W. remember [] as cs eqn:Q. destruct W; try discriminate. auto. Qed.
Lemma walk_blank d r : walk d [[]] r -> r = d.
Proof.
  intros W. remember [[]] as cs eqn:Q. destruct W; try discriminate; inversion Q; subst; [|congruence].
  apply walk_nil. auto.
Qed.
(** Without "..", the file is inside the directory the module is fetched to. *)
Theorem C56_inside_partial J repository tal u v : conf_ok repository (Some tal) None ->
  url_ok J repository tal u -> c_type u = UT_RSYNC -> get_url J repository u tal = Ok v ->
  (forall text cs, c_global u = cstr "rsync://" ++ text -> split_at text cs -> ~ In DOTDOT cs) ->
  c_local u = c_local v \/ above (c_local v) (c_local u).
Proof.
  intros C [_ U] T G ND. rewrite T in U. apply C27_contained in U; auto. destruct U as (_ & _ & comps & PL & _ & L).
  apply place_rsync_inv in PL. destruct PL as (text & dom & path & GU & (NE & d0 & cs & S & D1 & D2 & -> & W) & ->).
  destruct (C56_module J repository tal u v C T G) as (d & m & rest & Nd & Nm & GU' & K & GV & TV); [eauto|].
  specialize (ND _ _ GU S). rewrite GU in GU'. apply app_inv_head in GU'. subst text.
  assert (V : exists v', get_url J repository u tal = Ok v' /\ uri_create J repository (Some tal) UT_RSYNC None (module_url d m) = Ok (c_uri v')).
  { rewrite (get_url_module J repository tal u d m rest T GU Nd Nm K) in G.
    destruct (uri_create J repository (Some tal) UT_RSYNC None (module_url d m)) as [w| |] eqn:U; cbn [bind] in G; inversion G; subst.
    exists {| c_uri := w; c_notif := false |}. rewrite (get_url_module J repository tal u d m rest T GU Nd Nm K), U. auto. }
  destruct V as (v' & G' & U). rewrite G in G'. inversion G'; subst v'. clear G'. apply C27_contained in U; auto. destruct U as (_ & _ & comps' & PL' & _ & L').
  apply place_rsync_inv in PL'. destruct PL' as (text & dom & mp & GV' & NM' & ->). unfold module_url in GV'. apply app_inv_head in GV'. subst text.
  destruct NM' as (_ & d1 & cs1 & S1 & _ & _ & -> & W1).
  assert (S1' : split_at (d ++ 47 :: m ++ [47]) (d :: m :: [[]])).
  { apply sp_cons; auto. change (m ++ [47]) with (m ++ 47 :: []). apply sp_cons; auto. apply sp_last. intros []. }
  pose proof (split_fun _ _ S1 _ S1') as Q. inversion Q; subst d1 cs1. clear Q S1 S1'.
  assert (Q : exists cs', d0 = d /\ cs = m :: cs').
  { inversion S; subst.
    - exfalso. match goal with H : ~ In 47 (d ++ _) |- _ => apply H; apply in_app_iff; right; left; auto end.
    - match goal with H : ?a ++ 47 :: ?s = d ++ 47 :: _, N : ~ In 47 ?a |- _ => apply split_unique_first in H; auto; destruct H as [-> ->] end.
      match goal with H : split_at (m ++ rest) _ |- _ => rename H into S2 end. destruct K as [[-> _]|(t & ->)].
      + rewrite app_nil_r in S2. inversion S2; subst; [eauto|]. exfalso. apply Nm. apply in_app_iff. right. left. auto.
      + inversion S2; subst.
        * exfalso. match goal with H : ~ In 47 (m ++ _) |- _ => apply H; apply in_app_iff; right; left; auto end.
        * match goal with H : ?a ++ 47 :: _ = m ++ 47 :: _, N : ~ In 47 ?a |- _ => apply split_unique_first in H; auto; destruct H as [-> ->] end. eauto. }
  destruct Q as (cs' & -> & ->).
  assert (Q : exists x, path = mp ++ x).
  { assert (NDD : m <> DOTDOT) by (intros ->; apply ND; right; left; auto).
    assert (NC : ~ In DOTDOT cs') by (intros I; apply ND; right; right; auto).
    inversion W1 as [|? ? ? ? C1 W1'|? ? ? ? W1' E1|? ? ? ? A1 A2 A3 W1']; subst; try congruence.
    - apply walk_blank in W1'. subst mp. exists path. auto.
    - apply walk_blank in W1'. subst mp.
      inversion W as [|? ? ? ? C1 W'|? ? ? ? W' E1|? ? ? ? D3 D4 D5 W']; subst; try congruence; [destruct C1; contradiction|].
      apply walk_extends in W'; auto. }
  destruct Q as (x & ->). unfold c_local. rewrite L, L'.
  set (A := nonempty [repository; opt (Some tal)]). set (B := cstr "rsync" :: (match d with [] => [] | _ => [d] end) ++ mp).
  replace (A ++ cstr "rsync" :: (match d with [] => [] | _ => [d] end) ++ mp ++ x) with ((A ++ B) ++ x) by (unfold B; rewrite <- !app_assoc; cbn [app]; rewrite <- app_assoc; reflexivity).
  rewrite (join_app (A ++ B)) by (destruct A; discriminate). destruct x as [|y x]; [left; apply ext_nil|]. right. unfold above, ext. cbn [flat_map app].
  eexists. reflexivity.
Qed.
(** With "..", it may be elsewhere: rsync of module "b" puts nothing where
    "rsync://a/b/../c/d.cer" is looked for. *)
Theorem C56_dotdot_refuted : exists u v, url_ok 7 ex_repo ex_talname u /\ c_type u = UT_RSYNC /\ get_url 7 ex_repo u ex_talname = Ok v /\
  c_global v = cstr "rsync://a/b/" /\ c_local u = cstr "/var/cache/fort/lacnic/rsync/a/c/d.cer" /\ c_local v = cstr "/var/cache/fort/lacnic/rsync/a/b" /\
  ~ related (c_local u) (c_local v).
Proof.
  exists (ex_curi UT_RSYNC false (cstr "rsync://a/b/../c/d.cer")), (ex_curi UT_RSYNC false (cstr "rsync://a/b/")).
  split; [split; [intros H; vm_compute in H; discriminate|vm_compute; reflexivity]|]. do 5 (split; [vm_compute; reflexivity|]).
  intros R. apply is_cached1_iff in R. vm_compute in R. discriminate.
Qed.
Example C56_nonvacuous : exists v, get_url 7 ex_repo ex_r1 ex_talname = Ok v /\ c_global v = cstr "rsync://a/m/" /\
  c_local ex_r1 = cstr "/var/cache/fort/lacnic/rsync/a/m/x/1.cer" /\ c_local v = cstr "/var/cache/fort/lacnic/rsync/a/m".
Proof. eexists. split; [vm_compute; reflexivity|]. repeat split; vm_compute; reflexivity. Qed.

(** ** C57: the index survives a restart. *)
Section C57.
  Variable J : Z.
  Variable repository : list Z.
  Variable tt2str : Z -> option (list Z).
  Variable str2tt : list Z -> option Z.

  (** A node as the program makes them, whose times the calendar can write. *)
  Definition storable (tal : list Z) (n : cnode) : Prop :=
    url_ok J repository tal (cn_url n) /\ -2147483648 <= cn_result n <= 2147483647 /\
    (exists s, tt2str (cn_ts n) = Some s /\ str2tt s = Some (cn_ts n)) /\
    (if cn_happened n then exists s, tt2str (cn_sts n) = Some s /\ str2tt s = Some (cn_sts n) else cn_sts n = 0).
  Lemma starts_app (p s : list Z) : str_starts_with (p ++ s) p = true.
  Proof. apply starts_iff. exists s. auto. Qed.
  Lemma node_roundtrip tal n : conf_ok repository (Some tal) None -> storable tal n ->
    exists j, node2json tt2str n = Some j /\ json2node J repository str2tt tal j = Ok (Some n).
  Proof.
    intros C ([T U] & R & (ts & A1 & A2) & H). destruct n as [[u nt] ts0 r h sts]. unfold c_type, c_global in *. cbn [cn_url cn_ts cn_result cn_happened cn_sts c_uri] in *.
    assert (SC : (u_type u = UT_HTTPS /\ exists t, u_global u = cstr "https://" ++ t) \/ (u_type u = UT_RSYNC /\ exists t, u_global u = cstr "rsync://" ++ t)).
    { pose proof U as U'. apply C27_contained in U'; auto. destruct U' as (_ & _ & comps & PL & _). 
      remember (u_type u) as ty eqn:ETY. remember (u_global u) as gl eqn:EGL. destruct PL; [right|left|congruence|congruence]; split; eauto. }
    assert (GO : forall s (so : option Z), str_starts_with (u_global u) HTTPS_PREFIX = true /\ u_type u = UT_HTTPS \/ str_starts_with (u_global u) HTTPS_PREFIX = false /\ str_starts_with (u_global u) RSYNC_PREFIX = true /\ u_type u = UT_RSYNC ->
       (match s with Some x => exists y, str2tt x = Some y /\ so = Some y | None => so = None end) ->
       json2node J repository str2tt tal (JObj ([(cstr "url", JStr (u_global u))]
          ++ (if nt then [(cstr "is-rrdp-notification", JBool true)] else [])
          ++ [(cstr "attempt-timestamp", JStr ts); (cstr "attempt-result", JInt r)]
          ++ match s with Some s => [(cstr "success-timestamp", JStr s)] | None => [] end)) =
       Ok (Some {| cn_url := {| c_uri := u; c_notif := nt |}; cn_ts := ts0; cn_result := r; cn_happened := match so with Some _ => true | None => false end; cn_sts := match so with Some t => t | None => 0 end |})).
    { intros s so PF SO. set (obj := JObj _).
      assert (K1 : json_get_str obj (cstr "url") = Ok (Some (u_global u))) by (destruct nt, s; reflexivity).
      assert (K2 : json_get_bool obj (cstr "is-rrdp-notification") = Ok nt) by (destruct nt, s; reflexivity).
      assert (K3 : json_get_str obj (cstr "attempt-timestamp") = Ok (Some ts)) by (destruct nt, s; reflexivity).
      assert (K4 : json_object_get obj (cstr "attempt-result") = Some (JInt r)) by (destruct nt, s; reflexivity).
      assert (K5 : json_get_str obj (cstr "success-timestamp") = Ok s) by (destruct nt, s; reflexivity).
      assert (RB : (r <? -2147483648) || (2147483647 <? r) = false) by lia.
      assert (S5 : json_get_ts str2tt obj (cstr "success-timestamp") = Ok so).
      { unfold json_get_ts. rewrite K5. cbn [bind]. destruct s as [x|]; [destruct SO as (y & -> & ->)|subst so]; reflexivity. }
      assert (S3 : json_get_ts str2tt obj (cstr "attempt-timestamp") = Ok (Some ts0)).
      { unfold json_get_ts. rewrite K3. cbn [bind]. rewrite A2. reflexivity. }
      assert (S4 : json_get_int obj (cstr "attempt-result") = Ok r) by (unfold json_get_int; rewrite K4, RB; reflexivity).
      clearbody obj. unfold json2node. rewrite K1. cbv zeta. rewrite K2, S3, S4, S5.
      destruct PF as [[P1 P2]|(P1 & P2 & P3)]; rewrite P1, ?P2; [rewrite P2 in U|rewrite P3 in U]; rewrite U; reflexivity. }
    assert (PF : str_starts_with (u_global u) HTTPS_PREFIX = true /\ u_type u = UT_HTTPS \/ str_starts_with (u_global u) HTTPS_PREFIX = false /\ str_starts_with (u_global u) RSYNC_PREFIX = true /\ u_type u = UT_RSYNC).
    { destruct SC as [[T1 (t & ->)]|[T1 (t & ->)]]; [left|right]; repeat split; auto. }
    unfold node2json. cbn [cn_url cn_ts cn_result cn_happened cn_sts c_notif c_uri c_global]. rewrite A1. destruct h.
    - destruct H as (s & B1 & B2). rewrite B1. cbn [option_map]. eexists. split; [reflexivity|]. apply (GO (Some s) (Some sts)); eauto.
    - subst sts. eexists. split; [reflexivity|]. apply (GO None None); auto.
  Qed.
  (** Writing the index and reading it back gives the same index. *)
  Theorem C57_roundtrip tal ht : conf_ok repository (Some tal) None -> Forall (storable tal) ht ->
    load_tal_json J repository str2tt tal (Some (JArr (build_tal_json tt2str ht))) = Ok ht.
  Proof.
    intros C F. cbn [load_tal_json].
    assert (X : forall l, load_nodes J repository str2tt tal (build_tal_json tt2str ht) l = Ok (l ++ ht)); [|apply X].
    induction F as [|n ht N F IH]; intros l; cbn [build_tal_json load_nodes]; [rewrite app_nil_r; auto|].
    destruct (node_roundtrip tal n C N) as (j & -> & L). cbn [load_nodes]. rewrite L. cbn [bind]. rewrite IH. unfold add_node. rewrite <- app_assoc. auto.
  Qed.
  (** No index file breaks the program, and the nodes taken from one are well
      formed. *)
  Theorem C57_total tal file : conf_ok repository (Some tal) None ->
    exists ht, load_tal_json J repository str2tt tal file = Ok ht /\
      Forall (fun n => url_ok J repository tal (cn_url n) /\ -2147483648 <= cn_result n <= 2147483647) ht.
  Proof.
    intros C. assert (ND : forall j, exists o, json2node J repository str2tt tal j = Ok o /\
      (forall n, o = Some n -> url_ok J repository tal (cn_url n) /\ -2147483648 <= cn_result n <= 2147483647)).
    { intros j. unfold json2node. destruct (json_get_str j (cstr "url")) as [[url|]| |] eqn:S.
      2,3: (exists None; split; [reflexivity|discriminate]).
      2:{ unfold json_get_str in S. destruct (json_object_get j (cstr "url")) as [[]|]; discriminate. }
      assert (GO : forall t, t <> UT_CAGED -> exists o, match json_get_bool j (cstr "is-rrdp-notification") with
          | UB => UB | Err _ => Ok None
          | Ok is_notif => match uri_create J repository (Some tal) t None url with
            | UB => UB | Err _ => Ok None
            | Ok u => match json_get_ts str2tt j (cstr "attempt-timestamp"), json_get_int j (cstr "attempt-result"), json_get_ts str2tt j (cstr "success-timestamp") with
              | Ok (Some ts), Ok r, Ok s => Ok (Some {| cn_url := {| c_uri := u; c_notif := is_notif |}; cn_ts := ts; cn_result := r;
                                  cn_happened := match s with Some _ => true | None => false end; cn_sts := match s with Some t => t | None => 0 end |})
              | _, _, _ => Ok None end end end = Ok o /\ (forall n, o = Some n -> url_ok J repository tal (cn_url n) /\ -2147483648 <= cn_result n <= 2147483647)).
      { intros t TN. destruct (json_get_bool j (cstr "is-rrdp-notification")) as [b| |] eqn:B.
        2:(exists None; split; [reflexivity|discriminate]).
        2:{ unfold json_get_bool in B. destruct (json_object_get j (cstr "is-rrdp-notification")) as [[]|]; discriminate. }
        destruct (C27_total J repository (Some tal) t None url C) as [(u & U)|(e & U)]; [intros ->; congruence| |]; rewrite U; [|exists None; split; [reflexivity|discriminate]].
        destruct (json_get_ts str2tt j (cstr "attempt-timestamp")) as [[ts|]| |]; try (exists None; split; [reflexivity|discriminate]).
        destruct (json_get_int j (cstr "attempt-result")) as [r| |] eqn:R; try (exists None; split; [reflexivity|discriminate]).
        destruct (json_get_ts str2tt j (cstr "success-timestamp")) as [s| |]; try (exists None; split; [reflexivity|discriminate]).
        eexists. split; [reflexivity|]. intros n Q. inversion Q; subst. cbn [cn_url cn_result]. split.
        - pose proof U as U'. apply uri_create_inv in U'. destruct U' as (U1 & U2 & _). unfold url_ok, c_type, c_global. cbn [c_uri]. rewrite U1, U2. auto.
        - unfold json_get_int in R. destruct (json_object_get j (cstr "attempt-result")) as [v|]; [|inversion R; lia]. destruct v; try discriminate.
          match type of R with (if ?b then _ else _) = _ => destruct b eqn:Q2; inversion R; subst; lia end. }
      cbv zeta. destruct (str_starts_with url HTTPS_PREFIX); [apply GO; discriminate|]. destruct (str_starts_with url RSYNC_PREFIX); [apply GO; discriminate|].
      exists None. split; [reflexivity|discriminate]. }
    assert (X : forall l ht, Forall (fun n => url_ok J repository tal (cn_url n) /\ -2147483648 <= cn_result n <= 2147483647) ht ->
      exists ht', load_nodes J repository str2tt tal l ht = Ok ht' /\ Forall (fun n => url_ok J repository tal (cn_url n) /\ -2147483648 <= cn_result n <= 2147483647) ht').
    { induction l as [|j l IH]; cbn [load_nodes]; intros ht F; [eauto|]. destruct (ND j) as (o & -> & P). cbn [bind]. apply IH.
      destruct o as [n|]; auto. unfold add_node. apply Forall_app. split; auto. }
    destruct file as [[]|]; cbn [load_tal_json]; try (eexists; split; [reflexivity|constructor]). apply X. constructor.
  Qed.
End C57.
Definition ex_tt2str (t : Z) : option (list Z) := if (t <? 0) || (9 <? t) then None else Some [t + 48].
Definition ex_str2tt (s : list Z) : option Z := match s with [x] => Some (x - 48) | _ => None end.
Example C57_nonvacuous : Forall (storable 7 ex_repo ex_tt2str ex_str2tt ex_talname)
    [{| cn_url := ex_curi UT_HTTPS true (cstr "https://victim.net/n.xml"); cn_ts := 7; cn_result := 0; cn_happened := true; cn_sts := 7 |};
     {| cn_url := ex_curi UT_RSYNC false (cstr "rsync://a/m/"); cn_ts := 9; cn_result := -22; cn_happened := false; cn_sts := 0 |}] /\
  length (build_tal_json ex_tt2str [{| cn_url := ex_curi UT_HTTPS true (cstr "https://victim.net/n.xml"); cn_ts := 7; cn_result := 0; cn_happened := true; cn_sts := 7 |}]) = 1%nat.
Proof.
  split; [|vm_compute; reflexivity].
  repeat (apply Forall_cons; [split; [split; [intros H; vm_compute in H; discriminate|vm_compute; reflexivity]|split; [cbn; lia|split; [eexists; split; [vm_compute; reflexivity|vm_compute; reflexivity]|]]]|]); [|cbn; reflexivity|constructor].
  eexists. split; vm_compute; reflexivity.
Qed.
