(** Proofs about the local cache: requests and alternatives. *)
From Coq Require Import String.
From Verif Require Import Base BaseLemmas CString CLib PathBuilder PathSpec Resources Rrdp RrdpProofs2 LocalCache LocalCacheSpec.
Notation length := List.length.

Lemma find_key ht k n : find_node ht k = Some n -> cn_key n = k /\ In n ht.
Proof.
  induction ht as [|m t IH]; cbn [find_node]; [discriminate|]. destruct (path_eqb (cn_key m) k) eqn:Q.
  - intros H. inversion H; subst. apply path_eqb_true in Q. cbn; auto.
  - intros H. apply IH in H. cbn; tauto.
Qed.
Lemma find_in ht n : NoDup (map cn_key ht) -> In n ht -> find_node ht (cn_key n) = Some n.
Proof.
  induction ht as [|m t IH]; cbn [find_node map]; intros ND I; [destruct I|]. inversion ND; subst. destruct I as [<-|I].
  - assert (path_eqb (cn_key m) (cn_key m) = true) as -> by (apply path_eqb_true; auto). auto.
  - destruct (path_eqb (cn_key m) (cn_key n)) eqn:Q; [|auto]. apply path_eqb_true in Q. exfalso. apply H1. rewrite Q. apply in_map. auto.
Qed.
Lemma find_none ht k : find_node ht k = None -> ~ In k (map cn_key ht).
Proof.
  induction ht as [|m t IH]; cbn [find_node map]; [intros _ []|]. destruct (path_eqb (cn_key m) k) eqn:Q; [discriminate|].
  intros H [I|I]; [apply path_eqb_false in Q; auto|exact (IH H I)].
Qed.
Lemma set_node_keys ht k n' : cn_key n' = k -> map cn_key (set_node ht k n') = map cn_key ht.
Proof.
  intros K. induction ht as [|m t IH]; cbn [set_node map]; auto. destruct (path_eqb (cn_key m) k) eqn:Q; cbn [map]; [|f_equal; auto].
  apply path_eqb_true in Q. congruence.
Qed.
Lemma set_node_find ht k n' q : cn_key n' = k -> In k (map cn_key ht) ->
  find_node (set_node ht k n') q = if path_eqb k q then Some n' else find_node ht q.
Proof.
  intros K. induction ht as [|m t IH]; cbn [set_node map find_node]; [intros []|]. intros I.
  destruct (path_eqb (cn_key m) k) eqn:Q; cbn [find_node].
  - apply path_eqb_true in Q. rewrite K, Q. destruct (path_eqb k q); auto.
  - rewrite IH; [|apply path_eqb_false in Q; destruct I; [congruence|auto]].
    destruct (path_eqb k q) eqn:Q2; auto. apply path_eqb_true in Q2. subst q. rewrite Q. auto.
Qed.
Lemma set_node_forall (P : cnode -> Prop) ht k n' : Forall P ht -> P n' -> Forall P (set_node ht k n').
Proof.
  intros F N. induction F; cbn [set_node]; [constructor|]. destruct (path_eqb (cn_key x) k); constructor; auto.
Qed.
Lemma add_find ht n k : find_node (add_node ht n) k = match find_node ht k with Some m => Some m | None => if path_eqb (cn_key n) k then Some n else None end.
Proof. unfold add_node. induction ht as [|m t IH]; cbn [app find_node]; auto. destruct (path_eqb (cn_key m) k); auto. Qed.

Lemma type_eqb_true a b : type_eqb a b = true <-> a = b.
Proof. destruct a, b; cbn; split; congruence. Qed.

Section Requests.
  Variable J : Z.
  Variable repository : list Z.
  Variables (rsync_enabled http_enabled : bool).
  Variable E : cenv.
  Notation cache_download := (cache_download J repository rsync_enabled http_enabled E).
  Notation url_ok := (url_ok J repository).
  Notation index_ok := (index_ok J repository).
  Notation fetch_of := (fetch_of rsync_enabled http_enabled).

  Lemma get_url_ok tal u url : url_ok tal u -> get_url J repository u tal = Ok url -> url_ok tal url.
  Proof.
    intros W. unfold get_url. destruct (c_type u) eqn:T; try (intros H; inversion H; subst; auto; fail).
    assert (MK : forall g, bind (uri_create J repository (Some tal) UT_RSYNC None g) (fun v => Ok {| c_uri := v; c_notif := false |}) = Ok url -> url_ok tal url).
    { intros g H. destruct (uri_create J repository (Some tal) UT_RSYNC None g) as [v| |] eqn:U; inversion H; subst.
      assert (u_global v = g /\ u_type v = UT_RSYNC) as [G TT].
      { unfold uri_create in U. unfold str2global in U. destruct (forallb validate_url_character g); cbn [bind] in U; [|discriminate].
        destruct (autocomplete_local J repository g UT_RSYNC (Some tal) None); inversion U; auto. }
      split; unfold c_type, c_global; cbn [c_uri]; rewrite TT; [discriminate|]. rewrite G. auto. }
    destruct (slash_end (c_global u) 0 0) as [[n|] s]; [apply MK|]. destruct (Nat.eqb s 3 && _); [apply MK|discriminate].
  Qed.
  Lemma fetch_inj tal a b f : url_ok tal a -> url_ok tal b -> fetch_of a = Some f -> fetch_of b = Some f -> c_local a = c_local b.
  Proof.
    intros [Ta Ua] [Tb Ub]. unfold LocalCache.fetch_of.
    assert (G : c_type a = c_type b -> c_global a = c_global b -> c_local a = c_local b).
    { intros T GL. rewrite T, GL, Ub in Ua. unfold c_local. congruence. }
    destruct (c_type a) eqn:TA; [| |congruence]; destruct (c_type b) eqn:TB; try congruence; destruct rsync_enabled, http_enabled; intros A B; inversion A; inversion B; subst; try congruence; apply G; congruence.
  Qed.

  (** What one request does. *)
  Lemma download_cases u c w cw' r : url_ok (ca_tal c) u -> index_ok (ca_tal c) (ca_ht c) ->
    cache_download u (c, w) = Ok (cw', r) ->
    (cw' = (c, w) /\ ((exists e, get_url J repository u (ca_tal c) = Err e) \/
       exists url n, get_url J repository u (ca_tal c) = Ok url /\ find_node (ca_ht c) (c_local url) = Some n /\ ca_startup c <= cn_ts n /\ r = cn_result n)) \/
    (exists url f n c', get_url J repository u (ca_tal c) = Ok url /\
       (forall m, find_node (ca_ht c) (c_local url) = Some m -> cn_ts m < ca_startup c) /\
       cw' = (c', {| cw_log := cw_log w ++ [f]; cw_n := S (cw_n w) |}) /\ ca_tal c' = ca_tal c /\ ca_startup c' = ca_startup c /\
       index_ok (ca_tal c) (ca_ht c') /\ fetch_of (cn_url n) = Some f /\ cn_key n = c_local url /\
       cn_ts n = ce_clock E (cw_n w) /\ cn_result n = r /\ r = ce_result E (cw_n w) /\
       (r = 0 -> cn_happened n = true /\ cn_sts n = cn_ts n) /\
       forall q, find_node (ca_ht c') q = if path_eqb (c_local url) q then Some n else find_node (ca_ht c) q).
  Proof.
    intros W [IX ND] H. unfold LocalCache.cache_download in H. destruct (get_url J repository u (ca_tal c)) as [url|e|] eqn:G.
    2:{ inversion H; subst. left. split; auto. left. eauto. } 2:discriminate.
    pose proof (get_url_ok _ _ _ W G) as WU.
    destruct (find_node (ca_ht c) (c_local url)) as [n|] eqn:F.
    - unfold was_recently_downloaded in H. destruct (ca_startup c - cn_ts n <=? 0) eqn:R.
      + inversion H; subst. left. split; auto. right. exists url, n. repeat split; auto. lia.
      + right. destruct (fetch_of (cn_url n)) as [f|] eqn:FO; [|discriminate]. destruct (ce_clock E (cw_n w) =? -1); [discriminate|].
        destruct (find_key _ _ _ F) as [K I]. cbv zeta in H.
        set (n' := {| cn_url := cn_url n; cn_ts := ce_clock E (cw_n w); cn_result := ce_result E (cw_n w);
                      cn_happened := if ce_result E (cw_n w) =? 0 then true else cn_happened n; cn_sts := if ce_result E (cw_n w) =? 0 then ce_clock E (cw_n w) else cn_sts n |}) in *.
        assert (KN : cn_key n' = cn_key n) by reflexivity.
        exists url, f, n'. eexists. split; auto. split; [intros m Q; replace m with n by congruence; lia|].
        inversion H; subst. split; [reflexivity|]. cbn [ca_tal ca_ht ca_startup]. split; auto. split; auto.
        split. { split; [apply set_node_forall; auto; rewrite Forall_forall in IX; apply (IX n I)|]. rewrite set_node_keys; auto. }
        split; auto. split; [congruence|]. do 3 (split; [reflexivity|]). split.
        { intros R0. subst n'. cbn [cn_result cn_happened cn_sts cn_ts] in *. rewrite R0. auto. }
        intros q. rewrite set_node_find; [rewrite K; auto|auto|]. apply in_map. auto.
    - right. destruct (fetch_of url) as [f|] eqn:FO; cbn [cn_url] in H; rewrite FO in H; [|discriminate]. destruct (ce_clock E (cw_n w) =? -1); [discriminate|].
      cbv zeta in H. cbn [cn_happened cn_sts] in H.
      set (n0 := {| cn_url := url; cn_ts := 0; cn_result := 0; cn_happened := false; cn_sts := 0 |}) in *.
      set (n' := {| cn_url := url; cn_ts := ce_clock E (cw_n w); cn_result := ce_result E (cw_n w);
                      cn_happened := if ce_result E (cw_n w) =? 0 then true else false; cn_sts := if ce_result E (cw_n w) =? 0 then ce_clock E (cw_n w) else 0 |}) in *.
      assert (KN : cn_key n' = cn_key n0) by reflexivity. assert (K0 : cn_key n0 = c_local url) by reflexivity.
      assert (KA : map cn_key (add_node (ca_ht c) n0) = map cn_key (ca_ht c) ++ [cn_key n0]) by (unfold add_node; rewrite map_app; auto).
      exists url, f, n'. eexists. split; auto. split; [intros m Q; congruence|].
      inversion H; subst. split; [reflexivity|]. cbn [ca_tal ca_ht ca_startup]. split; auto. split; auto.
      split. { split.
        - apply set_node_forall; [|exact WU]. unfold add_node. apply Forall_app. split; auto.
        - rewrite set_node_keys by auto. rewrite KA. apply NoDup_app_r || idtac.
          assert (NI : ~ In (cn_key n0) (map cn_key (ca_ht c))) by (rewrite K0; apply find_none; auto).
          clear -ND NI. induction (map cn_key (ca_ht c)) as [|x l IH]; cbn [app]; [constructor; [intros []|constructor]|].
          inversion ND; subst. constructor; [|apply IH; auto; intros I; apply NI; right; auto]. intros I. apply in_app_iff in I.
          destruct I as [I|[I|[]]]; [auto|]. apply NI. left. auto. }
      split; auto. split; [auto|]. do 3 (split; [reflexivity|]). split.
      { intros R0. subst n'. cbn [cn_result cn_happened cn_sts cn_ts] in *. rewrite R0. auto. }
      intros q. rewrite set_node_find; [|auto|rewrite KA; apply in_app_iff; right; left; auto].
      rewrite K0, add_find, K0. destruct (path_eqb (c_local url) q) eqn:Q; auto. destruct (find_node (ca_ht c) q); auto.
  Qed.

  Definition recent (c : cache) (k : list Z) (n : cnode) : Prop := find_node (ca_ht c) k = Some n /\ ca_startup c <= cn_ts n.

  (** During a run: the state keeps its shape, what's recent stays as it is, and
      what is fetched becomes recent. *)
  Lemma requests_inv us s rs s' : requests J repository rsync_enabled http_enabled E us s rs s' ->
    (forall n, ca_startup (fst s) <= ce_clock E n) -> Forall (url_ok (ca_tal (fst s))) us -> index_ok (ca_tal (fst s)) (ca_ht (fst s)) ->
    ca_tal (fst s') = ca_tal (fst s) /\ ca_startup (fst s') = ca_startup (fst s) /\ index_ok (ca_tal (fst s)) (ca_ht (fst s')) /\
    (forall k n, recent (fst s) k n -> recent (fst s') k n) /\
    exists new, cw_log (snd s') = cw_log (snd s) ++ new /\ NoDup new /\
      (forall f, In f new -> exists k n, recent (fst s') k n /\ (forall m, ~ recent (fst s) k m) /\ fetch_of (cn_url n) = Some f).
  Proof.
    induction 1 as [s|u us [c w] r [c1 w1] rs s' D R IH]; cbn [fst snd]; intros CL WF IX.
    { do 4 (split; auto). exists []. rewrite app_nil_r. repeat split; auto; [constructor|]. intros f []. }
    inversion WF; subst. destruct (download_cases _ _ _ _ _ H1 IX D) as [(E1 & _)|(url & f & n & c' & G & OLD & E1 & T & S & IX' & FO & K & TS & RR & _ & _ & FIND)].
    - inversion E1; subst. apply IH; auto.
    - inversion E1; subst c1 w1. clear E1. cbn [fst snd cw_log] in IH. rewrite T, S in IH. destruct (IH CL H2 IX') as (T' & S' & IX2 & KEEP & new & LOG & ND & NEW).
      assert (RN : recent c' (c_local url) n).
      { split; [|rewrite S, TS; apply CL]. rewrite FIND. assert (path_eqb (c_local url) (c_local url) = true) as -> by (apply path_eqb_true; auto). auto. }
      assert (KEEP0 : forall k m, recent c k m -> recent c' k m).
      { intros k m [F TM]. split; [|lia]. rewrite FIND. destruct (path_eqb (c_local url) k) eqn:Q; auto. apply path_eqb_true in Q. subst k. apply OLD in F. lia. }
      do 2 (split; auto). split; auto. split; [intros k m RM; apply KEEP; auto|].
      exists (f :: new). rewrite LOG, <- app_assoc. split; auto. split.
      + constructor; auto. intros I. destruct (NEW f I) as (k & m & RM & NR & FM).
        assert (k = c_local url); [|subst k; exact (NR n RN)].
        destruct RM as [FK _]. destruct (find_key _ _ _ FK) as [<- IM]. rewrite <- K. unfold cn_key.
        destruct IX2 as [IXF _]. rewrite Forall_forall in IXF. eapply (fetch_inj (ca_tal c)); [apply IXF; auto| |exact FM|exact FO].
        apply KEEP in RN. destruct RN as [FN _]. apply find_key in FN. apply IXF. tauto.
      + intros g [<-|I].
        * exists (c_local url), n. split; [apply KEEP; auto|]. split; auto. intros m [F TM]. apply OLD in F. lia.
        * destruct (NEW g I) as (k & m & RM & NR & FM). exists k, m. split; auto. split; auto. intros m' RM'. apply KEEP0 in RM'. exact (NR _ RM').
  Qed.

  (** The result of a request, in terms of the index after it. *)
  Lemma download_result u c w cw' r url : url_ok (ca_tal c) u -> index_ok (ca_tal c) (ca_ht c) -> (forall n, ca_startup c <= ce_clock E n) ->
    cache_download u (c, w) = Ok (cw', r) -> get_url J repository u (ca_tal c) = Ok url ->
    exists n, recent (fst cw') (c_local url) n /\ cn_result n = r.
  Proof.
    intros W IX CL D G. destruct (download_cases _ _ _ _ _ W IX D) as [(-> & [(e & G')|(url' & n & G' & F & T & ->)])|(url' & f & n & c' & G' & OLD & -> & T & S & IX' & FO & K & TS & RR & _ & _ & FIND)];
      rewrite G in G'; inversion G'; subst.
    - exists n. split; auto. split; auto.
    - exists n. split; auto. split; cbn [fst]; [|rewrite S, TS; auto]. rewrite FIND.
      assert (path_eqb (c_local url') (c_local url') = true) as -> by (apply path_eqb_true; auto). auto.
  Qed.
End Requests.

Section Alternatives.
  Variable J : Z.
  Variable repository : list Z.
  Variables (rsync_enabled http_enabled : bool).
  Variable E : cenv.
  Variable D : Type.
  Variable rrdp_update : curi -> astate D -> res (astate D * Z).
  Variable cb : curi -> astate D -> res (astate D * Z).
  Variables (hp rp : Z).
  Variable use_rrdp : bool.
  Notation update := (update J repository rsync_enabled http_enabled E D rrdp_update use_rrdp).
  Notation download := (download J repository rsync_enabled http_enabled E D rrdp_update cb use_rrdp).
  Notation download_uris := (download_uris J repository rsync_enabled http_enabled E D rrdp_update cb use_rrdp).
  Notation download_all := (download_all J repository rsync_enabled http_enabled E D rrdp_update cb use_rrdp).
  Notation cache_download_alt := (cache_download_alt J repository rsync_enabled http_enabled E D rrdp_update cb hp rp use_rrdp).
  Notation tried := (tried update cb).

  (** The state and result of trying, as the code reports it. *)
  Definition reported (s' : astate D) (r : option Z) (e : Z) : Prop := match r with Some e' => e = e' /\ e <= 0 | None => 0 < e end.

  Lemma all_tried l : forall s s' e, download_all l s = Ok (s', e) -> exists r, tried l s s' r /\ reported s' r e.
  Proof.
    induction l as [|u l IH]; cbn [LocalCache.download_all]; intros s s' e H.
    - inversion H; subst. exists None. split; [constructor|cbn; lia].
    - unfold LocalCache.download in H. destruct (update u s) as [[s1 e1]| |] eqn:U; cbn [bind] in H; try discriminate.
      destruct (e1 =? 0) eqn:Q; cbn [negb bind] in H.
      + apply Z.eqb_eq in Q. subst e1. destruct (cb u s1) as [[s2 e2]| |] eqn:C; cbn [bind] in H; try discriminate.
        destruct (e2 <=? 0) eqn:Q2.
        * inversion H; subst. exists (Some e). split; [eapply tr_used; eauto; lia|]. cbn. lia.
        * destruct (IH _ _ _ H) as (r & T & R). exists r. split; auto. eapply tr_unused; eauto. lia.
      + destruct (IH _ _ _ H) as (r & T & R). exists r. split; auto. eapply tr_fail; eauto. lia.
  Qed.
  Lemma tried_all l s s' r : tried l s s' r -> exists e, download_all l s = Ok (s', e) /\ reported s' r e.
  Proof.
    induction 1; cbn [LocalCache.download_all].
    - exists 1. split; auto. cbn. lia.
    - destruct IHtried as (e' & A & R). exists e'. split; auto. unfold LocalCache.download. rewrite H. cbn [bind].
      destruct (e =? 0) eqn:Q; [lia|]. cbn [negb bind]. exact A.
    - destruct IHtried as (e' & A & R). exists e'. split; auto. unfold LocalCache.download. rewrite H. cbn [bind]. rewrite Z.eqb_refl. cbn [negb]. rewrite H0. cbn [bind].
      destruct (e <=? 0) eqn:Q; [lia|]. exact A.
    - exists e. split; [|cbn; auto]. unfold LocalCache.download. rewrite H. cbn [bind]. rewrite Z.eqb_refl. cbn [negb]. rewrite H0. cbn [bind].
      destruct (e <=? 0) eqn:Q; [auto|lia].
  Qed.
  Lemma uris_all l t s : download_uris l t s = download_all (of_type t l) s.
  Proof.
    revert s. induction l as [|u l IH]; cbn [LocalCache.download_uris of_type filter]; intros s; auto.
    destruct (type_eqb (c_type u) t); cbn [LocalCache.download_all]; auto.
    destruct (download u s) as [[s1 e]| |]; cbn [bind]; auto. destruct (e <=? 0); auto.
  Qed.
  Lemma all_app a b s : download_all (a ++ b) s = bind (download_all a s) (fun '(s, e) => if e <=? 0 then Ok (s, e) else download_all b s).
  Proof.
    revert s. induction a as [|u a IH]; cbn [LocalCache.download_all app]; intros s; auto.
    destruct (download u s) as [[s1 e]| |]; cbn [bind]; auto. destruct (e <=? 0) eqn:Q; auto. cbn [bind]. rewrite Q. auto.
  Qed.
  Lemma alt_preference l s : cache_download_alt l s =
    bind (download_all (preference hp rp l) s) (fun '(s, error) =>
      if error <=? 0 then Ok (s, error)
      else bind (cache_recover J repository (fst (fst s)) l) (fun best =>
           match best with Some u => cb u s | None => Ok (s, ESRCH_Z) end)).
  Proof.
    unfold LocalCache.cache_download_alt, preference. destruct (Z.compare_spec hp rp) as [Q|Q|Q].
    - subst. rewrite Z.ltb_irrefl. reflexivity.
    - destruct (rp <? hp) eqn:A; [lia|]. destruct (hp <? rp) eqn:B; [|lia]. rewrite all_app, !uris_all. f_equal. 
      destruct (download_all (of_type UT_RSYNC l) s) as [[s1 e]| |]; cbn [bind]; auto. destruct (e <=? 0); auto. rewrite uris_all. auto.
    - destruct (rp <? hp) eqn:A; [|lia]. rewrite all_app, !uris_all. f_equal.
      destruct (download_all (of_type UT_HTTPS l) s) as [[s1 e]| |]; cbn [bind]; auto. destruct (e <=? 0); auto. rewrite uris_all. auto.
  Qed.

  (** Recovery. *)
  Lemma better_dec a b : {better a b} + {~ better a b}.
  Proof. unfold better. destruct (Z.eq_dec (cn_result a) 0), (Z.eq_dec (cn_result b) 0), (Z_lt_dec (cn_sts b) (cn_sts a)); try (left; tauto); right; tauto. Qed.
  Lemma choose_spec o n same : choose_better o n same = true -> cn_happened n = true \/ same = true.
  Proof. unfold choose_better. destruct (cn_happened n); auto. Qed.

  Definition best_so_far (c : cache) (l : list curi) (best : option (curi * cnode)) : Prop :=
    match best with
    | None => forall u n, In u l -> ~ cached_as J repository c u n
    | Some (u, n) => In u l /\ cached_as J repository c u n /\ forall u' n', In u' l -> cached_as J repository c u' n' -> ~ better n' n
    end.
  Lemma better_trans_not a b c : ~ better a b -> better c b -> ~ better a c.
  Proof. unfold better. intros H1 H2 H3. destruct (Z.eq_dec (cn_result a) 0), (Z.eq_dec (cn_result b) 0), (Z.eq_dec (cn_result c) 0); intuition lia. Qed.
  Lemma recover_loop c l : NoDup (map cn_key (ca_ht c)) -> forall seen best b, best_so_far c seen best ->
    cache_recover_loop J repository c l best = Ok b -> best_so_far c (seen ++ l) b.
  Proof.
    intros ND. induction l as [|u l IH]; intros seen best b B H; cbn [LocalCache.cache_recover_loop] in H.
    { inversion H; subst. rewrite app_nil_r. auto. }
    assert (STEP : forall best', best_so_far c (seen ++ [u]) best' -> cache_recover_loop J repository c l best' = Ok b -> best_so_far c (seen ++ u :: l) b).
    { intros best' B' H'. pose proof (IH _ _ _ B' H') as X. rewrite <- app_assoc in X. exact X. }
    assert (SKIP : (forall n, ~ cached_as J repository c u n) -> best_so_far c (seen ++ [u]) best).
    { intros NC. destruct best as [[v m]|]; cbn in *.
      - destruct B as (I & C & M). split; [apply in_app_iff; auto|]. split; auto. intros u' n' I' C'. apply in_app_iff in I'. destruct I' as [I'|[<-|[]]]; [eapply M; eauto|destruct (NC _ C')].
      - intros v m I. apply in_app_iff in I. destruct I as [I|[<-|[]]]; auto. }
    destruct (get_url J repository u (ca_tal c)) as [url| |] eqn:G; [| |discriminate].
    2:{ apply (STEP best); auto. apply SKIP. intros n (url & G' & _). congruence. }
    destruct (find_node (ca_ht c) (c_local url)) as [n|] eqn:F.
    2:{ apply (STEP best); auto. apply SKIP. intros n (url' & G' & I & K & _). rewrite G in G'. inversion G'; subst url'. apply find_none in F. apply F. rewrite <- K. apply in_map. auto. }
    destruct (find_key _ _ _ F) as [K I].
    assert (UNIQ : forall m, cached_as J repository c u m -> m = n).
    { intros m (url' & G' & I' & K' & _). rewrite G in G'. inversion G'; subst url'. rewrite <- K' in F. rewrite find_in in F by auto. congruence. }
    destruct (cn_happened n) eqn:HN.
    2:{ assert (SK : best_so_far c (seen ++ [u]) best) by (apply SKIP; intros m C; pose proof (UNIQ _ C); subst m; destruct C as (? & _ & _ & _ & HH); congruence).
        destruct best as [[v m]|]; cbn [option_map snd] in H; unfold choose_better in H; rewrite HN in H; cbn [negb] in H; [|apply (STEP None); auto].
        destruct (path_eqb (cn_key m) (cn_key n)) eqn:Q; [|apply (STEP (Some (v, m))); auto].
        exfalso. apply path_eqb_true in Q. cbn in B. destruct B as (_ & (? & _ & IM & KM & HM) & _).
        rewrite <- K, <- Q, find_in in F by auto. congruence. }
    assert (C : cached_as J repository c u n) by (exists url; auto).
    assert (TAKE : (forall m, (exists v, best = Some (v, m)) -> better n m \/ m = n) -> best_so_far c (seen ++ [u]) (Some (u, n))).
    { intros T. cbn. split; [apply in_app_iff; right; left; auto|]. split; auto. intros u' n' I' C'. apply in_app_iff in I'.
      destruct I' as [I'|[<-|[]]]; [|pose proof (UNIQ _ C'); subst n'; unfold better; intuition lia].
      destruct best as [[v m]|]; cbn in B; [|destruct (B _ _ I' C')]. destruct B as (_ & _ & M).
      destruct (T m) as [BN| <-]; eauto. eapply better_trans_not; eauto. }
    assert (KEEP : forall v m, best = Some (v, m) -> ~ better n m -> best_so_far c (seen ++ [u]) best).
    { intros v m -> NB. cbn in *. destruct B as (I' & C' & M). split; [apply in_app_iff; auto|]. split; auto. intros u' n' I2 C2. apply in_app_iff in I2.
      destruct I2 as [I2|[<-|[]]]; [eapply M; eauto|]. rewrite (UNIQ _ C2). auto. }
    destruct best as [[v m]|]; cbn [option_map snd] in H.
    2:{ unfold choose_better in H. rewrite HN in H. cbn [negb] in H. apply (STEP (Some (u, n))); auto. apply TAKE. intros m (v & Q). discriminate. }
    assert (SAME : path_eqb (cn_key m) (cn_key n) = true -> m = n).
    { intros Q. apply path_eqb_true in Q. cbn in B. destruct B as (_ & (? & _ & IM & KM & HM) & _). rewrite <- K, <- Q, find_in in F by auto. congruence. }
    unfold choose_better in H. rewrite HN in H. cbn [negb] in H.
    assert (TK : forall b0 : bool, (if b0 then cache_recover_loop J repository c l (Some (u, n)) else cache_recover_loop J repository c l (Some (v, m))) = Ok b ->
      (b0 = true -> better n m \/ m = n) -> (b0 = false -> ~ better n m) -> best_so_far c (seen ++ u :: l) b).
    { intros [|] H' T1 T2.
      - apply (STEP (Some (u, n))); auto. apply TAKE. intros m' (v' & Q). inversion Q; subst. auto.
      - apply (STEP (Some (v, m))); auto. eapply KEEP; eauto. }
    refine (TK _ H _ _); unfold better;
      destruct (cn_result m =? 0) eqn:Q1; destruct (cn_result n =? 0) eqn:Q2; cbn [negb andb]; try (intros Q; apply SAME in Q; auto; fail);
      try (destruct (cn_sts m - cn_sts n <? 0) eqn:Q3); try (intros Q; apply SAME in Q; auto; fail); try (intros; left; lia); try discriminate; try lia.
  Qed.
End Alternatives.
