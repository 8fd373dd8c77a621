(** Proofs about the local cache: rsync URLs, cleanup, index file. *)
From Coq Require Import String.
From Verif Require Import Base BaseLemmas CString CLib PathBuilder PathSpec PathProofs PathProofs2 PathProofs3 PathProofs4 PathProps
  Resources Rrdp RrdpProofs2 Slurm LocalCache LocalCacheSpec LocalCacheProofs.
Notation length := List.length.

(** ** rsync URLs *)
Lemma slash_skip a s k p : ~ In 47 a -> slash_end (a ++ s) k p = slash_end s k (p + length a).
Proof.
  revert p. induction a as [|x a IH]; intros p N; cbn [app slash_end length]; [rewrite Nat.add_0_r; auto|].
  destruct (x =? 47) eqn:Q; [exfalso; apply N; left; lia|]. rewrite IH by (intros I; apply N; right; auto). f_equal. lia.
Qed.
Lemma slash_third d t : ~ In 47 d -> slash_end (cstr "rsync://" ++ d ++ 47 :: t) 0 0 = slash_end t 3 (9 + length d).
Proof.
  intros N. change (cstr "rsync://") with [114; 115; 121; 110; 99; 58; 47; 47]. cbn [app slash_end Z.eqb Pos.eqb Nat.eqb].
  rewrite slash_skip by auto. cbn [slash_end Z.eqb Pos.eqb Nat.eqb]. f_equal.
Qed.
Lemma slash_none s k p : ~ In 47 s -> slash_end s k p = (None, k).
Proof. intros N. rewrite <- (app_nil_r s), slash_skip by auto. reflexivity. Qed.

Definition module_url (d m : list Z) : list Z := cstr "rsync://" ++ d ++ 47 :: m ++ [47].
Lemma get_url_module J repository tal u d m rest : c_type u = UT_RSYNC -> c_global u = cstr "rsync://" ++ d ++ 47 :: m ++ rest ->
  ~ In 47 d -> ~ In 47 m -> (rest = [] /\ m <> []) \/ (exists t, rest = 47 :: t) ->
  get_url J repository u tal = bind (uri_create J repository (Some tal) UT_RSYNC None (module_url d m)) (fun v => Ok {| c_uri := v; c_notif := false |}).
Proof.
  intros T G ND NM C. unfold get_url. rewrite T, G. cbv zeta. rewrite slash_third by auto. destruct C as [[-> NE]|(t & ->)].
  - rewrite app_nil_r, slash_none by auto. cbn [Nat.eqb andb].
    assert (L : nth (length (cstr "rsync://" ++ d ++ 47 :: m) - 1) (cstr "rsync://" ++ d ++ 47 :: m) 0 <> 47).
    { destruct (exists_last NE) as (m' & x & ->). assert (X : x <> 47) by (intros ->; apply NM; apply in_app_iff; right; left; auto).
      replace (cstr "rsync://" ++ d ++ 47 :: m' ++ [x]) with ((cstr "rsync://" ++ d ++ 47 :: m') ++ [x]) by (rewrite <- !app_assoc; reflexivity).
      rewrite app_length. cbn [length]. rewrite Nat.add_sub, app_nth2, Nat.sub_diag by lia. exact X. }
    destruct (nth _ _ 0 =? 47) eqn:Q; [lia|]. cbn [negb]. unfold module_url.
    replace ((cstr "rsync://" ++ d ++ 47 :: m) ++ [47]) with (cstr "rsync://" ++ d ++ 47 :: m ++ [47]) by (rewrite <- !app_assoc; reflexivity). reflexivity.
  - rewrite slash_skip by auto. cbn [slash_end Z.eqb Pos.eqb Nat.eqb].
    assert (F : firstn (S (9 + length d + length m)) (cstr "rsync://" ++ d ++ 47 :: m ++ 47 :: t) = module_url d m).
    { unfold module_url. replace (cstr "rsync://" ++ d ++ 47 :: m ++ 47 :: t) with ((cstr "rsync://" ++ d ++ 47 :: m ++ [47]) ++ t) by (rewrite <- !app_assoc; cbn [app]; rewrite <- app_assoc; reflexivity).
      rewrite firstn_app, firstn_all2; [|rewrite !app_length; cbn [length]; rewrite app_length; cbn; lia].
      assert (L : length (cstr "rsync://" ++ d ++ 47 :: m ++ [47]) = S (9 + length d + length m)).
      { rewrite !app_length. cbn [length]. rewrite app_length. change (length (cstr "rsync://")) with 8%nat. cbn [length]. lia. }
      rewrite L, Nat.sub_diag.
      cbn [firstn]. apply app_nil_r. }
    rewrite F. reflexivity.
Qed.
Lemma get_url_refuses J repository tal u text : c_type u = UT_RSYNC -> c_global u = cstr "rsync://" ++ text ->
  (forall d m rest, text = d ++ 47 :: m ++ rest -> ~ In 47 d -> ~ In 47 m -> ~ ((rest = [] /\ m <> []) \/ exists t, rest = 47 :: t)) ->
  get_url J repository u tal = Err EINVAL.
Proof.
  intros T G N. unfold get_url. rewrite T, G. cbv zeta.
  destruct (in_dec Z.eq_dec 47 text) as [I|I].
  - apply in_split in I. destruct I as (d0 & t0 & E0).
    assert (X : exists d t, text = d ++ 47 :: t /\ ~ In 47 d).
    { destruct (split_first text) as (d & cs & S). inversion S; subst; [exfalso; match goal with H : ~ In 47 _ |- _ => apply H; apply in_app_iff; right; left; auto end|eauto]. }
    clear d0 t0 E0. destruct X as (d & t & -> & ND). rewrite slash_third by auto.
    destruct (split_first t) as (m & cs & S). inversion S; subst.
    + rewrite slash_none by auto. cbn [Nat.eqb andb].
      destruct m as [|x m]; [|exfalso; apply (N d (x :: m) []); rewrite ?app_nil_r; auto; left; split; auto; discriminate].
      replace (cstr "rsync://" ++ d ++ [47]) with ((cstr "rsync://" ++ d) ++ [47]) by (rewrite <- app_assoc; auto).
      rewrite app_length. cbn [length]. rewrite Nat.add_sub, app_nth2, Nat.sub_diag by lia. reflexivity.
    + exfalso. eapply (N d m (47 :: s)); eauto.
  - change (cstr "rsync://") with [114; 115; 121; 110; 99; 58; 47; 47]. cbn [app slash_end Z.eqb Pos.eqb Nat.eqb]. rewrite slash_none by auto. reflexivity.
Qed.

Lemma place_rsync_inv n g comps : place UT_RSYNC n g comps -> exists text dom path, g = cstr "rsync://" ++ text /\ names text dom path /\ comps = cstr "rsync" :: dom ++ path.
Proof. intros P. inversion P; subst. eauto 8. Qed.
Lemma walk_extends cs : ~ In DOTDOT cs -> forall d r, walk d cs r -> exists x, r = d ++ x.
Proof.
  intros N d r W. induction W as [d|d c cs r C W IH|d x cs r W IH|d c cs r N1 N2 N3 W IH].
  - exists []. rewrite app_nil_r. auto.
  - apply IH. intros I; apply N; right; auto.
  - exfalso. apply N. left. auto.
  - destruct IH as (x & ->); [intros I; apply N; right; auto|]. exists (c :: x). rewrite <- app_assoc. auto.
Qed.

(** ** Paths *)
Lemma is_cached1_iff f n : is_cached1 f n = true <-> related f n.
Proof.
  revert n. induction f as [|x f IH]; intros [|y n]; cbn [is_cached1].
  - split; auto. intros _. left. auto.
  - split.
    + intros H. right. left. exists n. cbn. f_equal. lia.
    + intros [H|[(t & H)|(t & H)]]; [discriminate| |discriminate]. cbn in H. inversion H. lia.
  - split.
    + intros H. right. right. exists f. cbn. f_equal. lia.
    + intros [H|[(t & H)|(t & H)]]; [discriminate|discriminate|]. cbn in H. inversion H. lia.
  - destruct (x =? y) eqn:Q.
    + assert (x = y) by lia. subst y. rewrite IH. unfold related, above. split.
      * intros [->|[(t & ->)|(t & ->)]]; [auto|right; left; exists t; auto|right; right; exists t; auto].
      * intros [H|[(t & H)|(t & H)]]; inversion H; subst; eauto.
    + split; [discriminate|]. intros [H|[(t & H)|(t & H)]]; inversion H; lia.
Qed.
Lemma aob_iff d q : at_or_below d q = true <-> q = d \/ above d q.
Proof.
  unfold at_or_below, above. rewrite orb_true_iff, path_eqb_true, starts_iff. split; (intros [H|(t & H)]; [auto|right; exists t]).
  - rewrite H, <- app_assoc. auto.
  - rewrite H, <- app_assoc. auto.
Qed.
Lemma app_prefix {A} (a b c d : list A) : a ++ c = b ++ d -> (exists x, b = a ++ x) \/ (exists x, a = b ++ x).
Proof.
  revert b. induction a as [|x a IH]; intros b H; [left; exists b; auto|]. destruct b as [|y b]; [right; exists (x :: a); auto|].
  inversion H; subst. destruct (IH b H2) as [(z & ->)|(z & ->)]; [left|right]; exists z; auto.
Qed.
(** Two paths at or above a third are related. *)
Lemma two_above p q e : at_or_below p e = true -> at_or_below q e = true -> related p q.
Proof.
  rewrite !aob_iff. unfold related. intros [->|(t & H)] [H'|H'].
  - auto.
  - auto.
  - subst. right. left. exists t. auto.
  - destruct H' as (t' & H'). rewrite H' in H. clear H' e.
    revert q H. induction p as [|x p IH]; intros [|y q] H; cbn in H.
    + auto.
    + inversion H; subst. right. left. exists q. auto.
    + inversion H; subst. right. right. exists p. auto.
    + inversion H; subst. match goal with H : q ++ _ = p ++ _ |- _ => destruct (IH q H) as [->|[(z & ->)|(z & ->)]] end; [auto|right; left; exists z; auto|right; right; exists z; auto].
Qed.
Lemma above_trans a b c : above a b -> above b c -> above a c.
Proof. intros (t & ->) (t' & ->). exists (t ++ 47 :: t'). rewrite <- app_assoc. auto. Qed.
Lemma related_sym a b : related a b -> related b a.
Proof. unfold related. intros [H|[H|H]]; auto. Qed.
(** Something related to [p] isn't at or below something unrelated to [p]. *)
Lemma related_apart p q e : related e p -> at_or_below q e = true -> related q p.
Proof.
  intros R A. apply aob_iff in A. destruct A as [->|A]; auto. destruct R as [->|[R|R]].
  - right. left. auto.
  - right. left. eapply above_trans; eauto.
  - eapply two_above; apply aob_iff; right; eauto.
Qed.

Section Cleanup.
  Variable J : Z.
  Variable repository : list Z.
  Variable FE : fsenv.
  Variable tal : list Z.
  Hypothesis rep0 : ~ In 0 repository.
  Hypothesis tal0 : ~ In 0 tal.
  Notation node_path := (node_path J repository tal).
  Notation cleanup_node := (cleanup_node J repository FE tal).
  Notation cleanup_nodes := (cleanup_nodes J repository FE tal).

  Lemma rm_rf_in p t e : In e (rm_rf FE p t) -> In e t.
  Proof. unfold rm_rf. rewrite filter_In. tauto. Qed.
  Lemma rm_rf_keeps p t e : In e t -> at_or_below p (fst e) = false -> In e (rm_rf FE p t).
  Proof. intros I N. unfold rm_rf. rewrite filter_In, N. auto. Qed.
  Lemma delete_in ht n m : In m (delete_node ht n) <-> In m ht /\ cn_key m <> cn_key n.
  Proof. unfold delete_node. rewrite filter_In, negb_true_iff, path_eqb_false. tauto. Qed.

  Lemma delete_cage_inv n ht t ht' t' : delete_node_and_cage J repository FE tal n ht t = Ok (ht', t') ->
    ht' = delete_node ht n /\ (forall e, In e t' -> In e t) /\
    (forall e, In e t -> (forall p, node_path n p -> at_or_below p (fst e) = false) -> In e t').
  Proof.
    unfold delete_node_and_cage. destruct (c_notif (cn_url n)) eqn:NT.
    2:{ intros H. inversion H; subst. auto. }
    destruct (cage_of J repository tal (cn_url n)) as [cage|e|] eqn:C; intros H; inversion H; subst; auto.
    split; auto. split; [apply rm_rf_in|]. intros e I P. apply rm_rf_keeps; auto. apply P. right. auto.
  Qed.
  (** One node: it stays, with everything; or goes, with what's its own. *)
  Lemma cleanup_node_inv lw n ht t ht' t' : cleanup_node lw n ht t = Ok (ht', t') ->
    (ht' = ht /\ t' = t /\ lw < cn_ts n) \/
    (ht' = delete_node ht n /\ (forall e, In e t' -> In e t) /\
     (forall e, In e t -> (forall p, node_path n p -> at_or_below p (fst e) = false) -> In e t') /\
     (cn_ts n <= lw \/ t_exists (cn_key n) t = false)).
  Proof.
    unfold LocalCache.cleanup_node. destruct (t_exists (cn_key n) t) eqn:X; cbn [negb andb]; [|destruct (fe_stat FE (cn_key n)); cbn [negb]].
    - unfold is_node_fresh. destruct (lw - cn_ts n <? 0) eqn:F; cbn [negb]; intros H.
      + inversion H; subst. left. repeat split; auto. lia.
      + right. apply delete_cage_inv in H. destruct H as (A & B & C). split; auto. split; [intros e I; apply (rm_rf_in (cn_key n)); auto|]. split; [|left; lia].
        intros e I P. apply C; auto. apply rm_rf_keeps; auto. apply P. left. auto.
    - unfold is_node_fresh. destruct (lw - cn_ts n <? 0) eqn:F; cbn [negb]; intros H.
      + inversion H; subst. left. repeat split; auto. lia.
      + right. apply delete_cage_inv in H. destruct H as (A & B & C). split; auto. split; [intros e I; apply (rm_rf_in (cn_key n)); auto|]. split; [|left; lia].
        intros e I P. apply C; auto. apply rm_rf_keeps; auto. apply P. left. auto.
    - intros H. right. apply delete_cage_inv in H. destruct H as (A & B & C). auto.
  Qed.
  Lemma t_exists_in p t : t_exists p t = true <-> exists k, In (p, k) t.
  Proof.
    unfold t_exists. rewrite existsb_exists. split.
    - intros ((q & k) & I & Q). apply path_eqb_true in Q. cbn in Q. subst. eauto.
    - intros (k & I). exists (p, k). split; auto. apply path_eqb_true. auto.
  Qed.

  Lemma cleanup_nodes_inv lw nodes : NoDup (map cn_key nodes) -> forall ht t ht' t', (forall n, In n nodes -> In n ht) -> NoDup (map cn_key ht) ->
    cleanup_nodes lw nodes ht t = Ok (ht', t') ->
    (forall n, In n ht' -> In n ht) /\ (forall n, In n nodes -> In n ht' -> lw < cn_ts n) /\
    (forall n, In n ht -> ~ In n nodes -> In n ht') /\
    (forall e, In e t' -> In e t) /\
    (forall e, In e t -> (forall r p, In r nodes -> ~ In r ht' -> node_path r p -> at_or_below p (fst e) = false) -> In e t') /\
    (forall n k, In n nodes -> lw < cn_ts n -> In (cn_key n, k) t ->
       (forall r p, In r nodes -> ~ In r ht' -> r <> n -> node_path r p -> at_or_below p (cn_key n) = false) -> In n ht').
  Proof.
    induction nodes as [|n nodes IH]; cbn [LocalCache.cleanup_nodes]; intros ND ht t ht' t' SUB NDH H.
    { inversion H; subst. repeat split; auto; intros; contradiction. }
    cbn [map] in ND. inversion ND as [|? ? NI ND']; subst.
    destruct (cleanup_node lw n ht t) as [[ht1 t1]| |] eqn:C; cbn [bind] in H; try discriminate.
    assert (KEYS : forall a b, In a ht -> In b ht -> cn_key a = cn_key b -> a = b).
    { intros a b IA IB K. apply (find_in ht a NDH) in IA. apply (find_in ht b NDH) in IB. congruence. }
    apply cleanup_node_inv in C. destruct C as [(-> & -> & F)|(-> & T1 & T2 & WHY)].
    - destruct (IH ND' _ _ _ _ (fun m I => SUB m (or_intror I)) NDH H) as (A & B & C & D & E' & G).
      assert (NH : In n ht') by (apply C; [apply SUB; left; auto|intros I; apply NI; apply in_map; auto]).
      repeat split; auto.
      + intros m [<-|I] I'; auto.
      + intros m I N. apply C; auto. intros I'. apply N. right. auto.
      + intros e I P. apply E'; auto. intros r p IR NR. apply P; auto. right. auto.
      + intros m k [<-|I] FM EX P; auto. eapply G; eauto. intros r p IR. apply P. right. auto.
    - assert (SUB' : forall m, In m nodes -> In m (delete_node ht n)).
      { intros m I. apply delete_in. split; [apply SUB; right; auto|]. intros K. apply NI. rewrite <- K. apply in_map. auto. }
      assert (ND1 : NoDup (map cn_key (delete_node ht n))).
      { clear -NDH. unfold delete_node. induction ht as [|x l IHl]; cbn [filter map]; [constructor|]. cbn [map] in NDH. inversion NDH; subst.
        destruct (negb _); [|auto]. cbn [map]. constructor; auto. intros I. apply H1. apply in_map_iff in I. destruct I as (y & E & I). apply filter_In in I. rewrite <- E. apply in_map. tauto. }
      destruct (IH ND' _ _ _ _ SUB' ND1 H) as (A & B & C & D & E' & G).
      assert (NN : ~ In n ht') by (intros I; apply A, delete_in in I; tauto).
      repeat split; auto.
      + intros m I. apply A in I. apply delete_in in I. tauto.
      + intros m [<-|I] I'; auto; contradiction.
      + intros m I N. apply C; [|intros I'; apply N; right; auto]. apply delete_in. split; auto. intros K. apply N. left. symmetry. apply KEYS; auto. apply SUB. left. auto.
      + intros e I P. apply E'.
        * apply T2; auto. intros p NP. apply (P n p); auto. left. auto.
        * intros r p IR NR. apply P; auto. right. auto.
      + intros m k [<-|I] FM EX P.
        * exfalso. destruct WHY as [W|W]; [lia|]. assert (t_exists (cn_key n) t = true) by (apply t_exists_in; eauto). congruence.
        * eapply G; eauto.
          -- apply T2; [exact EX|]. intros p NP. cbn [fst]. apply (P n p); auto; [left; auto|]. intros ->. apply NI. apply in_map. auto.
          -- intros r p IR. apply P. right. auto.
  Qed.

  (** The list of what's not to be cleaned. *)
  Lemma build_dnc_in ht : forall l, build_dnc J repository tal ht = Ok l -> forall p, In p l <-> exists n, In n ht /\ node_path n p.
  Proof.
    induction ht as [|n ht IH]; cbn [build_dnc]; intros l H p.
    { inversion H; subst. split; [intros []|intros (n & [] & _)]. }
    match type of H with bind ?X _ = _ => destruct X as [l0| |] eqn:L0; cbn [bind] in H; try discriminate end.
    destruct (build_dnc J repository tal ht) as [l1| |] eqn:L1; cbn [bind] in H; try discriminate. inversion H; subst. rewrite in_app_iff, (IH l1 eq_refl p).
    assert (Q : In p l0 <-> node_path n p).
    { unfold LocalCacheSpec.node_path. destruct (c_notif (cn_url n)).
      - destruct (cage_of J repository tal (cn_url n)) as [cg|e|]; inversion L0; subst; cbn; intuition congruence.
      - inversion L0; subst. cbn. intuition congruence. }
    rewrite Q. split.
    - intros [N|(m & I & N)]; [exists n; split; auto; left; auto|exists m; split; auto; right; auto].
    - intros (m & [<-|I] & N); [auto|right; eauto].
  Qed.

  Lemma remove_in p t e : In e (remove FE p t) -> In e t.
  Proof. unfold remove. destruct (existsb _ t); auto. rewrite filter_In. tauto. Qed.
  Lemma remove_keeps p t e : In e t -> fst e <> p -> In e (remove FE p t).
  Proof.
    intros I N. unfold remove. destruct (existsb _ t); auto. apply filter_In. split; auto.
    assert (path_eqb (fst e) p = false) as -> by (apply path_eqb_false; auto). auto.
  Qed.
  Lemma is_cached_iff dnc p : is_cached dnc p = true <-> exists k, In k dnc /\ related p k.
  Proof. unfold is_cached. rewrite existsb_exists. split; intros (k & I & R); exists k; split; auto; apply is_cached1_iff; auto. Qed.
  Lemma visits_in dnc visits : forall t e, In e (fold_left (delete_if_unknown FE dnc) visits t) -> In e t.
  Proof.
    induction visits as [|v visits IH]; cbn [fold_left]; intros t e I; auto. apply IH in I. unfold delete_if_unknown in I. destruct (negb _); auto. apply remove_in in I. auto.
  Qed.
  Lemma visits_keep dnc visits : forall t e, In e t -> (exists k, In k dnc /\ related (fst e) k) -> In e (fold_left (delete_if_unknown FE dnc) visits t).
  Proof.
    induction visits as [|v visits IH]; cbn [fold_left]; intros t e I R; auto. apply IH; auto. unfold delete_if_unknown.
    destruct (is_cached dnc v) eqn:C; cbn [negb]; auto. apply remove_keeps; auto. intros Q. rewrite Q in R. apply is_cached_iff in R. congruence.
  Qed.
  (** A visited, unrelated path without anything below is deleted (if it can be). *)
  Lemma visits_delete dnc visits p : In p visits -> (forall k, In k dnc -> ~ related p k) -> fe_rm FE p = true ->
    forall t, (forall e, In e t -> ~ above p (fst e)) -> forall e, In e (fold_left (delete_if_unknown FE dnc) visits t) -> fst e <> p.
  Proof.
    intros IV NR RM. induction visits as [|v visits IH]; [destruct IV|]. cbn [fold_left]. intros t LEAF e I. destruct IV as [->|IV].
    - apply visits_in in I. unfold delete_if_unknown in I.
      assert (is_cached dnc p = false) as C. { destruct (is_cached dnc p) eqn:C; auto. apply is_cached_iff in C. destruct C as (k & K & R). destruct (NR k K R). }
      rewrite C in I. cbn [negb] in I. unfold remove in I.
      assert (existsb (fun e0 => str_starts_with (fst e0) (p ++ [47])) t = false) as X.
      { destruct (existsb _ t) eqn:X; auto. apply existsb_exists in X. destruct X as (x & IX & S). apply starts_iff in S. destruct S as (s & S). destruct (LEAF x IX). exists s. rewrite S, <- app_assoc. auto. }
      rewrite X in I. apply filter_In in I. destruct I as [_ I]. intros Q. rewrite Q, RM in I.
      assert (path_eqb p p = true) as PP by (apply path_eqb_true; auto). rewrite PP in I. discriminate.
    - apply (IH IV (delete_if_unknown FE dnc t v)); auto. intros x IX. apply LEAF. unfold delete_if_unknown in IX. destruct (negb _); auto. apply remove_in in IX. auto.
  Qed.
  Lemma tal_json_length : (8 <= length (tal_json repository tal))%nat.
  Proof.
    assert (T : forall t, (8 <= length (t ++ cstr "tal.json"))%nat) by (intros t; rewrite app_length; change (length (cstr "tal.json")) with 8%nat; lia).
    assert (X : exists t, tal_json repository tal = t ++ cstr "tal.json").
    { unfold tal_json, nonempty. destruct repository as [|a r], tal as [|b t]; cbn [filter negb].
      - exists []. reflexivity.
      - exists ((b :: t) ++ [47]). rewrite <- app_assoc. reflexivity.
      - exists ((a :: r) ++ [47]). rewrite <- app_assoc. reflexivity.
      - exists ((a :: r) ++ 47 :: (b :: t) ++ [47]). rewrite <- app_assoc. cbn [app]. rewrite <- app_assoc. reflexivity. }
    destruct X as (t & ->). apply T.
  Qed.
  Lemma tal_json_ne : tal_json repository tal <> [] /\ tal_json repository tal <> [47].
  Proof. pose proof tal_json_length as L. split; intros H; rewrite H in L; cbn in L; lia. Qed.
  Lemma meta_cases : (exists pb, pb_init_cache J repository (Some tal) (Some (cstr "tal.json")) = Ok pb /\ pb_string pb = Ok (tal_json repository tal) /\ exists pb', pb_pop pb true = Ok pb') \/
    pb_init_cache J repository (Some tal) (Some (cstr "tal.json")) = Err ENOSPC.
  Proof.
    destruct (init_cache_cases J repository (Some tal) rep0 tal0 (Some (cstr "tal.json"))) as [(pb & H & R)|[H _]]; auto.
    { cbn. intuition discriminate. }
    left. exists pb. split; auto. cbn [opt] in R. fold (tal_json repository tal) in R. split; [apply string_spec; auto|].
    destruct (pop_full pb _ true R) as [(s' & pb' & _ & P & _)|[[N|N] _]]; [eauto|..]; destruct tal_json_ne; contradiction.
  Qed.
  Lemma unknown_inv ht visits t t' : delete_unknown_files J repository FE tal ht visits t = Ok t' ->
    (forall e, In e t' -> In e t) /\
    (forall e, In e t -> (fst e = tal_json repository tal \/ related (fst e) (tal_json repository tal) \/ exists n p, In n ht /\ node_path n p /\ related (fst e) p) -> In e t') /\
    ((length (tal_json repository tal) < 4096)%nat -> (forall p, fe_rm FE p = true) ->
     forall p, In p visits -> ~ related p (tal_json repository tal) -> (forall n q, In n ht -> node_path n q -> ~ related p q) -> (forall e, In e t -> ~ above p (fst e)) ->
     forall e, In e t' -> fst e <> p).
  Proof.
    unfold delete_unknown_files. destruct (init_cache_cases J repository (Some tal) rep0 tal0 (Some (cstr "tal.json"))) as [(pb & H & R)|[H LONG]].
    { cbn. intuition discriminate. }
    - rewrite H. cbn [opt] in R. fold (tal_json repository tal) in R. rewrite (string_spec _ _ R). cbn [bind].
      destruct (build_dnc J repository tal ht) as [l| |] eqn:L; cbn [bind]; try discriminate.
      destruct (pb_pop pb true); cbn [bind]; try discriminate. intros Q. inversion Q; subst. split; [apply visits_in|]. split.
      + intros e I D. apply visits_keep; auto. destruct D as [D|[D|(n & p & IN & NP & D)]].
        * exists (tal_json repository tal). split; [left; auto|]. left. auto.
        * exists (tal_json repository tal). split; [left; auto|auto].
        * exists p. split; auto. right. eapply build_dnc_in; eauto.
      + intros _ RM p IV N1 N2 LEAF. apply visits_delete; auto. intros k [<-|K]; auto. apply (build_dnc_in _ _ L) in K. destruct K as (n & IN & NP). eauto.
    - rewrite H. intros Q. inversion Q; subst. split; auto. split; auto. intros SH. exfalso.
      cbn [opt] in LONG. fold (tal_json repository tal) in LONG. lia.
  Qed.
End Cleanup.
