From Coq Require Import String.
From Verif Require Import Base BaseLemmas CString CLib Slurm Dirs DirsSpec DirsProofs DirsProps CacheDir CacheDirSpec.
Notation length := List.length.

Section Proofs.
  Variable cwd : list name.
  Variable repo : list Z.
  Variable load : list Z -> option json.
  Hypothesis SR : sane_repo cwd repo.
  Notation root := (root cwd repo).
  Notation sane := (sane cwd repo).
  Notation metafile := (metafile cwd repo).

  Lemma join_nonempty ns : join repo ns <> [].
  Proof. destruct SR as (N & _). unfold join. destruct repo; [congruence|discriminate]. Qed.
  Lemma join_plain ns : Forall ordinary ns -> plain (join repo ns).
  Proof. intros O. apply plain_join; auto. apply SR. Qed.
  Lemma join_place ns : Forall ordinary ns -> place cwd (join repo ns) = root ++ ns.
  Proof. intros O. apply place_join; auto. apply SR. Qed.

  (** Resolution of paths in the repository. *)
  Lemma resolve_cases f ns : sane f -> Forall ordinary ns ->
    match resolve cwd f (join repo ns) with
    | Found p n => p = root ++ ns /\ lookup f p = Some n
    | Missing p => p = root ++ ns /\ lookup f p = None /\ exists q x, p = q ++ [x] /\ lookup f q = Some Dir
    | Failed _ => True end.
  Proof.
    intros (T & C & _) O. rewrite resolve_walk by apply join_nonempty. pose proof (walk_spec f T (comps (join repo ns)) (origin cwd (join repo ns)) (join_plain ns O)) as W.
    fold (place cwd (join repo ns)) in W. rewrite join_place in W by auto. destruct (walk f (origin cwd (join repo ns)) (comps (join repo ns))) as [p n|p|e]; auto.
    destruct W as (A & B & D). split; auto. split; auto. apply D. apply origin_dir. auto.
  Qed.
  Lemma comps_join_snoc ns x : ordinary x -> comps (join repo (ns ++ [x])) = comps (join repo ns) ++ [x].
  Proof. intros (A & B & D & E). rewrite join_snoc, comps_app, (comps_name x) by auto. reflexivity. Qed.
  Lemma origin_join ns : origin cwd (join repo ns) = origin cwd repo.
  Proof. unfold join. apply origin_app. apply SR. Qed.
  Lemma resolve_in f ns x : sane f -> Forall ordinary (ns ++ [x]) -> lookup f (root ++ ns) = Some Dir ->
    resolve cwd f (join repo (ns ++ [x])) = match lookup f (root ++ ns ++ [x]) with Some n => Found (root ++ ns ++ [x]) n | None => Missing (root ++ ns ++ [x]) end.
  Proof.
    intros (T & C & _) O L. rewrite resolve_walk by apply join_nonempty. pose proof (join_plain _ O) as P. pose proof (join_place _ O) as J. unfold place in J.
    pose proof O as O2. apply Forall_app in O2. destruct O2 as [O1 O2]. inversion O2; subst. rewrite comps_join_snoc in * by auto. rewrite <- J. rewrite (origin_join (ns ++ [x])). unfold plain in P. rewrite comps_join_snoc in P by auto.
    apply walk_last; auto. rewrite <- (origin_join ns). fold (place cwd (join repo ns)). rewrite join_place by auto. exact L.
  Qed.
  Lemma resolve_found f ns x n : sane f -> Forall ordinary (ns ++ [x]) -> lookup f (root ++ ns ++ [x]) = Some n -> resolve cwd f (join repo (ns ++ [x])) = Found (root ++ ns ++ [x]) n.
  Proof.
    intros S O L. rewrite resolve_in; auto; [rewrite L; auto|]. destruct S as (T & _). apply (T _ x). rewrite <- app_assoc, L. discriminate.
  Qed.

  Lemma root_not_cwd ns : root ++ ns <> cwd.
  Proof. intros E. destruct SR as (_ & _ & _ & N). apply N. exists ns. auto. Qed.
  Lemma rooted ns : root ++ ns <> [].
  Proof. destruct SR as (_ & _ & N & _). destruct root; [congruence|discriminate]. Qed.

  (** One removal, whatever happens. *)
  Lemma remove_any fault f ns e g : sane f -> Forall ordinary ns -> fault <> E_ISDIR -> sys_remove cwd fault f (join repo ns) = (e, g) ->
    sane g /\ ((e <> 0 /\ g = f) \/ (e = 0 /\ fault = 0 /\ g = del f (root ++ ns))).
  Proof.
    intros S O NF H. unfold sys_remove in H. destruct (sys_unlink cwd fault f (join repo ns)) as [e1 g1] eqn:U. unfold sys_unlink in U.
    destruct (Z.eqb_spec fault 0) as [F|F]; cbn [negb] in U; [|injection U as <- <-; destruct (Z.eqb_spec fault E_ISDIR); [congruence|]; injection H as <- <-; auto].
    assert (DEL : (forall q, strictly_above (root ++ ns) q -> lookup f q = None) -> sane (del f (root ++ ns))).
    { intros N. destruct S as (T & C & R). split; [apply ok_del; auto; apply rooted|]. split.
      - rewrite lookup_del by apply rooted. destruct (path_dec (root ++ ns) cwd) as [E|]; auto. destruct (root_not_cwd ns E).
      - intros ms. rewrite lookup_del by apply rooted. destruct (path_dec (root ++ ns) (root ++ ms)); [congruence|auto]. }
    pose proof (resolve_cases f ns S O) as R. destruct (resolve cwd f (join repo ns)) as [p [|c]|p|er] eqn:RE.
    - injection U as <- <-. change (E_ISDIR =? E_ISDIR) with true in H. cbn [negb] in H.
      pose proof S as (T & _). pose proof (rmdir_spec _ _ _ _ _ _ T (join_nonempty ns) (join_plain ns O) H) as [(-> & _ & _ & L & N & ->)|(NE & -> & _)]; [|auto].
      rewrite join_place in * by auto. split; auto.
    - destruct R as [-> L]. injection U as <- <-. change (0 =? E_ISDIR) with false in H. injection H as <- <-. split; auto. apply DEL. intros q (x & NX & ->).
      destruct S as (T & _). destruct (lookup f ((root ++ ns) ++ x)) eqn:LQ; auto. rewrite (ok_prefix f (root ++ ns) x T) in L; [discriminate|rewrite LQ; discriminate|auto].
    - injection U as <- <-. change (E_NOENT =? E_ISDIR) with false in H. injection H as <- <-. split; auto. left. split; [discriminate|auto].
    - injection U as <- <-. destruct (Z.eqb_spec er E_ISDIR) as [->|N].
      + unfold sys_rmdir in H. cbn [Z.eqb negb] in H. rewrite RE in H. injection H as <- <-. split; auto. left. split; [discriminate|auto].
      + injection H as <- <-. split; auto. left. split; auto. intros ->. clear - RE.
        assert (W : forall cs cur, walk f cur cs <> Failed 0). { induction cs as [|c cs IH]; intros cur; cbn [walk]; [destruct (lookup f cur); discriminate|]. destruct (lookup f cur) as [[|]|]; [apply IH|discriminate|destruct (forallb is_nil (c :: cs)); discriminate]. }
        unfold resolve in RE. destruct (join repo ns); [discriminate|]. destruct (z =? 47); eapply W; eauto.
  Qed.

  (** Something of each step of a trace. *)
  Fixpoint steps (P : fs -> fs -> Prop) (f : fs) (t : list fs) : Prop := match t with [] => True | g :: t => P f g /\ steps P g t end.
  Fixpoint final (f : fs) (t : list fs) : fs := match t with [] => f | g :: t => final g t end.
  Lemma final_app t1 : forall f t2, final f (t1 ++ t2) = final (final f t1) t2.
  Proof. induction t1; intros; cbn [app final]; auto. Qed.
  Lemma steps_prefix P t1 : forall f t2, steps P f (t1 ++ t2) -> steps P f t1.
  Proof. induction t1; intros f t2; cbn [app steps]; auto. intros [A B]. eauto. Qed.
  Lemma passes_final v s t s' : passes v s t s' -> fst s' = final (fst s) t.
  Proof. induction 1; cbn [final]; auto. Qed.
  Lemma passes_app v t1 : forall s t2 s', passes v s (t1 ++ t2) s' -> exists s1, passes v s t1 s1 /\ passes v s1 t2 s'.
  Proof.
    induction t1 as [|g t1 IH]; intros s t2 s' H; cbn [app] in H; [exists s; split; [constructor|exact H]|].
    inversion H as [|? ? o ? ? W P]; subst. apply IH in P. destruct P as (s1 & A & B). exists s1. split; auto. econstructor; eauto.
  Qed.
  Lemma passes_inv v (P : fs -> fs -> Prop) (I : state -> Prop) : (forall s g o, I s -> P (fst s) g -> writes v s (g, o) -> I (g, o)) ->
    forall t s s', I s -> steps P (fst s) t -> passes v s t s' -> I s'.
  Proof.
    intros ST t. induction t as [|g t IH]; intros s s' HI HS HP; inversion HP; subst; auto. destruct HS as [HP1 HS]. eapply (IH (g, o)); eauto.
  Qed.

  Definition shrinks (f g : fs) : Prop := sane g /\ forall p, lookup g p = lookup f p \/ (lookup g p = None /\ above root p).
  Lemma del_shrinks f ns : sane (del f (root ++ ns)) -> shrinks f (del f (root ++ ns)).
  Proof. intros S. split; auto. intros p. rewrite lookup_del by apply rooted. destruct (path_dec (root ++ ns) p) as [<-|]; auto. right. split; auto. exists ns. auto. Qed.
  Lemma rm_any fault : (forall ns, fault ns <> E_ISDIR) -> forall visits f e g t, sane f -> Forall (Forall ordinary) visits -> file_rm_rf cwd repo visits fault f = (e, g, t) ->
    steps shrinks f t /\ g = final f t.
  Proof.
    intros NF. induction visits as [|ns visits IH]; intros f e g t S O H; cbn [file_rm_rf] in H; [injection H as <- <- <-; cbn; auto|].
    inversion O as [|? ? O1 O2]; subst. destruct (sys_remove cwd (fault ns) f (join repo ns)) as [e1 g1] eqn:R. apply remove_any in R; auto. destruct R as (S1 & R).
    assert (SH : shrinks f g1). { destruct R as [(_ & ->)|(_ & _ & ->)]; [split; auto|apply del_shrinks; auto]. }
    destruct (negb (e1 =? 0)) eqn:E1; [injection H as <- <- <-; cbn; auto|].
    destruct (file_rm_rf cwd repo visits fault g1) as [[e2 h] t2] eqn:L. injection H as <- <- <-. apply IH in L; auto. destruct L as (A & ->). cbn [steps final]. auto.
  Qed.

  (** If what's inside can be removed, it's removed. *)
  Lemma rm_all fault : (forall ns, fault ns <> E_ISDIR) -> (forall ns, ns <> [] -> fault ns = 0) -> forall f, sane f -> forall l, depth_first cwd repo f l ->
    forall e g t, file_rm_rf cwd repo l fault f = (e, g, t) -> forall ns, ns <> [] -> lookup g (root ++ ns) = None.
  Proof.
    intros NF Z0 f S l (ND & IN & ORD).
    assert (G : forall l2 l1 g0, l = l1 ++ l2 -> sane g0 -> (forall ns, lookup g0 (root ++ ns) <> None -> In ns l2) ->
      (forall ns, In ns l2 -> lookup g0 (root ++ ns) = lookup f (root ++ ns)) ->
      forall e g t, file_rm_rf cwd repo l2 fault g0 = (e, g, t) -> forall ns, ns <> [] -> lookup g (root ++ ns) = None).
    { induction l2 as [|ms l2 IH]; intros l1 g0 El S0 H1 H2 e g t R ns NN; cbn [file_rm_rf] in R.
      - injection R as <- <- <-. destruct (lookup g0 (root ++ ns)) eqn:L; auto. destruct (H1 ns). congruence.
      - assert (Oms : Forall ordinary ms). { destruct S as (_ & _ & R0). apply R0. apply IN. rewrite El. apply in_app_iff. right. left. auto. }
        assert (Lms : lookup g0 (root ++ ms) <> None). { rewrite H2 by (left; auto). apply IN. rewrite El. apply in_app_iff. right. left. auto. }
        assert (ND2 : ~ In ms l1 /\ ~ In ms l2). { rewrite El in ND. split; intros I; apply NoDup_remove_2 in ND; apply ND; apply in_app_iff; auto. }
        assert (EMPTY : forall q, strictly_above (root ++ ms) q -> lookup g0 q = None).
        { intros q (x & NX & ->). destruct (lookup g0 ((root ++ ms) ++ x)) eqn:L; auto. exfalso. assert (I2 : In (ms ++ x) (ms :: l2)) by (apply H1; rewrite app_assoc, L; discriminate).
          assert (I1 : In (ms ++ x) l1). { apply (ORD l1 ms l2 (ms ++ x) El); [exists x; auto|]. rewrite El. apply in_app_iff. right. auto. }
          destruct I2 as [E|I2]; [destruct ND2; congruence|]. rewrite El in ND. clear - ND I1 I2. induction l1 as [|y l1 IH]; [destruct I1|]. cbn [app] in ND. inversion ND as [|? ? N1 N2]; subst. destruct I1 as [->|I1]; [|auto]. apply N1. apply in_app_iff. right. right. auto. }
        destruct (sys_remove cwd (fault ms) g0 (join repo ms)) as [e1 g1] eqn:RM. pose proof RM as RM2. apply remove_any in RM; auto. destruct RM as (S1 & RM).
        destruct ms as [|m0 ms0].
        + assert (l2 = []). { destruct l2 as [|x l2]; auto. exfalso. destruct x as [|x0 x]; [destruct ND2 as [_ N]; apply N; left; auto|].
            assert (I1 : In (x0 :: x) l1). { apply (ORD l1 [] ((x0 :: x) :: l2) _ El); [exists (x0 :: x); split; [discriminate|auto]|]. rewrite El. apply in_app_iff. right. right. left. auto. }
            rewrite El in ND. clear - ND I1. induction l1 as [|y l1 IH]; [destruct I1|]. cbn [app] in ND. inversion ND as [|? ? N1 N2]; subst. destruct I1 as [->|I1]; [|auto]. apply N1. apply in_app_iff. right. right. left. auto. }
          subst l2. assert (L0 : lookup g0 (root ++ ns) = None) by (apply EMPTY; exists ns; rewrite app_nil_r; auto).
          assert (L1 : lookup g1 (root ++ ns) = None). { destruct RM as [(_ & ->)|(_ & _ & ->)]; auto. rewrite lookup_del by apply rooted. destruct (path_dec _ _); auto. }
          destruct (negb (e1 =? 0)); [injection R as <- <- <-; auto|]. cbn [file_rm_rf] in R. injection R as <- <- <-. auto.
        + set (ms := m0 :: ms0) in *. assert (NM : ms <> []) by discriminate. destruct (exists_last NM) as (a & x & Ea). 
          assert (OK : e1 = 0).
          { unfold sys_remove, sys_unlink in RM2. rewrite (Z0 ms NM) in RM2. change (0 =? 0) with true in RM2. cbn [negb] in RM2. rewrite Ea in *. destruct (lookup g0 (root ++ a ++ [x])) as [n|] eqn:L; [|congruence].
            rewrite (resolve_found g0 a x n) in RM2; auto. destruct n as [|c].
            - change (E_ISDIR =? E_ISDIR) with true in RM2. unfold sys_rmdir in RM2. change (0 =? 0) with true in RM2. cbn [negb] in RM2. rewrite (resolve_found g0 a x Dir) in RM2 by auto.
              destruct (root ++ a ++ [x]) eqn:RA; [destruct (rooted _ RA)|]. rewrite <- RA in *. destruct (busy g0 (root ++ a ++ [x])) eqn:B; [|congruence].
              apply busy_spec in B. destruct B as (q & A & B). exfalso. apply B. auto.
            - change (0 =? E_ISDIR) with false in RM2. congruence. }
          destruct RM as [(NE & _)|(_ & _ & Eg)]; [congruence|]. subst e1. change (0 =? 0) with true in R. cbn [negb] in R. destruct (file_rm_rf cwd repo l2 fault g1) as [[e2 h] t2] eqn:L. injection R as <- <- <-.
          apply (IH (l1 ++ [ms]) g1) with (ns := ns) in L; auto; [rewrite El, <- app_assoc; reflexivity| |]; rewrite Eg.
          * intros ks. rewrite lookup_del by apply rooted. destruct (path_dec (root ++ ms) (root ++ ks)) as [E|NE]; [congruence|]. intros K. apply H1 in K. destruct K as [K|K]; auto. subst ks. congruence.
          * intros ks I. rewrite lookup_del by apply rooted. destruct (path_dec (root ++ ms) (root ++ ks)) as [E|NE]; [apply app_inv_head in E; subst ks; destruct ND2; contradiction|]. apply H2. right. auto. }
    apply (G l [] f eq_refl S); auto. intros ns N. apply IN. auto.
  Qed.

  (** ** Who wrote what *)
  Notation cache_version := (cache_version cwd repo load).
  Hypothesis SL : sane_load load.
  Definition owned (u : list Z) (s : state) : Prop := forall ns c, ns <> [] -> lookup (fst s) (root ++ ns) = Some (File c) -> snd s (root ++ ns) = u.
  Definition consistent (s : state) : Prop := sane (fst s) /\ forall u, cache_version (fst s) u -> owned u s.
  Definition ready (v : list Z) (s : state) : Prop := sane (fst s) /\ owned v s /\ forall u, cache_version (fst s) u -> u = v.
  Lemma ready_consistent v s : ready v s -> consistent s.
  Proof. intros (A & B & C). split; auto. intros u U. rewrite (C u U). auto. Qed.
  Lemma version_unique f u u' : cache_version f u -> cache_version f u' -> u = u'.
  Proof. intros (c & L & m & A & B) (c' & L' & m' & A' & B'). congruence. Qed.
  Lemma consistent_shrinks v s g o : consistent s -> shrinks (fst s) g -> writes v s (g, o) -> consistent (g, o).
  Proof.
    intros (S & C) (SG & SH) W. split; [exact SG|]. cbn [fst snd]. intros u (c & L & M).
    assert (V : cache_version (fst s) u). { exists c. split; auto. destruct (SH metafile) as [E|[E _]]; congruence. }
    intros ns c' NN L'. cbn [fst snd] in *. destruct (W (root ++ ns)) as [(E & E2)|(NE & _)]; cbn [fst snd] in *; [rewrite E2; apply (C u V ns c'); congruence|]. destruct (SH (root ++ ns)) as [E|[E _]]; congruence.
  Qed.
  Lemma ready_writes v s g o : ready v s -> sane g -> (forall u, cache_version g u -> u = v) -> writes v s (g, o) -> ready v (g, o).
  Proof.
    intros (S & O & C) SG V W. split; auto. split; auto. intros ns c NN L. cbn [fst snd] in *. destruct (W (root ++ ns)) as [(E & E2)|(NE & E2)]; cbn [fst snd] in *; rewrite E2; auto. apply (O ns c); congruence.
  Qed.
  Lemma ready_works v s s' : ready v s -> works cwd repo v s s' -> ready v s'.
  Proof.
    intros (S & O & C) (SG & M & W). split; auto. split.
    - intros ns c NN L. destruct (W (root ++ ns)) as [(E & ->)|E]; auto. apply (O ns c); congruence.
    - intros u (c & L & U). apply C. exists c. rewrite <- M. auto.
  Qed.
  Lemma ready_steps v : forall t s s', ready v s -> steps (fun f g => sane g /\ (lookup g metafile = lookup f metafile \/ forall u, cache_version g u -> u = v)) (fst s) t -> passes v s t s' -> ready v s'.
  Proof.
    intros t s s' R ST P. revert R ST P. apply passes_inv. clear. intros s g o R (SG & M) W. apply (ready_writes v s); auto. intros u U. destruct M as [M|M]; auto. destruct R as (_ & _ & C). apply C. destruct U as (c & L & U). exists c. rewrite <- M. auto.
  Qed.

  (** *** Each function *)
  Lemma ordinary_name (s : string) : (match cstr s with [] => true | [46] => true | [46; 46] => true | l => existsb (Z.eqb 47) l end) = false -> ordinary (cstr s).
  Proof.
    generalize (cstr s). intros l H. split; [intros ->; discriminate|]. split; [intros ->; discriminate|]. split; [intros ->; discriminate|]. intros I.
    assert (E : existsb (Z.eqb 47) l = true) by (apply existsb_exists; exists 47; auto).
    destruct l as [|a l]; [discriminate|]. destruct (Z.eq_dec a 46) as [->|N].
    - destruct l as [|b l]; [discriminate|]. destruct (Z.eq_dec b 46) as [->|N2].
      + destruct l; [discriminate|]. congruence.
      + assert (X : existsb (Z.eqb 47) (46 :: b :: l) = false); [|congruence]. rewrite <- H. destruct b; try reflexivity. repeat (destruct p as [p|p|]; try reflexivity). congruence.
    - assert (X : existsb (Z.eqb 47) (a :: l) = false); [|congruence]. rewrite <- H. destruct a; try reflexivity. repeat (destruct p as [p|p|]; try reflexivity). congruence.
  Qed.
  Lemma filename n : get_cache_filename repo n = join repo [n].
  Proof. unfold get_cache_filename, join. cbn. rewrite app_nil_r. reflexivity. Qed.
  Lemma put_sane f ns x co : sane f -> Forall ordinary (ns ++ [x]) -> lookup f (root ++ ns) = Some Dir -> lookup f (root ++ ns ++ [x]) <> Some Dir -> sane (put f (root ++ ns ++ [x]) (File co)).
  Proof.
    intros (T & C & R) O L N. assert (NE : root ++ ns ++ [x] <> []) by apply rooted. split; [|split].
    - rewrite app_assoc. apply ok_put; [exact T| |exact L]. right. left. split; [discriminate|]. rewrite <- app_assoc. auto.
    - rewrite lookup_put by auto. destruct (path_dec _ _) as [E|]; auto. destruct (root_not_cwd _ E).
    - intros ms. rewrite lookup_put by auto. destruct (path_dec _ _) as [E|]; auto. apply app_inv_head in E. subst ms. auto.
  Qed.
  Lemma write_spec n f opening flushed content e g t : ordinary n -> sane f -> write_simple_file cwd opening flushed f (join repo [n]) content = (e, g, t) ->
    g = final f t /\ ((t = [] /\ g = f) \/ exists g1, t = [g1; g] /\ sane g1 /\ sane g /\
      (forall p, lookup g1 p = if path_dec (root ++ [n]) p then Some (File []) else lookup f p) /\ (forall p, lookup g p = if path_dec (root ++ [n]) p then Some (File (firstn flushed content)) else lookup f p)).
  Proof.
    intros O S H. unfold write_simple_file in H. destruct (negb (opening =? 0)); [injection H as <- <- <-; auto|].
    assert (OO : Forall ordinary ([] ++ [n])) by (cbn; auto). pose proof (resolve_cases f [n] S OO) as R. assert (NE : root ++ [n] <> []) by apply rooted.
    assert (DO : forall p, p = root ++ [n] -> lookup f (root ++ []) = Some Dir -> lookup f (root ++ [] ++ [n]) <> Some Dir ->
      (0, put (put f p (File [])) p (File (firstn flushed content)), [put f p (File []); put (put f p (File [])) p (File (firstn flushed content))]) = (e, g, t) ->
      g = final f t /\ ((t = [] /\ g = f) \/ exists g1, t = [g1; g] /\ sane g1 /\ sane g /\
      (forall p, lookup g1 p = if path_dec (root ++ [n]) p then Some (File []) else lookup f p) /\ (forall p, lookup g p = if path_dec (root ++ [n]) p then Some (File (firstn flushed content)) else lookup f p))).
    { intros p -> L N E. injection E as <- <- <-. split; auto. right. eexists. split; auto. pose proof (put_sane f [] n [] S OO L N) as S1. cbn [app] in S1. split; auto. split.
      - apply (put_sane _ [] n _ S1 OO); cbn [app]; rewrite lookup_put by auto; [destruct (path_dec (root ++ [n]) (root ++ [])) as [E|]; [apply app_inv_head in E; discriminate|exact L]|].
        destruct (path_dec _ _); congruence.
      - split; intros p; rewrite !lookup_put by auto; destruct (path_dec _ _); auto. }
    destruct (resolve cwd f (join repo [n])) as [p [|c]|p|er].
    - injection H as <- <- <-; auto.
    - destruct R as (-> & L). apply (DO _ eq_refl); auto; [|cbn [app]; congruence]. destruct S as (T & _). rewrite app_nil_r. apply (T _ n). rewrite L. discriminate.
    - destruct R as (-> & L & q & x & E & D). apply app_inj_tail in E. destruct E as (<- & _). apply (DO _ eq_refl); auto; [rewrite app_nil_r; auto|cbn [app]; congruence].
    - injection H as <- <- <-; auto.
  Qed.

  Lemma load_spec fault f : sane f -> forall v, match json_load_file cwd load fault f (get_cache_filename repo (cstr "cache.json")) with
    | Some (JObj m) => match json_get_str (JObj m) (cstr "fort-version") with Ok (Some u) => cache_version f u /\ fault = 0 | _ => True end | _ => True end /\
    (fault = 0 -> cache_version f v -> exists m, json_load_file cwd load fault f (get_cache_filename repo (cstr "cache.json")) = Some (JObj m) /\ json_get_str (JObj m) (cstr "fort-version") = Ok (Some v)).
  Proof.
    intros S v. rewrite filename. unfold json_load_file. assert (OO : Forall ordinary ([] ++ [cstr "cache.json"])) by (constructor; [apply ordinary_name; reflexivity|constructor]).
    pose proof (resolve_cases f [cstr "cache.json"] S OO) as R. destruct (Z.eqb_spec fault 0) as [F|F]; cbn [negb]; [|split; auto; congruence]. split.
    - destruct (resolve cwd f (join repo [cstr "cache.json"])) as [p [|c]|p|er]; auto. destruct R as (-> & L). destruct (load c) as [[m| | | | |]|] eqn:LD; auto. unfold json_get_str, json_object_get.
      destruct (Slurm.assoc (cstr "fort-version") m) as [[| |u| | |]|] eqn:A; auto. split; auto. exists c. split; auto. exists m. auto.
    - intros _ (c & L & m & A & B). pose proof (resolve_found f [] (cstr "cache.json") (File c) S OO L) as RF. cbn [app] in RF. rewrite RF. exists m. split; auto. unfold json_get_str, json_object_get. rewrite B. auto.
  Qed.

  Lemma order_ordinary f l : sane f -> depth_first cwd repo f l -> Forall (Forall ordinary) l.
  Proof. intros (_ & _ & R) (_ & IN & _). apply Forall_forall. intros ns I. apply R. apply IN. auto. Qed.
  Lemma meta_spec v w f g t : sane f -> sane_env cwd repo w f -> init_cache_metafile cwd repo load v w f = (g, t) ->
    g = final f t /\ steps shrinks f t /\
    ((t = [] /\ cache_version f v /\ on_read w = 0) \/ (~ (cache_version f v /\ on_read w = 0) /\ (removable w -> forall ns, ns <> [] -> lookup g (root ++ ns) = None))).
  Proof.
    intros S (DF & MK & M0 & NF & NS) H. unfold init_cache_metafile in H.
    assert (WIPE : (let '(_, g, t) := file_rm_rf cwd repo (order w) (on_remove w) f in (g, t)) = (g, t) ->
      g = final f t /\ steps shrinks f t /\ (removable w -> forall ns, ns <> [] -> lookup g (root ++ ns) = None)).
    { destruct (file_rm_rf cwd repo (order w) (on_remove w) f) as [[e g0] t0] eqn:R. intros E. injection E as <- <-. pose proof (rm_any _ NF _ _ _ _ _ S (order_ordinary _ _ S DF) R) as (A & B). split; auto. split; auto.
      intros RM ns NN. eapply rm_all; eauto. }
    destruct (load_spec (on_read w) f S v) as (LS1 & LS2).
    assert (OTHER : ~ (cache_version f v /\ on_read w = 0) -> (let '(_, g, t) := file_rm_rf cwd repo (order w) (on_remove w) f in (g, t)) = (g, t) -> 
      g = final f t /\ steps shrinks f t /\ ((t = [] /\ cache_version f v /\ on_read w = 0) \/ (~ (cache_version f v /\ on_read w = 0) /\ (removable w -> forall ns, ns <> [] -> lookup g (root ++ ns) = None)))).
    { intros N E. destruct (WIPE E) as (A & B & C). auto. }
    destruct (json_load_file cwd load (on_read w) f (get_cache_filename repo (cstr "cache.json"))) as [[m| | | | |]|];
      try (apply OTHER; auto; intros (V & R0); destruct (LS2 R0 V) as (m' & E & _); discriminate).
    destruct (json_get_str (JObj m) (cstr "fort-version")) as [[u|]| |] eqn:G; try (apply OTHER; auto; intros (V & R0); destruct (LS2 R0 V) as (m' & E & E'); congruence).
    destruct (list_eqb Z.eqb u v) eqn:EQ.
    - apply list_eqb_spec in EQ; [|apply Z.eqb_eq]. subst u. injection H as <- <-. cbn. intuition.
    - apply OTHER; auto. intros (V & R0). destruct (LS2 R0 V) as (m' & E & E'). assert (u = v) by congruence. subst u. assert (list_eqb Z.eqb v v = true) by (apply list_eqb_spec; auto; apply Z.eqb_eq). congruence.
  Qed.
  Lemma tmp_spec w f r t : sane f -> (forall k, on_mkdir w k <> E_EXIST) -> on_mkdir w 0%nat <> E_NOENT -> init_tmp_dir cwd repo w f = (r, t) ->
    exists g, t = [g] /\ (r = None \/ r = Some g) /\ sane g /\ forall p, lookup g p = lookup f p \/ (lookup f p = None /\ lookup g p = Some Dir /\ above p (root ++ [cstr "tmp"])).
  Proof.
    intros S MK M0 H. unfold init_tmp_dir in H. rewrite filename in H. assert (O : Forall ordinary [cstr "tmp"]) by (constructor; [apply ordinary_name; reflexivity|constructor]).
    pose proof S as (T & C & R). destruct (C86_mkdir_partial cwd (on_mkdir w) f (join repo [cstr "tmp"]) true T C (join_plain _ O) MK M0) as (NUB & D).
    destruct (mkdir_p cwd (on_mkdir w) f (join repo [cstr "tmp"]) true) as [[e g]|er|] eqn:M; [| |destruct (NUB (or_introl (join_nonempty _)) eq_refl)].
    - destruct (D e g eq_refl) as (_ & GR & TG). unfold target in GR. rewrite join_place in GR by auto. exists g. split; [destruct (e =? 0); congruence|]. split; [destruct (e =? 0); injection H as <- _; auto|]. split; auto. split; auto. split.
      + destruct (GR cwd) as [->|(N & _)]; congruence.
      + intros ns NN. destruct (GR (root ++ ns)) as [E|(_ & _ & (x & E))]; [apply R; congruence|]. rewrite <- app_assoc in E. apply app_inv_head in E. rewrite E in O. apply Forall_app in O. apply O.
    - exfalso. revert M. unfold mkdir_p. destruct (0 <? _); [discriminate|]. destruct (_ <? 0); [discriminate|]. destruct (join repo [cstr "tmp"]); discriminate.
  Qed.
  Lemma tag_spec w f g t : sane f -> on_stat w <> E_NOENT -> init_cachedir_tag cwd repo w f = (g, t) ->
    g = final f t /\ steps (fun f1 g1 => sane g1 /\ forall p, lookup g1 p = lookup f p \/ (p = root ++ [cstr "CACHEDIR.TAG"] /\ lookup f p = None /\ exists k, lookup g1 p = Some (File (firstn k tag_text)))) f t.
  Proof.
    intros S NS H. unfold init_cachedir_tag in H. rewrite filename in H. assert (O : Forall ordinary ([] ++ [cstr "CACHEDIR.TAG"])) by (constructor; [apply ordinary_name; reflexivity|constructor]).
    destruct (Z.eqb_spec (file_exists cwd (on_stat w) f (join repo [cstr "CACHEDIR.TAG"])) E_NOENT) as [E|E]; [|injection H as <- <-; cbn; auto].
    destruct (write_simple_file cwd (on_open_tag w) (flushed_tag w) f (join repo [cstr "CACHEDIR.TAG"]) tag_text) as [[e g0] t0] eqn:WR. injection H as <- <-.
    assert (N : lookup f (root ++ [cstr "CACHEDIR.TAG"]) = None).
    { unfold file_exists, sys_stat in E. destruct (Z.eqb_spec (on_stat w) 0) as [Z0|Z0]; cbn [negb] in E; [|congruence].
      destruct (lookup f (root ++ [cstr "CACHEDIR.TAG"])) as [n|] eqn:L; auto. exfalso. pose proof (resolve_found f [] _ n S O L) as RF. cbn [app] in RF. rewrite RF in E. discriminate. }
    apply write_spec in WR; auto; [|inversion O; auto]. destruct WR as (F & [(-> & ->)|(g1 & -> & S1 & S2 & L1 & L2)]); [cbn; auto|]. split; auto. cbn [steps].
    split; [split; auto; intros p; rewrite L1; destruct (path_dec _ _) as [<-|]; auto; right; split; auto; split; auto; exists 0%nat; auto|]. split; auto.
    split; auto. intros p; rewrite L2; destruct (path_dec _ _) as [<-|]; auto. right; split; auto; split; auto; eexists; eauto.
  Qed.
  Lemma name_differs a b : a <> b -> root ++ [a] <> root ++ [b].
  Proof. intros N E. apply app_inv_head in E. congruence. Qed.
  Lemma setup_parts v w f r t : cache_setup cwd repo load v w f = (r, t) -> exists f1 t1 r2 t2, init_cache_metafile cwd repo load v w f = (f1, t1) /\ init_tmp_dir cwd repo w f1 = (r2, t2) /\
    match r2 with None => r = None /\ t = t1 ++ t2 | Some f2 => exists f3 t3, init_cachedir_tag cwd repo w f2 = (f3, t3) /\ r = Some f3 /\ t = t1 ++ t2 ++ t3 end.
  Proof.
    unfold cache_setup. destruct (init_cache_metafile cwd repo load v w f) as [f1 t1] eqn:M. destruct (init_tmp_dir cwd repo w f1) as [[f2|] t2] eqn:T.
    - destruct (init_cachedir_tag cwd repo w f2) as [f3 t3] eqn:C. intros H. injection H as <- <-. exists f1, t1, (Some f2), t2. rewrite T. repeat split; auto. exists f3, t3. auto.
    - intros H. injection H as <- <-. exists f1, t1, None, t2. auto.
  Qed.
  Lemma steps_app P t1 : forall f t2, steps P f (t1 ++ t2) <-> steps P f t1 /\ steps P (final f t1) t2.
  Proof. induction t1; intros f t2; cbn [app steps final]; [tauto|]. rewrite IHt1. tauto. Qed.
  Lemma steps_weaken (P Q : fs -> fs -> Prop) t : (forall f g, P f g -> Q f g) -> forall f, steps P f t -> steps Q f t.
  Proof. intros I. induction t; intros f; cbn [steps]; auto. intros [A B]. auto. Qed.
  Lemma steps_sane (P : fs -> fs -> Prop) t : (forall f g, P f g -> sane g) -> forall f, sane f -> steps P f t -> sane (final f t).
  Proof. intros I. induction t; intros f S; cbn [steps final]; auto. intros [A B]. eauto. Qed.

  (** After init_cache_metafile(): only tmp and CACHEDIR.TAG change. *)
  Definition adds (f1 g : fs) : Prop := sane g /\ forall p, lookup g p = lookup f1 p \/ (lookup f1 p = None /\
    ((lookup g p = Some Dir /\ above p (root ++ [cstr "tmp"])) \/ (p = root ++ [cstr "CACHEDIR.TAG"] /\ exists k, lookup g p = Some (File (firstn k tag_text))))).
  Lemma setup_spec v w f r t : sane f -> sane_env cwd repo w f -> cache_setup cwd repo load v w f = (r, t) ->
    exists f1 t1 t2, t = t1 ++ t2 /\ f1 = final f t1 /\ sane f1 /\ steps shrinks f t1 /\ steps (fun _ g => adds f1 g) f1 t2 /\ (forall g, r = Some g -> g = final f t) /\
      ((t1 = [] /\ cache_version f v /\ on_read w = 0) \/ (~ (cache_version f v /\ on_read w = 0) /\ (removable w -> forall ns, ns <> [] -> lookup f1 (root ++ ns) = None))).
  Proof.
    intros S W H. pose proof W as (DF & MK & M0 & NF & NS). apply setup_parts in H. destruct H as (f1 & t1 & r2 & t2 & M & T & H). apply meta_spec in M; auto. destruct M as (F1 & ST & C).
    assert (S1 : sane f1). { rewrite F1. apply (steps_sane shrinks); auto. intros ? ? X. apply X. }
    apply tmp_spec in T; auto. destruct T as (g & -> & R & SG & L).
    assert (A : adds f1 g). { split; auto. intros p. destruct (L p) as [E|(N & D & AB)]; auto. }
    destruct r2 as [f2|].
    - destruct H as (f3 & t3 & TG & -> & ->). destruct R as [R|R]; [discriminate|]. injection R as ->. apply tag_spec in TG; auto. destruct TG as (F3 & ST3).
      exists f1, t1, ([g] ++ t3). split; auto. split; auto. split; auto. split; auto. split.
      + cbn [app steps]. split; auto. clear F3. revert ST3. match goal with |- steps ?P g t3 -> steps ?Q g t3 => enough (G : forall g0, steps P g0 t3 -> steps Q g0 t3) by exact (G g) end. induction t3 as [|h t3 IH]; intros g0; cbn [steps]; auto. intros ((SH & LH) & ST3). split; [|apply IH; auto].
        split; auto. intros p. destruct (LH p) as [E|(E & N & k & K)].
        * rewrite E. destruct (L p) as [E2|(N & D & AB)]; auto.
        * right. split; [destruct (L p) as [E2|(N' & _)]; congruence|]. right. split; auto. exists k. auto.
      + split; auto. intros g' E. injection E as <-. rewrite !final_app. cbn [final]. auto.
    - destruct H as (-> & ->). exists f1, t1, [g]. split; auto. split; auto. split; auto. split; auto. split; [cbn; auto|]. split; auto. intros; discriminate.
  Qed.
  Lemma meta_not_added f1 g : adds f1 g -> lookup g metafile = lookup f1 metafile.
  Proof.
    intros (_ & A). destruct (A metafile) as [E|(_ & [(_ & x & E)|(E & _)])]; auto; exfalso; unfold CacheDirSpec.metafile in E.
    - rewrite <- app_assoc in E. apply app_inv_head in E. discriminate.
    - apply app_inv_head in E. discriminate.
  Qed.
  Lemma setup_inv v w s r t : consistent s -> sane_env cwd repo w (fst s) -> removable w -> cache_setup cwd repo load v w (fst s) = (r, t) ->
    (forall t' s', prefix t' t -> passes v s t' s' -> consistent s') /\ (forall g, r = Some g -> forall s', passes v s t s' -> ready v s').
  Proof.
    intros C W RM H. pose proof C as (S & _). destruct (setup_spec v w (fst s) r t S W H) as (f1 & t1 & t2 & -> & F1 & S1 & ST1 & ST2 & RS & CASES).
    assert (R1 : forall s1, passes v s t1 s1 -> ready v s1).
    { intros s1 P. destruct CASES as [(-> & V & _)|(_ & E)].
      - inversion P; subst. split; [exact S|]. split; [apply (proj2 C); auto|]. intros u U. eapply version_unique; eauto.
      - specialize (E RM). pose proof (passes_final _ _ _ _ P) as PF. rewrite <- F1 in PF. split; [rewrite PF; auto|]. split.
        + intros ns c NN L. rewrite PF, E in L by auto. discriminate.
        + intros u (c & L & _). rewrite PF in L. unfold CacheDirSpec.metafile in L. rewrite E in L by discriminate. discriminate. }
    assert (R2 : forall s1 t' s', passes v s t1 s1 -> prefix t' t2 -> passes v s1 t' s' -> ready v s').
    { intros s1 t' s' P (t3 & ->) P'. apply (ready_steps v t' s1); auto. rewrite (passes_final _ _ _ _ P), <- F1. apply steps_prefix in ST2.
      clear - ST2 SR. assert (G : forall f0, lookup f0 metafile = lookup f1 metafile -> steps (fun _ g => adds f1 g) f0 t' -> steps (fun f g => sane g /\ (lookup g metafile = lookup f metafile \/ forall u, cache_version g u -> u = v)) f0 t').
      { clear ST2. induction t' as [|g t' IH]; intros f0 E; cbn [steps]; auto. intros (A & B). split; [split; [apply A|left; rewrite E; apply meta_not_added; auto]|]. apply IH; auto. apply meta_not_added; auto. }
      apply G; auto. }
    split.
    - intros t' s' (t3 & E) P. assert (PRE : prefix t' t1 \/ exists t'', t' = t1 ++ t'' /\ prefix t'' t2).
      { clear - E. revert t' E. induction t1 as [|x t1 IH]; intros t' E; [right; exists t'; split; auto; exists t3; auto|]. destruct t' as [|y t']; [left; exists (x :: t1); auto|]. cbn [app] in E. injection E as -> E.
        destruct (IH _ E) as [(t4 & ->)|(t'' & -> & t4 & ->)]; [left; exists t4; auto|right; exists t''; split; auto; exists t4; auto]. }
      destruct PRE as [(t4 & ->)|(t'' & -> & PRE)].
      + revert C P. assert (ST : steps shrinks (fst s) t') by (eapply steps_prefix; eauto). intros C P. revert C ST P. apply passes_inv. intros. eapply consistent_shrinks; eauto.
      + apply passes_app in P. destruct P as (s1 & P1 & P2). eapply ready_consistent, R2; eauto.
    - intros g _ s' P. apply passes_app in P. destruct P as (s1 & P1 & P2). eapply R2; eauto. exists []. rewrite app_nil_r. auto.
  Qed.
  Lemma teardown_spec v w f g t : plain_version v -> sane f -> cache_teardown cwd repo v w f = (g, t) ->
    g = final f t /\ steps (fun _ g => sane g /\ (forall p, p <> metafile -> lookup g p = lookup f p) /\ forall u, cache_version g u -> u = v) f t.
  Proof.
    intros PV S H. unfold cache_teardown in H. rewrite filename in H. destruct (write_simple_file cwd (on_open_meta w) (flushed_meta w) f (join repo [cstr "cache.json"]) (meta_text v)) as [[e g0] t0] eqn:WR. injection H as <- <-.
    apply write_spec in WR; auto; [|apply ordinary_name; reflexivity]. destruct WR as (F & [(-> & ->)|(g1 & -> & S1 & S2 & L1 & L2)]); [cbn; auto|]. split; auto. destruct (SL v PV) as (_ & TR).
    assert (NE : forall (A : Type) (a b : A) p, p <> metafile -> (if path_dec (root ++ [cstr "cache.json"]) p then a else b) = b) by (intros A a b p N; destruct (path_dec _ _) as [E|]; [destruct N; rewrite <- E; reflexivity|auto]).
    assert (EQ : forall (A : Type) (a b : A), (if path_dec (root ++ [cstr "cache.json"]) metafile then a else b) = a) by (intros A a b; destruct (path_dec _ _) as [E|N]; [auto|destruct N; reflexivity]).
    cbn [steps]. split; [|split; auto]; (split; [auto|]; split; [intros p N; rewrite ?L1, ?L2; apply NE; auto|intros u (c & L & M); rewrite ?L1, ?L2, EQ in L; injection L as <-]).
    - apply (TR 0%nat). exact M.
    - eapply TR. exact M.
  Qed.
  Lemma teardown_inv v w s t' s' : plain_version v -> ready v s -> prefix t' (snd (cache_teardown cwd repo v w (fst s))) -> passes v s t' s' -> ready v s'.
  Proof.
    intros PV R (t2 & E) P. destruct (cache_teardown cwd repo v w (fst s)) as [g t] eqn:T. cbn [snd] in E. apply teardown_spec in T; auto; [|apply R]. destruct T as (_ & ST). rewrite E in ST. apply steps_prefix in ST.
    apply (ready_steps v t' s); auto. revert ST. apply steps_weaken. intros ? ? (A & _ & B). auto.
  Qed.
  Lemma history_consistent s : history cwd repo load s -> consistent s.
  Proof.
    induction 1 as [s S N|v w s s' H IH PV W RM C]; [split; auto; intros u U; destruct (N u U)|].
    inversion C as [? t ? P PA|? f t s1 ? E PA WK|? f t s1 s2 t' ? E PA WK P PA2]; subst.
    - destruct (cache_setup cwd repo load v w (fst s)) as [r t0] eqn:E. destruct (setup_inv v w s r t0 IH W RM E) as (A & _). eapply A; eauto.
    - destruct (setup_inv v w s (Some f) t IH W RM E) as (_ & A). eapply ready_consistent, ready_works; eauto.
    - destruct (setup_inv v w s (Some f) t IH W RM E) as (_ & A). apply (ready_consistent v). apply (teardown_inv v w s2 t'); auto. eapply ready_works; eauto.
  Qed.
End Proofs.
