(** * C93, continued: temporary files, examples, and what is false *)
From Coq Require Import String.
From Verif Require Import Base BaseLemmas CString CLib Slurm PathBuilder PathSpec PathProofs PathProofs2 PathProofs3 PathProofs4.
From Verif Require Import Dirs DirsSpec DirsProofs DirsProps CacheDir CacheDirSpec CacheDirProofs CacheDirProps.
Notation length := List.length.

Lemma hex_unique s : forall v w, hex_text s v -> hex_text s w -> v = w.
Proof.
  assert (D : forall c d e, hex_digit_of c d -> hex_digit_of c e -> d = e) by (intros c d e A B; unfold hex_digit_of in *; lia).
  induction s as [|x s IH] using rev_ind; intros v w A B; apply hex_text_inv in A; apply hex_text_inv in B.
  - destruct A as [(c & E & _)|(u & w' & c & d & E & _)]; [discriminate|destruct u; discriminate].
  - destruct A as [(c & E & Dv)|(u & v' & c & d & E & H & N & Dd & ->)]; destruct B as [(c' & E' & Dw)|(u' & w' & c' & d' & E' & H' & N' & Dd' & ->)].
    + rewrite E in E'. injection E' as ->. eauto.
    + rewrite E in E'. change [c] with ([] ++ [c]) in E'. apply app_inj_tail in E'. destruct E' as (<- & _). apply hex_text_ne in H'. congruence.
    + rewrite E' in E. change [c'] with ([] ++ [c']) in E. apply app_inj_tail in E. destruct E as (<- & _). apply hex_text_ne in H. congruence.
    + apply app_inj_tail in E. apply app_inj_tail in E'. destruct E as (<- & <-), E' as (<- & <-). rewrite (IH _ _ H H'), (D _ _ _ Dd Dd'). auto.
Qed.

(** ** Temporary files are in the cache's directory, and (unless more than four thousand million were asked for meanwhile) no two requests, by whatever threads, get the same. *)
Theorem C93_tmpfile : forall J repo n, repo <> [] -> ~ In 0 repo -> (length repo <= 4082)%nat ->
  exists x, cache_tmpfile repo J n = Ok (repo ++ cstr "/tmp/" ++ x) /\ hex_text x (Z.of_nat n mod 4294967296).
Proof.
  intros J repo n NE N0 LEN. unfold cache_tmpfile. assert (T0 : ~ In 0 (cstr "tmp")) by (cbn; intuition discriminate).
  pose proof (init_cache_spec J repo None N0 (fun H => H) (Some (cstr "tmp")) T0) as I. cbv zeta in I.
  assert (JN : PathSpec.join (nonempty [repo; opt None; opt (Some (cstr "tmp"))]) = repo ++ cstr "/tmp") by (destruct repo; [congruence|reflexivity]). 
  rewrite JN in I. destruct I as (I & _). destruct I as (pb & -> & R). { unfold fits. rewrite app_length. cbn [cstr length]. change (length (cstr "/tmp")) with 4%nat. lia. }
  cbn [bind]. assert (B : 0 <= wrap32 (Z.of_nat n) < 4294967296) by (unfold wrap32; apply Z.mod_pos_bound; lia).
  assert (HT : hex_text (hex_digits 8 (wrap32 (Z.of_nat n)) []) (wrap32 (Z.of_nat n))) by (apply (hex_digits_text 7); change (16 ^ Z.of_nat 8) with 4294967296; lia).
  unfold pb_append_u32. assert (L8 : (length (hex_digits 8 (wrap32 (Z.of_nat n)) []) <= 8)%nat).
  { generalize (wrap32 (Z.of_nat n)). clear. assert (G : forall k z acc, (length (hex_digits k z acc) <= k + length acc)%nat). { induction k; intros z acc; cbn [hex_digits]; [lia|]. cbv zeta. destruct (z / 16 =? 0); cbn [length]; [lia|]. specialize (IHk (z / 16) (hex_digit (z mod 16) :: acc)). cbn [length] in IHk. lia. } intros z. specialize (G 8%nat z []). cbn [length] in G. lia. }
  set (x := hex_digits 8 (wrap32 (Z.of_nat n)) []) in *. clearbody x.
  destruct (appendn_spec J pb _ x 0 [] R (hex_text_ne _ _ HT) (hex_text_no _ _ 0 HT (or_introl eq_refl))) as (A & _).
  assert (G : glue (repo ++ cstr "/tmp") x = repo ++ cstr "/tmp/" ++ x). { unfold glue. destruct repo; [congruence|]. cbn [app]. rewrite <- app_assoc. reflexivity. }
  rewrite G in A. destruct A as (pb' & -> & R'). { unfold fits. rewrite !app_length. change (length (cstr "/tmp/")) with 5%nat. lia. }
  cbn [bind]. exists x. split; [apply string_spec; auto|]. exact HT.
Qed.
Print Assumptions C93_tmpfile.
Theorem C93_tmpfile_unique : forall J repo n m a, repo <> [] -> ~ In 0 repo -> (length repo <= 4082)%nat -> cache_tmpfile repo J n = Ok a -> cache_tmpfile repo J m = Ok a ->
  Z.of_nat n mod 4294967296 = Z.of_nat m mod 4294967296.
Proof.
  intros J repo n m a NE N0 LEN A B. destruct (C93_tmpfile J repo n NE N0 LEN) as (x & E & X). destruct (C93_tmpfile J repo m NE N0 LEN) as (y & F & Y).
  assert (x = y). { apply (app_inv_head (repo ++ cstr "/tmp/")). rewrite <- !app_assoc. congruence. } subst y. eapply hex_unique; eauto.
Qed.
Print Assumptions C93_tmpfile_unique.

(** ** Examples *)
(** A parser of the simplest such files. *)
Fixpoint to_quote (l : list Z) : list Z * list Z := match l with [] => ([], []) | c :: l' => if c =? 34 then ([], l) else let '(a, b) := to_quote l' in (c :: a, b) end.
Definition pre : list Z := cstr "{ " ++ [34] ++ cstr "fort-version" ++ [34] ++ cstr ": " ++ [34].
Definition post : list Z := [34] ++ cstr " }" ++ [10].
Definition a_load (c : list Z) : option json :=
  if list_eqb Z.eqb (firstn (length pre) c) pre
  then let '(v, after) := to_quote (skipn (length pre) c) in
       if list_eqb Z.eqb after post then Some (JObj [(cstr "fort-version", JStr v)]) else None
  else None.
Lemma to_quote_spec l a b : to_quote l = (a, b) -> l = a ++ b /\ ~ In 34 a.
Proof.
  revert a b. induction l as [|c l IH]; intros a b H; cbn [to_quote] in H; [injection H as <- <-; auto|].
  destruct (Z.eqb_spec c 34) as [->|N]; [injection H as <- <-; auto|]. destruct (to_quote l) as [a' b'] eqn:T. injection H as <- <-. destruct (IH _ _ eq_refl) as (-> & NI). split; auto. intros [E|I]; auto.
Qed.
Lemma to_quote_app a b : ~ In 34 a -> to_quote (a ++ 34 :: b) = (a, 34 :: b).
Proof. induction a as [|c a IH]; intros N; cbn [app to_quote]; [reflexivity|]. destruct (Z.eqb_spec c 34) as [->|]; [destruct N; left; auto|]. rewrite IH; auto. intros I. apply N. right. auto. Qed.
Lemma first_quote (a b x y : list Z) : a ++ 34 :: x = b ++ 34 :: y -> ~ In 34 a -> ~ In 34 b -> a = b.
Proof. intros E A B. pose proof (to_quote_app a x A) as P. rewrite E, to_quote_app in P by auto. congruence. Qed.
Lemma version_quote v : plain_version v -> ~ In 34 v.
Proof. unfold plain_version. rewrite Forall_forall. intros H I. specialize (H _ I). lia. Qed.
Lemma text_is v : meta_text v = pre ++ v ++ post.
Proof. unfold meta_text, pre, post. rewrite <- !app_assoc. reflexivity. Qed.
Example a_load_sane : sane_load a_load.
Proof.
  intros v PV. apply version_quote in PV. split.
  - exists [(cstr "fort-version", JStr v)]. split; [|reflexivity]. rewrite text_is. unfold a_load. rewrite firstn_app, Nat.sub_diag, firstn_all, firstn_O, app_nil_r.
    rewrite (proj2 (list_eqb_spec Z.eqb Z.eqb_eq pre pre) eq_refl). rewrite skipn_app, Nat.sub_diag, skipn_all. cbn [app skipn]. unfold post. cbn [app]. rewrite to_quote_app by auto. 
    rewrite (proj2 (list_eqb_spec Z.eqb Z.eqb_eq _ _) eq_refl). reflexivity.
  - intros k w (m & L & A). unfold a_load in L. destruct (list_eqb Z.eqb (firstn (length pre) (firstn k (meta_text v))) pre) eqn:E1; [|discriminate]. apply list_eqb_spec in E1; [|apply Z.eqb_eq].
    destruct (to_quote (skipn (length pre) (firstn k (meta_text v)))) as [u after] eqn:T. destruct (list_eqb Z.eqb after post) eqn:E2; [|discriminate]. apply list_eqb_spec in E2; [|apply Z.eqb_eq]. subst after.
    injection L as <-. cbn in A. injection A as <-. apply to_quote_spec in T. destruct T as (T & NU).
    pose proof (firstn_skipn (length pre) (firstn k (meta_text v))) as F. rewrite E1, T in F. pose proof (firstn_skipn k (meta_text v)) as F2. rewrite <- F, text_is, <- !app_assoc in F2. apply app_inv_head in F2.
    unfold post in F2. cbn [app] in F2. eapply first_quote; eauto.
Qed.

(** local-repository is /r, which has cache.json, and one file in a directory. *)
Definition r_ := [114]. Definition t_ := cstr "t.tal". Definition d_ := [100].
Definition V1 := cstr "1.6.1". Definition V2 := cstr "1.6.2".
Definition some_fs (meta : list Z) : fs := [([r_], Dir); ([r_; cstr "cache.json"], File meta); ([r_; t_], Dir); ([r_; t_; d_], File [1])].
Definition some_order : list (list name) := [[cstr "cache.json"]; [t_; d_]; [t_]; []].
Definition some_env (rm : list name -> Z) : env :=
  {| on_read := 0; order := some_order; on_remove := rm; on_mkdir := fun _ => 0; on_stat := 0; on_open_tag := 0; flushed_tag := 1000; on_open_meta := 0; flushed_meta := 1000 |}.
Definition fine : list name -> Z := fun _ => 0.
Lemma some_repo : sane_repo [] [47; 114].
Proof. split; [discriminate|]. split; [intros H; cbn in H; intuition discriminate|]. split; [discriminate|]. intros (x & E). discriminate. Qed.
Lemma some_lookup meta p : lookup (some_fs meta) ([r_] ++ p) <> None -> p = [] \/ p = [cstr "cache.json"] \/ p = [t_] \/ p = [t_; d_].
Proof.
  unfold some_fs, lookup. cbn [app]. cbn [find_entry]. intros H. repeat match type of H with context [path_dec ?u ?v] => destruct (path_dec u v) as [E|_]; [injection E; intros; subst; auto|] end. contradiction.
Qed.
Lemma some_sane meta : sane [] [47; 114] (some_fs meta).
Proof.
  split; [|split; [reflexivity|]].
  - unfold some_fs. find_ok.
  - change (root [] [47; 114]) with [r_]. intros ns H. apply some_lookup in H.
    assert (O1 : ordinary (cstr "cache.json")) by (apply ordinary_name; reflexivity). assert (O2 : ordinary t_) by (apply ordinary_name; reflexivity). assert (O3 : ordinary d_) by (apply (ordinary_name "d"); reflexivity).
    destruct H as [->|[->|[->| ->]]]; auto.
Qed.
Lemma some_depth meta : depth_first [] [47; 114] (some_fs meta) some_order.
Proof.
  change (root [] [47; 114]) with [r_]. split; [repeat constructor; cbn; intuition discriminate|]. split.
  - intros ns. split; [intros [<-|[<-|[<-|[<-|[]]]]]; discriminate|]. intros H. apply some_lookup in H. cbn. intuition.
  - intros l1 ns l2 m E (x & NX & ->) I. unfold some_order in E, I.
    assert (CASES : forall u (k : list name), k ++ x = u -> x = skipn (length k) u) by (intros u k <-; rewrite skipn_app, skipn_all, Nat.sub_diag; reflexivity).
    destruct l1 as [|a1 l1]; cbn [app] in E; [injection E as <- <-|injection E as <- E; destruct l1 as [|a2 l1]; cbn [app] in E; [injection E as <- <-|injection E as <- E; destruct l1 as [|a3 l1]; cbn [app] in E; [injection E as <- <-|
      injection E as <- E; destruct l1 as [|a4 l1]; cbn [app] in E; [injection E as <- <-|injection E as <- E; destruct l1; discriminate]]]];
      destruct I as [I|[I|[I|[I|[]]]]]; symmetry in I; pose proof (CASES _ _ I) as CX; cbn [length skipn] in CX; subst x; try (destruct (NX eq_refl)); cbn [app] in *; try discriminate; cbn; auto.
Qed.
Lemma some_env_sane meta rm : (forall ns, rm ns <> E_ISDIR) -> sane_env [] [47; 114] (some_env rm) (some_fs meta).
Proof. intros N. split; [apply some_depth|]. cbn. repeat split; auto; discriminate. Qed.
Lemma some_version : cache_version [] [47; 114] a_load (some_fs (meta_text V1)) V1.
Proof. exists (meta_text V1). split; [reflexivity|]. apply a_load_sane. unfold plain_version, V1. cbn. repeat (constructor; [lia|]). constructor. Qed.
Lemma other_version : ~ cache_version [] [47; 114] a_load (some_fs (meta_text V1)) V2.
Proof. intros (c & L & m & A & B). assert (c = meta_text V1) by (injection L; auto). subst c. vm_compute in A. injection A as <-. vm_compute in B. discriminate. Qed.

(** Kept by 1.6.1; cleared by 1.6.2. *)
Example C93_example : 
  lookup (some_fs (meta_text V1)) [r_; t_; d_] = Some (File [1]) /\
  (exists g t, cache_setup [] [47; 114] a_load V1 (some_env fine) (some_fs (meta_text V1)) = (Some g, t) /\ lookup g [r_; t_; d_] = Some (File [1]) /\ lookup g [r_; cstr "tmp"] = Some Dir /\ length t = 3%nat) /\
  (exists g t, cache_setup [] [47; 114] a_load V2 (some_env fine) (some_fs (meta_text V1)) = (Some g, t) /\ lookup g [r_; t_; d_] = None /\ lookup g [r_; t_] = None /\ lookup g [r_; cstr "CACHEDIR.TAG"] = Some (File tag_text) /\ length t = 7%nat).
Proof. split; [reflexivity|]. split; eexists; eexists; (split; [vm_compute; reflexivity|vm_compute; auto]). Qed.
(** Every trace can be passed through. *)
Lemma passes_exists v t : forall s, exists s', passes v s t s'.
Proof.
  assert (D : forall a b : option node, {a = b} + {a <> b}) by (repeat decide equality).
  induction t as [|g t IH]; intros s; [exists s; constructor|]. set (o := fun p => if D (lookup g p) (lookup (fst s) p) then snd s p else v).
  destruct (IH (g, o)) as (s' & P). exists s'. apply passes_more with o; auto. intros p. cbn [fst snd]. unfold o. destruct (D (lookup g p) (lookup (fst s) p)); auto.
Qed.
(** The hypotheses of C93_version: a cycle of 1.6.1 that stops when it's deleting an unknown cache (after one of the files), and then one of 1.6.2. *)
Example C93_example_history : exists s w, history [] [47; 114] a_load s /\ lookup (fst s) [r_; t_; d_] = Some (File [1]) /\ lookup (fst s) [r_; cstr "cache.json"] = None /\
  sane_env [] [47; 114] w (fst s) /\ removable w /\ exists f t s1, cache_setup [] [47; 114] a_load V2 w (fst s) = (Some f, t) /\ passes V2 s t s1.
Proof.
  assert (PV : plain_version V1) by (unfold plain_version, V1; cbn; repeat (constructor; [lia|]); constructor).
  set (s0 := (some_fs [], fun _ : list name => [] : list Z)). assert (H0 : history [] [47; 114] a_load s0).
  { apply first_time; [apply some_sane|]. intros v (c & L & m & A & _). assert (c = []) by (injection L; auto). subst c. discriminate. }
  set (g := [([r_], Dir); ([r_; t_], Dir); ([r_; t_; d_], File [1])] : fs). destruct (passes_exists V1 [g] s0) as (s & P).
  assert (F : fst s = g) by (rewrite (passes_final _ _ _ _ P); reflexivity).
  assert (H1 : history [] [47; 114] a_load s).
  { apply (then_cycle _ _ _ V1 (some_env fine) s0); auto; [apply some_env_sane; discriminate|intros ? ?; reflexivity|]. apply in_setup with [g]; auto. unfold s0. cbn [fst]. eexists. vm_compute. reflexivity. }
  exists s, {| on_read := 0; order := [[t_; d_]; [t_]; []]; on_remove := fine; on_mkdir := fun _ => 0; on_stat := 0; on_open_tag := 0; flushed_tag := 1000; on_open_meta := 0; flushed_meta := 1000 |}.
  rewrite F. split; auto. split; [reflexivity|]. split; [reflexivity|]. split.
  - change (root [] [47; 114]) with [r_]. assert (LK : forall p, lookup g (root [] [47; 114] ++ p) <> None -> p = [] \/ p = [t_] \/ p = [t_; d_]).
    { change (root [] [47; 114]) with [r_]. unfold g, lookup. cbn [app]. cbn [find_entry]. intros p H. repeat match type of H with context [path_dec ?u ?v] => destruct (path_dec u v) as [E|_]; [injection E; intros; subst; auto|] end. contradiction. }
    split; [|cbn; repeat split; auto; discriminate]. cbn [order]. split; [repeat constructor; cbn; intuition discriminate|]. split.
    + intros ns. split; [intros [<-|[<-|[<-|[]]]]; discriminate|]. intros H. apply LK in H. cbn. intuition.
    + intros l1 ns l2 m E (x & NX & ->) I. assert (CASES : forall u (k : list name), k ++ x = u -> x = skipn (length k) u) by (intros u k <-; rewrite skipn_app, skipn_all, Nat.sub_diag; reflexivity).
      destruct l1 as [|a1 l1]; cbn [app] in E; [injection E as <- <-|injection E as <- E; destruct l1 as [|a2 l1]; cbn [app] in E; [injection E as <- <-|injection E as <- E; destruct l1 as [|a3 l1]; cbn [app] in E; [injection E as <- <-|
        injection E as <- E; destruct l1; discriminate]]];
        destruct I as [I|[I|[I|[]]]]; symmetry in I; pose proof (CASES _ _ I) as CX; cbn [length skipn] in CX; subst x; try (destruct (NX eq_refl)); cbn [app] in *; try discriminate; cbn; auto.
  - split; [intros ? ?; reflexivity|]. destruct (cache_setup [] [47; 114] a_load V2 _ g) as [[f|] t] eqn:E; [|vm_compute in E; discriminate]. destruct (passes_exists V2 t s) as (s1 & P1). exists f, t, s1. auto.
Qed.

(** ** False: that the other version's files are deleted.  Nobody looks at what file_rm_rf() returns: if one file can't be deleted, the ones after it are left, and used. *)
Theorem C93_undeletable_refuted : exists w f g t, sane [] [47; 114] f /\ sane_env [] [47; 114] w f /\ ~ cache_version [] [47; 114] a_load f V2 /\
  cache_setup [] [47; 114] a_load V2 w f = (Some g, t) /\ lookup f [r_; t_; d_] = Some (File [1]) /\ lookup g [r_; t_; d_] = Some (File [1]).
Proof.
  exists (some_env (fun ns => if path_dec ns [cstr "cache.json"] then 1 else 0)), (some_fs (meta_text V1)).
  eexists. eexists. split; [apply some_sane|]. split; [apply some_env_sane; intros ns; destruct (path_dec ns [cstr "cache.json"]); discriminate|]. split; [exact other_version|]. split; [vm_compute; reflexivity|]. split; reflexivity.
Qed.
Print Assumptions C93_undeletable_refuted.

(** ** False: that an interruption loses what was being done, and no more.  cache.json is emptied before it's written: if that's when the power fails, the next cycle deletes all that there was,
    though its version is the same. *)
Theorem C93_interrupted_refuted : exists w f h g t, sane [] [47; 114] f /\ cache_version [] [47; 114] a_load f V1 /\ on_open_meta w = 0 /\ In h (snd (cache_teardown [] [47; 114] V1 w f)) /\
  cache_setup [] [47; 114] a_load V1 w h = (Some g, t) /\ lookup f [r_; t_; d_] = Some (File [1]) /\ lookup h [r_; t_; d_] = Some (File [1]) /\ lookup g [r_; t_; d_] = None.
Proof.
  exists (some_env fine), (some_fs (meta_text V1)). eexists. eexists. eexists. split; [apply some_sane|]. split; [exact some_version|]. split; [reflexivity|]. split; [left; reflexivity|].
  split; [vm_compute; reflexivity|]. split; [reflexivity|]. split; vm_compute; reflexivity.
Qed.
Print Assumptions C93_interrupted_refuted.

(** ** What file_rm_rf() answers: 0 only if all it visited is gone; and it stops at the first it can't remove. *)
Theorem C93_rm_rf : forall cwd repo, sane_repo cwd repo -> forall fault, (forall ns, fault ns <> E_ISDIR) ->
  forall visits f e g t, sane cwd repo f -> Forall (Forall ordinary) visits -> file_rm_rf cwd repo visits fault f = (e, g, t) ->
  (e = 0 -> forall ns, In ns visits -> lookup g (root cwd repo ++ ns) = None) /\
  (e <> 0 -> exists l1 ns l2, visits = l1 ++ ns :: l2 /\ length t = S (length l1) /\ forall ms, In ms l1 -> lookup g (root cwd repo ++ ms) = None).
Proof.
  intros cwd repo SR fault NF visits.
  assert (KEEP : forall f g, shrinks cwd repo f g -> forall p, lookup f p = None -> lookup g p = None).
  { intros f g (_ & H) p L. destruct (H p) as [E|[E _]]; congruence. }
  assert (KEEPS : forall t f, steps (shrinks cwd repo) f t -> forall p, lookup f p = None -> lookup (final f t) p = None).
  { induction t as [|x t IH]; intros f H p L; cbn [steps final] in *; auto. destruct H as [H1 H2]. eauto. }
  induction visits as [|ns visits IH]; intros f e g t S O H; cbn [file_rm_rf] in H.
  - injection H as <- <- <-. split; [intros _ ns []|congruence].
  - inversion O as [|? ? O1 O2]; subst. destruct (sys_remove cwd (fault ns) f (DirsSpec.join repo ns)) as [e1 g1] eqn:R. apply remove_any in R; auto. destruct R as (S1 & R).
    destruct (Z.eqb_spec e1 0) as [E1|E1]; cbn [negb] in H.
    + destruct (file_rm_rf cwd repo visits fault g1) as [[e2 h] t2] eqn:L. injection H as <- <- <-. pose proof L as L2. apply rm_any in L2; auto. destruct L2 as (SH & ->).
      assert (GONE : lookup g1 (root cwd repo ++ ns) = None).
      { destruct R as [(NE & _)|(_ & _ & ->)]; [congruence|]. rewrite lookup_del by (apply rooted; auto). destruct (path_dec _ _); congruence. }
      apply IH in L; auto. destruct L as (LA & LB). split.
      * intros E0 ms [<-|I]; [eapply KEEPS; eauto|auto].
      * intros NE. destruct (LB NE) as (l1 & ms & l2 & -> & LT & G). exists (ns :: l1), ms, l2. split; [reflexivity|]. split; [cbn; lia|].
        intros ks [<-|I]; [eapply KEEPS; eauto|auto].
    + injection H as <- <- <-. split; [congruence|]. intros _. exists [], ns, visits. split; [reflexivity|]. split; [reflexivity|]. intros ms [].
Qed.
Print Assumptions C93_rm_rf.
