(** * C93: Fort keeps the cache it made, and doesn't use that of another version *)
From Coq Require Import String.
From Verif Require Import Base BaseLemmas CString CLib Slurm Dirs DirsSpec DirsProofs DirsProps CacheDir CacheDirSpec CacheDirProofs.
Notation length := List.length.

Section C93.
  Variable cwd : list name.
  Variable repo : list Z.
  Variable load : list Z -> option json.
  Hypothesis SR : sane_repo cwd repo.
  Notation root := (root cwd repo).

  (** ** Whatever versions ran before, and however they were interrupted, the files that a cycle of version [v] finds in the cache (once it has been set up) were written by [v].
      (If the old ones can be deleted: see below.) *)
  Theorem C93_version : sane_load load -> forall s, history cwd repo load s -> forall v w f t s1,
    plain_version v -> sane_env cwd repo w (fst s) -> removable w -> cache_setup cwd repo load v w (fst s) = (Some f, t) -> passes v s t s1 ->
    fst s1 = f /\ forall ns c, ns <> [] -> lookup f (root ++ ns) = Some (File c) -> snd s1 (root ++ ns) = v.
  Proof.
    intros SL s H v w f t s1 PV W RM E P. pose proof (history_consistent cwd repo load SR SL s H) as C.
    destruct (setup_inv cwd repo load SR v w s (Some f) t C W RM E) as (_ & A). specialize (A f eq_refl s1 P). destruct A as (_ & O & _).
    destruct (setup_spec cwd repo load SR v w (fst s) (Some f) t (proj1 C) W E) as (f1 & t1 & t2 & _ & _ & _ & _ & _ & RS & _). specialize (RS f eq_refl).
    assert (F : fst s1 = f) by (rewrite RS; apply (passes_final v); auto). split; auto. intros ns c NN L. apply (O ns c); auto. rewrite F. auto.
  Qed.

  (** ** If cache.json says that it's [v]'s, setting it up only adds (tmp and CACHEDIR.TAG, if they aren't there). *)
  Theorem C93_kept : forall v w f r t, sane cwd repo f -> sane_env cwd repo w f -> cache_version cwd repo load f v -> on_read w = 0 -> cache_setup cwd repo load v w f = (r, t) ->
    forall g, In g t -> forall p, lookup f p <> None -> lookup g p = lookup f p.
  Proof.
    intros v w f r t S W V R H g I p N. destruct (setup_spec cwd repo load SR v w f r t S W H) as (f1 & t1 & t2 & -> & F1 & S1 & ST1 & ST2 & RS & CASES).
    destruct CASES as [(-> & _)|(NV & _)]; [|tauto]. cbn [app final] in *. subst f1.
    assert (A : adds cwd repo f g). { clear - ST2 I. revert ST2. generalize f at 2. induction t2 as [|h t2 IH]; intros f0 ST; [destruct I|]. destruct ST as (A & ST). destruct I as [->|I]; eauto. }
    destruct A as (_ & A). destruct (A p) as [E|(E & _)]; congruence.
  Qed.

  (** ** Otherwise everything in it is deleted, and nothing else. *)
  Theorem C93_cleared : forall v w f g t, sane cwd repo f -> sane_env cwd repo w f -> removable w -> ~ cache_version cwd repo load f v -> cache_setup cwd repo load v w f = (Some g, t) ->
    (forall ns, ns <> [] -> lookup g (root ++ ns) = None \/ (ns = [cstr "tmp"] /\ lookup g (root ++ ns) = Some Dir) \/ (ns = [cstr "CACHEDIR.TAG"] /\ exists k, lookup g (root ++ ns) = Some (File (firstn k tag_text)))) /\
    (forall p, ~ above root p -> lookup g p = lookup f p \/ (lookup f p = None /\ lookup g p = Some Dir /\ above p root)).
  Proof.
    intros v w f g t S W RM NV H. destruct (setup_spec cwd repo load SR v w f (Some g) t S W H) as (f1 & t1 & t2 & -> & F1 & S1 & ST1 & ST2 & RS & CASES). specialize (RS g eq_refl).
    destruct CASES as [(_ & V & _)|(_ & E)]; [contradiction|]. specialize (E RM).
    assert (A : g = f1 \/ adds cwd repo f1 g).
    { rewrite RS, final_app, <- F1. clear - ST2. assert (G : forall f0, f0 = f1 \/ adds cwd repo f1 f0 -> steps (fun _ g => adds cwd repo f1 g) f0 t2 -> final f0 t2 = f1 \/ adds cwd repo f1 (final f0 t2)).
      { clear ST2. induction t2 as [|h t2 IH]; intros f0 D; cbn [steps final]; auto. intros (A & B). apply IH; auto. }
      apply G; auto. }
    assert (SH : forall p, lookup f1 p = lookup f p \/ (lookup f1 p = None /\ above root p)).
    { rewrite F1. clear - ST1. revert f ST1. induction t1 as [|h t1 IH]; intros f; cbn [steps final]; auto. intros ((_ & A) & B) p. destruct (IH h B p) as [E|E]; auto. rewrite E. apply A. }
    assert (AD : forall p, lookup g p = lookup f1 p \/ (lookup f1 p = None /\
      ((lookup g p = Some Dir /\ above p (root ++ [cstr "tmp"])) \/ (p = root ++ [cstr "CACHEDIR.TAG"] /\ exists k, lookup g p = Some (File (firstn k tag_text)))))) by (destruct A as [->|(_ & A)]; auto).
    split.
    - intros ns NN. destruct (AD (root ++ ns)) as [->|(_ & [(D & x & X)|(X & k & K)])]; auto.
      + right. left. rewrite <- app_assoc in X. apply app_inv_head in X. destruct ns as [|a ns]; [congruence|]. cbn [app] in X. injection X as <- X. destruct ns; [auto|discriminate].
      + right. right. apply app_inv_head in X. subst ns. eauto.
    - intros p NA. destruct (SH p) as [E1|(_ & AB)]; [|contradiction]. destruct (AD p) as [->|(N & [(D & x & X)|(X & _)])]; auto.
      + right. split; [congruence|]. split; auto. destruct (exists_last (l := x)) as (y & z & ->); [intros ->; apply NA; exists [cstr "tmp"]; rewrite app_nil_r in X; auto|].
        rewrite app_assoc in X. apply app_inj_tail in X. destruct X as (X & _). exists y. auto.
      + exfalso. apply NA. exists [cstr "CACHEDIR.TAG"]. auto.
  Qed.

  (** ** After a cycle that ends without trouble, cache.json says so; the rest is left alone. *)
  Theorem C93_completed : sane_load load -> forall v w f g t, plain_version v -> sane cwd repo f -> lookup f root = Some Dir -> lookup f (root ++ [cstr "cache.json"]) <> Some Dir ->
    on_open_meta w = 0 -> (length (meta_text v) <= flushed_meta w)%nat -> cache_teardown cwd repo v w f = (g, t) ->
    cache_version cwd repo load g v /\ forall p, p <> root ++ [cstr "cache.json"] -> lookup g p = lookup f p.
  Proof.
    intros SL v w f g t PV S D ND O FL H. assert (ON : ordinary (cstr "cache.json")) by (apply ordinary_name; reflexivity).
    unfold cache_teardown in H. rewrite filename in H. destruct (write_simple_file cwd (on_open_meta w) (flushed_meta w) f (join repo [cstr "cache.json"]) (meta_text v)) as [[e g0] t0] eqn:WR. injection H as <- <-.
    pose proof WR as WR2. apply write_spec in WR; auto. unfold write_simple_file in WR2. rewrite O in WR2. cbn [Z.eqb negb] in WR2.
    assert (OO : Forall ordinary ([] ++ [cstr "cache.json"])) by (constructor; auto). assert (D' : lookup f (root ++ []) = Some Dir) by (rewrite app_nil_r; auto).
    pose proof (resolve_in cwd repo SR f [] _ S OO D') as RI. cbn [app] in RI. rewrite RI in WR2.
    destruct WR as (_ & [(-> & ->)|(g1 & _ & _ & _ & _ & L)]); [exfalso; destruct (lookup f (root ++ [cstr "cache.json"])) as [[|c]|]; [congruence|discriminate|discriminate]|].
    split.
    - exists (meta_text v). unfold metafile. split; [rewrite L; destruct (path_dec _ _); [rewrite firstn_all2 by auto; auto|congruence]|apply SL; auto].
    - intros p N. rewrite L. destruct (path_dec _ _); congruence.
  Qed.

  (** ** And if nothing fails and no file is where a directory should be, the cache can be set up; the downloads' directory is there then. *)
  Theorem C93_ready : forall v w f, sane cwd repo f -> sane_env cwd repo w f -> removable w -> (forall k, on_mkdir w k = 0) ->
    (forall p c, above p root -> lookup f p <> Some (File c)) -> lookup f (root ++ [cstr "tmp"]) = None \/ lookup f (root ++ [cstr "tmp"]) = Some Dir ->
    exists g t, cache_setup cwd repo load v w f = (Some g, t) /\ lookup g (root ++ [cstr "tmp"]) = Some Dir.
  Proof.
    intros v w f S W RM MZ NF TMP. pose proof W as (DF & MK & M0 & NI & NS). unfold cache_setup. destruct (init_cache_metafile cwd repo load v w f) as [f1 t1] eqn:M.
    apply meta_spec in M; auto. destruct M as (F1 & ST & _).
    assert (S1 : sane cwd repo f1). { rewrite F1. apply (steps_sane cwd repo (shrinks cwd repo)); auto. intros ? ? X. apply X. }
    assert (SH : forall p, lookup f1 p = lookup f p \/ lookup f1 p = None).
    { rewrite F1. clear - ST. revert f ST. induction t1 as [|h t1 IH]; intros f; cbn [steps final]; auto. intros ((_ & A) & B) p. destruct (IH h B p) as [E|E]; auto. rewrite E. destruct (A p) as [|[]]; auto. }
    assert (O : Forall ordinary [cstr "tmp"]) by (constructor; [apply ordinary_name; reflexivity|constructor]). pose proof (join_place cwd repo SR _ O) as JP. pose proof (join_plain cwd repo SR _ O) as JL.
    assert (NF1 : forall p c, above p (target cwd (join repo [cstr "tmp"]) true) -> lookup f1 p <> Some (File c)).
    { intros p c (x & X). unfold target in X. rewrite JP in X. destruct (SH p) as [->| ->]; [|discriminate]. destruct x as [|a x]; [rewrite app_nil_r in X; subst p; destruct TMP as [-> | ->]; discriminate|].
      apply NF. destruct (exists_last (l := a :: x)) as (y & z & E); [discriminate|]. rewrite E, app_assoc in X. apply app_inj_tail in X. destruct X as (X & _). exists y. auto. }
    pose proof S1 as (T1 & C1 & _).
    destruct (C86_mkdir_success cwd f1 (join repo [cstr "tmp"]) true T1 C1 JL (join_nonempty cwd repo SR _) (fun E => ltac:(discriminate E)) NF1) as (g & G).
    assert (EXT : mkdir_p cwd (on_mkdir w) f1 (join repo [cstr "tmp"]) true = Ok (0, g)).
    { rewrite <- G. unfold mkdir_p. rewrite MZ. assert (CD : forall l k f, create_dirs cwd (on_mkdir w) k l f = create_dirs cwd (fun _ => 0) k l f).
      { induction l as [|x l IH]; intros k f0; cbn [create_dirs]; auto. rewrite MZ. destruct (create_dir cwd 0 f0 x) as [e f2]. destruct (e =? 0); auto. }
      destruct (join repo [cstr "tmp"]); [reflexivity|]. rewrite CD. reflexivity. }
    assert (LG : lookup g (root ++ [cstr "tmp"]) = Some Dir).
    { destruct (C86_mkdir_partial cwd (on_mkdir w) f1 (join repo [cstr "tmp"]) true T1 C1 JL MK M0) as (_ & P). destruct (P 0 g EXT) as (P1 & _). unfold target in P1. rewrite JP in P1. apply P1; auto.
      intros e SE. unfold stat_well, sys_stat in SE. rewrite MZ in SE. cbn [Z.eqb negb] in SE. rewrite resolve_walk in SE by apply (join_nonempty cwd repo SR).
      pose proof (walk_errors f1 (comps (join repo [cstr "tmp"])) (origin cwd (join repo [cstr "tmp"])) ) as WE. destruct (walk f1 (origin cwd (join repo [cstr "tmp"])) (comps (join repo [cstr "tmp"]))) as [p n|p|er]; [discriminate|congruence|].
      injection SE as <-. destruct (WE er JL eq_refl) as [|(_ & p & c & AB & L)]; auto. exfalso. eapply NF1; eauto. }
    unfold init_tmp_dir. rewrite filename, EXT. cbn [Z.eqb]. destruct (init_cachedir_tag cwd repo w g) as [g3 t3] eqn:TG.
    assert (SG : sane cwd repo g). { assert (IT : init_tmp_dir cwd repo w f1 = (Some g, [g])) by (unfold init_tmp_dir; rewrite filename, EXT; reflexivity). apply tmp_spec in IT; auto. destruct IT as (g' & E & _ & SG & _). injection E as ->. auto. }
    exists g3, (t1 ++ [g] ++ t3). split; auto. apply tag_spec in TG; auto. destruct TG as (F3 & ST3).
    assert (G3 : g3 = g \/ forall p, lookup g3 p = lookup g p \/ (p = root ++ [cstr "CACHEDIR.TAG"])).
    { rewrite F3. clear - ST3. match type of ST3 with steps ?P g t3 => assert (X : forall g0, (g0 = g \/ forall p, lookup g0 p = lookup g p \/ (p = root ++ [cstr "CACHEDIR.TAG"])) -> steps P g0 t3 -> final g0 t3 = g \/ forall p, lookup (final g0 t3) p = lookup g p \/ (p = root ++ [cstr "CACHEDIR.TAG"])) end.
      { clear ST3. induction t3 as [|h t3 IH]; intros g0 D; cbn [steps final]; auto. intros ((_ & A) & B). apply IH; auto. right. intros p. destruct (A p) as [|(E & _)]; auto. }
      apply X; auto. }
    destruct G3 as [->|G3]; auto. destruct (G3 (root ++ [cstr "tmp"])) as [->|E]; auto. apply app_inv_head in E. discriminate.
  Qed.
End C93.
Print Assumptions C93_version.
Print Assumptions C93_kept.
Print Assumptions C93_cleared.
Print Assumptions C93_completed.
Print Assumptions C93_ready.
