(** * C86: directories are made and removed where they should be *)
From Verif Require Import Base BaseLemmas Dirs DirsSpec DirsProofs.
Notation length := List.length.

Lemma before_last_spec s : match before_last s with None => ~ In 47 s | Some x => exists n, s = x ++ 47 :: n /\ ~ In 47 n end.
Proof.
  unfold before_last. induction s as [|c s IH] using rev_ind; [cbn; auto|]. rewrite slashes_app. cbn [slashes plus].
  destruct (Z.eqb_spec c 47) as [->|N].
  - rewrite rev_app_distr. cbn [rev app]. exists []. rewrite firstn_app, firstn_all, Nat.sub_diag. cbn. rewrite app_nil_r. auto.
  - rewrite app_nil_r. destruct (rev (slashes 0 s)) as [|i l] eqn:E.
    + intros I. apply in_app_or in I. destruct I as [I|[I|[]]]; [exact (IH I)|congruence].
    + assert (In i (slashes 0 s)) as I by (apply in_rev; rewrite E; left; reflexivity). apply slashes_spec in I. destruct I as (a & b & Hs & Hi). cbn in Hi. destruct IH as (n & En & Hn).
      exists (n ++ [c]). split.
      * rewrite firstn_app. replace (i - length s)%nat with 0%nat by (rewrite Hs, app_length; cbn; lia). cbn [firstn]. rewrite app_nil_r. rewrite app_comm_cons, app_assoc, <- En. reflexivity.
      * intros J. apply in_app_or in J. destruct J as [J|[J|[]]]; [exact (Hn J)|congruence].
Qed.

(** ** mkdir_p(): the directory (of the path, or the path itself) is there afterwards; nothing that existed changed; what is new is empty directories above it.  (If stat()
    says something other than that it isn't there: see below.) *)
Definition target (cwd : list name) (path : list Z) (include_basename : bool) : list name := if include_basename then place cwd path else place_dir cwd path.
Definition stat_well (cwd : list name) (fault : Z) (f : fs) (path : list Z) (include_basename : bool) : Prop :=
  forall e, (if include_basename then sys_stat cwd fault f path else match before_last path with Some d => sys_stat cwd fault f d | None => inl Dir end) = inr e -> e = E_NOENT.
Theorem C86_mkdir_partial : forall cwd fault f path include_basename,
  tree_ok f -> lookup f cwd = Some Dir -> plain path -> (forall k, fault k <> E_EXIST) -> fault 0%nat <> E_NOENT ->
  (path <> [] \/ include_basename = false -> mkdir_p cwd fault f path include_basename <> UB) /\
  forall e g, mkdir_p cwd fault f path include_basename = Ok (e, g) ->
    let d := target cwd path include_basename in
    (e = 0 -> stat_well cwd (fault 0%nat) f path include_basename -> lookup g d = Some Dir) /\
    (forall p, lookup g p = lookup f p \/ (lookup f p = None /\ lookup g p = Some Dir /\ above p d)) /\ tree_ok g.
Proof.
  intros cwd fault f path ib W C P NF NN. set (d := target cwd path ib).
  (* [s]: localuri *)
  assert (M: forall s, plain s -> (ib = true \/ s <> [] -> place cwd s = d) ->
    let m := if 0 <? dir_exists cwd (fault 0%nat) f s then Ok (0, f) else if dir_exists cwd (fault 0%nat) f s <? 0 then Ok (dir_exists cwd (fault 0%nat) f s, f)
             else match s with [] => if ib then UB else Ok (create_dir cwd (fault 1%nat) f []) | _ => Ok (create_dirs cwd fault 1 (ancestors s) f) end in
    (s <> [] \/ ib = false -> m <> UB) /\
    forall e g, m = Ok (e, g) -> (e = 0 -> (forall e, sys_stat cwd (fault 0%nat) f s = inr e -> e = E_NOENT) -> lookup g d = Some Dir) /\
      (forall p, lookup g p = lookup f p \/ (lookup f p = None /\ lookup g p = Some Dir /\ above p d)) /\ tree_ok g).
  { intros s Ps Hd m. split.
    - intros H. unfold m. destruct (0 <? dir_exists cwd (fault 0%nat) f s); [discriminate|]. destruct (dir_exists cwd (fault 0%nat) f s <? 0); [discriminate|]. destruct s; [|discriminate].
      destruct ib; [destruct H as [H|H]; [contradiction|discriminate]|discriminate].
    - intros e g E. unfold m in E. unfold dir_exists in E. destruct (sys_stat cwd (fault 0%nat) f s) as [[|co]|er] eqn:St.
      + cbn in E. injection E as <- <-. split; [|split; [left; reflexivity|exact W]]. intros _ _. unfold sys_stat in St. destruct (Z.eqb_spec (fault 0%nat) 0) as [F|]; cbn [negb] in St; [|discriminate].
        assert (s <> []) as NE by (intros ->; discriminate). rewrite <- Hd by auto. apply (stat_dir cwd f s W Ps). unfold sys_stat. cbn [Z.eqb negb]. exact St.
      + cbn in E. injection E as <- <-. split; [discriminate|]. split; [left; reflexivity|exact W].
      + destruct (Z.eqb_spec er E_NOENT) as [->|N].
        * cbn in E. destruct s as [|c s].
          { destruct ib; [discriminate|]. injection E as E. unfold create_dir, sys_mkdir in E. cbn [resolve] in E. destruct (Z.eqb_spec (fault 1%nat) 0) as [F|F]; cbn [negb] in E.
            - cbn in E. injection E as <- <-. split; [discriminate|]. split; [left; reflexivity|exact W].
            - destruct (Z.eqb_spec (fault 1%nat) E_EXIST) as [K|K]; [destruct (NF _ K)|]. injection E as <- <-. split; [intros K2; contradiction|]. split; [left; reflexivity|exact W]. }
          injection E as E. destruct (create_dirs_spec cwd fault NF _ _ _ _ _ W C (ancestors_plain (c :: s) ltac:(discriminate) Ps) E) as (W2 & G & D). rewrite <- Hd by (right; discriminate).
          split; [|split; [|exact W2]].
          -- intros E0 _. specialize (D E0 (c :: s) ltac:(unfold ancestors; apply in_or_app; right; left; reflexivity)). destruct (lookup g (place cwd (c :: s))) as [[|co]|] eqn:L; [reflexivity| |contradiction].
             exfalso. destruct (G (place cwd (c :: s))) as [K|(_ & K & _)]; [|congruence]. rewrite L in K.
             assert (fault 0%nat = 0) as F by (unfold sys_stat in St; destruct (Z.eqb_spec (fault 0%nat) 0); [assumption|]; cbn [negb] in St; injection St as St; contradiction).
             rewrite F in St. exact (stat_noent cwd f (c :: s) co W ltac:(discriminate) Ps St (eq_sym K)).
          -- intros p. destruct (G p) as [K|(K1 & K2 & x & I & ->)]; [left; exact K|]. right. split; [exact K1|]. split; [exact K2|]. apply ancestors_above; [discriminate|exact I].
        * destruct (0 <? er) eqn:S1; [injection E as <- <-; split; [intros _ H; destruct (N (H _ eq_refl))|]; split; [left; reflexivity|exact W]|].
          destruct (er <? 0) eqn:S2; [injection E as <- <-; split; [intros _ H; destruct (N (H _ eq_refl))|]; split; [left; reflexivity|exact W]|].
          assert (er = 0) as -> by (apply Z.ltb_ge in S1, S2; lia). exfalso. unfold sys_stat in St. destruct (Z.eqb_spec (fault 0%nat) 0) as [F|F]; cbn [negb] in St; [|injection St as St; contradiction].
          destruct s as [|c s]; [discriminate|]. rewrite resolve_walk in St by discriminate. revert St. clear. generalize (origin cwd (c :: s)). generalize (comps (c :: s)). induction l as [|d l IH]; intros cur; cbn [walk].
          { destruct (lookup f cur); discriminate. }
          destruct (lookup f cur) as [[|]|]; [apply IH|discriminate|]. destruct (forallb is_nil (d :: l)); discriminate. }
  unfold mkdir_p, stat_well. destruct ib.
  - apply (M path P). intros _. reflexivity.
  - pose proof (before_last_spec path) as B. destruct (before_last path) as [s|].
    + destruct B as (n & En & Hn). assert (plain s) as Ps by (rewrite En in P; exact (plain_prefix _ _ P)).
      destruct (M s Ps) as (M1 & M2).
      { intros [K|NE]; [discriminate|]. unfold d, target, place, place_dir. rewrite En, origin_app by exact NE. rewrite comps_app, (comps_name n Hn), removelast_app by discriminate. cbn [removelast]. rewrite app_nil_r. reflexivity. }
      split; [intros _; apply M1; auto|exact M2].
    + split; [discriminate|]. intros e g E. injection E as <- <-. split; [|split; [left; reflexivity|exact W]]. intros _ _. unfold d, target, place_dir. rewrite (comps_name path B). cbn [removelast]. change (clean []) with (@nil name). rewrite app_nil_r. apply origin_dir. exact C.
Qed.
Print Assumptions C86_mkdir_partial.

(** ** It does succeed if nothing fails and no file is in the way.  (The exception is a directory of "/": mkdir_p("/x", false) says ENOENT.) *)
Theorem C86_mkdir_success : forall cwd f path include_basename,
  tree_ok f -> lookup f cwd = Some Dir -> plain path -> path <> [] -> (include_basename = false -> forall n, ~ In 47 n -> path <> 47 :: n) ->
  (forall p c, above p (target cwd path include_basename) -> lookup f p <> Some (File c)) ->
  exists g, mkdir_p cwd (fun _ => 0) f path include_basename = Ok (0, g).
Proof.
  intros cwd f path ib W C P NE NR NFile.
  assert (M: forall s, s <> [] -> plain s -> (forall p c, above p (place cwd s) -> lookup f p <> Some (File c)) ->
    exists g, (if 0 <? dir_exists cwd 0 f s then Ok (0, f) else if dir_exists cwd 0 f s <? 0 then Ok (dir_exists cwd 0 f s, f)
               else match s with [] => if ib then UB else Ok (create_dir cwd 0 f []) | _ => Ok (create_dirs cwd (fun _ => 0) 1 (ancestors s) f) end) = Ok (0, g)).
  { intros s N Ps H. destruct (mkdir_p_success_base cwd (fun _ => 0) f s (fun _ => eq_refl) W C N Ps H) as (g & G). unfold dir_exists. destruct (sys_stat cwd 0 f s) as [[|co]|er] eqn:St.
    - exists f. reflexivity.
    - exfalso. unfold sys_stat in St. cbn [Z.eqb negb] in St. rewrite resolve_walk in St by exact N. pose proof (walk_spec f W _ (origin cwd s) Ps) as K. destruct (walk f (origin cwd s) (comps s)); [|discriminate|discriminate].
      injection St as ->. destruct K as (-> & K). apply (H _ co) in K; [contradiction|]. exists []. rewrite app_nil_r. reflexivity.
    - destruct (Z.eqb_spec er E_NOENT) as [->|NN]; [cbn; destruct s as [|c s]; [contradiction|]; rewrite G; exists g; reflexivity|]. destruct (0 <? er) eqn:S1; [exists f; reflexivity|].
      exfalso. revert St S1 NN. unfold sys_stat. cbn [Z.eqb negb]. rewrite resolve_walk by exact N. clear. generalize (origin cwd s). generalize (comps s). induction l as [|d l IH]; intros cur; cbn [walk].
      + destruct (lookup f cur); [discriminate|]. intros E. injection E as <-. contradiction.
      + destruct (lookup f cur) as [[|]|]; [apply IH|intros E; injection E as <-; discriminate|]. destruct (forallb is_nil (d :: l)); intros E; injection E as <-; contradiction. }
  unfold mkdir_p. destruct ib; [apply (M path NE P NFile)|]. pose proof (before_last_spec path) as B. destruct (before_last path) as [s|]; [|exists f; reflexivity].
  destruct B as (n & En & Hn). destruct s as [|c s]; [exfalso; exact (NR eq_refl n Hn En)|]. apply M; [discriminate|rewrite En in P; exact (plain_prefix _ _ P)|].
  intros p co A. apply (NFile p co). assert (target cwd path false = place cwd (c :: s)) as ->; [|exact A].
  unfold target, place, place_dir. rewrite En, origin_app by discriminate. rewrite comps_app, (comps_name n Hn), removelast_app by discriminate. cbn [removelast]. rewrite app_nil_r. reflexivity.
Qed.
Print Assumptions C86_mkdir_success.

(** "/r" is a directory, with "/r/a" a directory and "/r/f" a file. *)
Definition example_fs : fs := [([[114]], Dir); ([[114]; [97]], Dir); ([[114]; [102]], File [1])].
Ltac find_ok :=
  let p := fresh "p" in let x := fresh "x" in let H := fresh "H" in let E := fresh "E" in let K := fresh "K" in
  intros p x H; unfold lookup in H; destruct (p ++ [x]) eqn:E; [destruct p; discriminate|]; rewrite <- E in H; cbn [find_entry] in H;
  repeat match type of H with context [path_dec ?u ?v] =>
    destruct (path_dec u v) as [K|_];
    [clear H E; change u with (removelast u ++ [last u []]) in K; apply app_inj_tail in K; destruct K as (<- & _); reflexivity|] end;
  contradiction.
Lemma example_ok : tree_ok example_fs.
Proof. unfold example_fs. find_ok. Qed.
(** mkdir_p("/r/a/b/c", false) makes /r/a/b. *)
Example C86_example_mkdir : let p := [47; 114; 47; 97; 47; 98; 47; 99] in
  tree_ok example_fs /\ plain p /\ target [] p false = [[114]; [97]; [98]] /\
  mkdir_p [] (fun _ => 0) example_fs p false = Ok (0, ([[114]; [97]; [98]], Dir) :: example_fs).
Proof. split; [exact example_ok|]. split; [intros H; cbn in H; intuition discriminate|]. vm_compute. auto. Qed.

(** ** False: that the directory is there if mkdir_p() returns 0.  dir_exists() returns errno, which is positive: mkdir_p() takes that for "it exists". *)
Theorem C86_mkdir_refuted : exists f path, tree_ok f /\ plain path /\
  mkdir_p [] (fun _ => 0) f path true = Ok (0, f) /\ lookup f (place [] path) = None.
Proof.
  exists example_fs, [47; 114; 47; 102; 47; 98]. split; [exact example_ok|]. split; [intros H; cbn in H; intuition discriminate|]. vm_compute. auto.
Qed.
Print Assumptions C86_mkdir_refuted.

(** ** delete_dir_recursive_bottom_up(repo/n1/.../nk): removes that file, and those of the directories repo/n1, ... that become empty; nothing else, whatever fails; and if it
    returns 0 and rmdir() doesn't fail for reasons of its own, no directory between the repository and the file is left empty. *)
Theorem C86_delete : forall cwd fault repo ns f e g,
  tree_ok f -> repo <> [] -> last repo 0 <> 47 -> plain repo -> ns <> [] -> Forall ordinary ns ->
  delete_dir_recursive_bottom_up cwd fault repo f (join repo ns) = Ok (e, g) ->
  let r := place cwd repo in
  (e = 0 -> lookup f (r ++ ns) <> None /\ lookup g (r ++ ns) = None) /\
  (forall p, lookup g p = lookup f p \/
     (lookup g p = None /\ (p = r ++ ns \/ lookup f p = Some Dir /\ strictly_above r p /\ strictly_above p (r ++ ns)))) /\
  tree_ok g /\
  (e = 0 -> (forall k, fault k = 0) -> forall p, strictly_above r p -> strictly_above p (r ++ ns) -> lookup g p <> None -> exists q, strictly_above p q /\ lookup g q <> None).
Proof.
  intros cwd fault repo ns f e g W NE NL PR NN O E. cbv zeta. unfold delete_dir_recursive_bottom_up in E.
  destruct (exists_last NN) as (ms & n & ->). apply Forall_app in O. destruct O as (O1 & O2). inversion O2 as [|? ? On _]; subst.
  assert (~ In 47 n) as NS by (destruct On as (_ & _ & _ & D); exact D). assert (Forall ordinary (ms ++ [n])) as O by (apply Forall_app; auto).
  assert (join repo (ms ++ [n]) <> []) as NJ by (unfold join; destruct repo; [contradiction|discriminate]).
  pose proof (place_join cwd repo (ms ++ [n]) NE O) as PJ. pose proof (plain_join repo (ms ++ [n]) PR O) as PP.
  assert (place cwd repo ++ ms ++ [n] <> []) as NP by (destruct (place cwd repo), ms; discriminate).
  assert (REM: let '(e1, f1) := sys_remove cwd (fault 0%nat) f (join repo (ms ++ [n])) in
    (e1 = 0 /\ lookup f (place cwd repo ++ ms ++ [n]) <> None /\ (forall q, strictly_above (place cwd repo ++ ms ++ [n]) q -> lookup f q = None) /\ f1 = del f (place cwd repo ++ ms ++ [n])) \/ (e1 <> 0 /\ f1 = f)).
  { unfold sys_remove, sys_unlink. destruct (Z.eqb_spec (fault 0%nat) 0) as [F|F]; cbn [negb].
    2:{ destruct (fault 0%nat =? E_ISDIR); [|right; auto]. destruct (sys_rmdir cwd 0 f (join repo (ms ++ [n]))) as [e1 f1] eqn:R. destruct (rmdir_spec _ _ _ _ _ _ W NJ PP R) as [(-> & _ & _ & A & B & ->)|(A & -> & _)]; [left|right; auto].
        rewrite PJ in *. split; [reflexivity|]. split; [rewrite A; discriminate|]. auto. }
    rewrite resolve_walk by exact NJ. pose proof (walk_spec f W _ (origin cwd (join repo (ms ++ [n]))) PP) as H. change (origin cwd (join repo (ms ++ [n])) ++ clean (comps (join repo (ms ++ [n])))) with (place cwd (join repo (ms ++ [n]))) in H.
    destruct (walk f (origin cwd (join repo (ms ++ [n]))) (comps (join repo (ms ++ [n])))) as [p nd|p|er] eqn:Ew.
    - destruct H as (-> & L). rewrite PJ in *. destruct nd as [|co].
      + cbn [Z.eqb]. rewrite Z.eqb_refl. destruct (sys_rmdir cwd 0 f (join repo (ms ++ [n]))) as [e1 f1] eqn:R. destruct (rmdir_spec _ _ _ _ _ _ W NJ PP R) as [(-> & _ & _ & A & B & ->)|(A & -> & _)]; [left|right; auto].
        rewrite PJ in *. split; [reflexivity|]. split; [rewrite A; discriminate|]. auto.
      + cbn. left. split; [reflexivity|]. split; [rewrite L; discriminate|]. split; [|reflexivity]. intros q (r & Nr & ->). destruct (lookup f ((place cwd repo ++ ms ++ [n]) ++ r)) eqn:Q; [|reflexivity]. exfalso.
        assert (lookup f (place cwd repo ++ ms ++ [n]) = Some Dir) as K; [apply (ok_prefix f _ r W); [congruence|exact Nr]|congruence].
    - cbn. right. split; [discriminate|reflexivity].
    - assert (er = E_NOENT \/ er = E_NOTDIR) as K.
      { revert Ew. clear. generalize (origin cwd (join repo (ms ++ [n]))). generalize (comps (join repo (ms ++ [n]))). induction l as [|d l IH]; intros cur; cbn [walk].
        - destruct (lookup f cur); discriminate.
        - destruct (lookup f cur) as [[|]|]; [apply IH|intros E; injection E as <-; auto|]. destruct (forallb is_nil (d :: l)); [discriminate|]. intros E; injection E as <-; auto. }
      destruct K; subst er; cbn; right; split; try discriminate; reflexivity. }
  destruct (sys_remove cwd (fault 0%nat) f (join repo (ms ++ [n]))) as [e1 f1] eqn:E1. destruct REM as [(-> & L & B & ->)|(N1 & ->)].
  2:{ destruct (Z.eqb_spec e1 0); [contradiction|]. cbn [negb] in E. injection E as <- <-. split; [intros; contradiction|]. split; [left; reflexivity|]. split; [exact W|]. intros; contradiction. }
  cbn [Z.eqb negb] in E. set (P := place cwd repo ++ ms ++ [n]) in *.
  assert (tree_ok (del f P)) as W1 by (apply ok_del; auto).
  destruct (rev repo) as [|c rr] eqn:RR; [apply (f_equal (@rev Z)) in RR; rewrite rev_involutive in RR; contradiction|].
  assert (c <> 47) as Nc. { apply (f_equal (@rev Z)) in RR. rewrite rev_involutive in RR. cbn in RR. rewrite RR, last_last in NL. exact NL. }
  destruct (Z.eqb_spec c 47); [contradiction|]. injection E as E. rewrite join_snoc, parents_snoc in E by exact NS.
  destruct (delete_dirs_spec cwd fault repo NE PR ms 1 _ e g O1 W1 E) as (W2 & G & D).
  assert (LP: lookup g P = None).
  { destruct (G P) as [->|(K & _)]; [|exact K]. rewrite lookup_del by exact NP. destruct (path_dec P P); [reflexivity|contradiction]. }
  split; [intros _; split; [exact L|exact LP]|]. split; [|split; [exact W2|]].
  - intros p. destruct (G p) as [->|(K1 & K2 & K3 & a & b & Hab & Na & ->)].
    + rewrite lookup_del by exact NP. destruct (path_dec P p) as [<-|]; [right; auto|left; reflexivity].
    + right. split; [exact K1|]. right. rewrite lookup_del in K3 by exact NP. destruct (path_dec P (place cwd repo ++ a)); [discriminate|]. split; [exact K3|].
      split; [exists a; split; [exact Na|reflexivity]|]. exists (b ++ [n]). split; [destruct b; discriminate|]. unfold P. rewrite Hab, <- !app_assoc. reflexivity.
  - intros E0 FZ p (a & Na & ->) (b & Nb & Eb) Lp. unfold P in Eb. rewrite <- app_assoc in Eb. apply app_inv_head in Eb. destruct (exists_last Nb) as (b' & y & ->). rewrite app_assoc in Eb. apply app_inj_tail in Eb. destruct Eb as (Eb & _).
    exact (D FZ E0 a b' Eb Na Lp).
Qed.
Print Assumptions C86_delete.
Definition example_fs2 : fs := [([[114]], Dir); ([[114]; [97]], Dir); ([[114]; [97]; [98]], Dir); ([[114]; [97]; [98]; [99]], File [1])].
(** Removing /r/a/b/c removes /r/a/b and /r/a, not /r. *)
Example C86_example_delete : join [47; 114] [[97]; [98]; [99]] = [47; 114; 47; 97; 47; 98; 47; 99] /\ Forall ordinary [[97]; [98]; [99]] /\
  delete_dir_recursive_bottom_up [] (fun _ => 0) [47; 114] example_fs2 [47; 114; 47; 97; 47; 98; 47; 99] = Ok (0, [([[114]], Dir)]).
Proof. split; [reflexivity|]. split; [|vm_compute; reflexivity]. repeat constructor; unfold ordinary; try discriminate; cbn; intuition discriminate. Qed.

(** ** False if local-repository ends in '/': the repository itself is removed when it becomes empty (which it isn't as long as there is something else in it). *)
Theorem C86_repository_refuted : exists f repo path g, tree_ok f /\ repo = [47; 114; 47] /\ path = repo ++ [47; 97; 47; 98] /\
  delete_dir_recursive_bottom_up [] (fun _ => 0) repo f path = Ok (0, g) /\ lookup f (place [] repo) = Some Dir /\ lookup g (place [] repo) = None.
Proof.
  exists [([[114]], Dir); ([[114]; [97]], Dir); ([[114]; [97]; [98]], File [1])], [47; 114; 47], [47; 114; 47; 47; 97; 47; 98], []. split.
  - find_ok.
  - vm_compute. auto.
Qed.
Print Assumptions C86_repository_refuted.

Lemma walk_errors f : forall cs cur e, ~ In [46; 46] cs -> walk f cur cs = Failed e -> e = E_NOENT \/ (e = E_NOTDIR /\ exists p c, above p (cur ++ clean cs) /\ lookup f p = Some (File c)).
Proof.
  induction cs as [|c cs IH]; intros cur e ND; cbn [walk]; [destruct (lookup f cur); discriminate|]. destruct (lookup f cur) as [[|co]|] eqn:L.
  - assert (~ In [46; 46] cs) as ND2 by (intros K; apply ND; right; exact K). rewrite clean_cons. destruct (is_nil c || is_dot c); [apply IH; exact ND2|]. destruct (is_dotdot c) eqn:DD; [apply is_dotdot_spec in DD; subst c; exfalso; apply ND; left; reflexivity|].
    intros E. destruct (IH _ _ ND2 E) as [K|(K & p & co & A & B)]; [left; exact K|]. right. split; [exact K|]. exists p, co. rewrite <- app_assoc in A. auto.
  - intros E. injection E as <-. right. split; [reflexivity|]. exists cur, co. split; [exists (clean (c :: cs)); reflexivity|exact L].
  - destruct (forallb is_nil (c :: cs)); [discriminate|]. intros E. injection E as <-. left. reflexivity.
Qed.

Lemma delete_dirs_success cwd base : base <> [] -> plain base -> forall ms k f, Forall ordinary ms -> tree_ok f -> lookup f (place cwd base ++ ms) = Some Dir ->
  exists g, delete_dirs cwd (fun _ => 0) (length base) k (join base ms :: parents (join base ms)) f = (0, g).
Proof.
  intros NE PB. induction ms as [|n ms IH] using rev_ind; intros k f O W L; cbn [delete_dirs].
  - unfold join. cbn [map concat]. rewrite app_nil_r, Nat.eqb_refl. exists f. reflexivity.
  - destruct (Nat.eqb_spec (length (join base (ms ++ [n]))) (length base)) as [K|K]; [exists f; reflexivity|].
    assert (Forall ordinary ms /\ ordinary n) as (O1 & O2) by (apply Forall_app in O; destruct O as (O1 & O2); inversion O2; auto).
    assert (~ In 47 n) as NS by (destruct O2 as (_ & _ & _ & D); exact D).
    assert (join base (ms ++ [n]) <> []) as NE2 by (unfold join; destruct base; [contradiction|discriminate]).
    pose proof (place_join cwd base (ms ++ [n]) NE O) as PJ.
    unfold sys_rmdir at 1. cbn [Z.eqb negb]. rewrite resolve_walk by exact NE2. unfold place in PJ. rewrite (walk_dir f W _ _ (plain_join base _ PB O)) by (rewrite PJ; exact L). rewrite PJ.
    fold (place cwd base) in *. assert (place cwd base ++ ms ++ [n] <> []) as NP by (destruct (place cwd base), ms; discriminate).
    destruct (place cwd base ++ ms ++ [n]) as [|x q] eqn:Q; [contradiction|]. rewrite <- Q in *. destruct (busy f (place cwd base ++ ms ++ [n])) eqn:B; [exists f; reflexivity|]. cbn [Z.eqb].
    rewrite join_snoc, parents_snoc by exact NS. apply IH; [exact O1| |].
    + apply ok_del; [rewrite Q; discriminate|exact W|]. intros r A. destruct (lookup f r) eqn:F; [|reflexivity]. exfalso. assert (busy f (place cwd base ++ ms ++ [n]) = true) as J; [|congruence]. apply busy_spec. exists r. split; [exact A|congruence].
    + rewrite lookup_del by (rewrite Q; discriminate). destruct (path_dec (place cwd base ++ ms ++ [n]) (place cwd base ++ ms)) as [J|J].
      * exfalso. rewrite app_assoc in J. symmetry in J. exact (app_neq_snoc _ _ J).
      * apply (ok_prefix f _ [n] W); [rewrite <- app_assoc, L; discriminate|discriminate].
Qed.

Lemma prefix_compare (p x r m : list name) : p ++ x = r ++ m -> above p r \/ exists a, a <> [] /\ p = r ++ a.
Proof.
  revert r. induction p as [|y p IH]; intros r E; [left; exists r; reflexivity|]. destruct r as [|z r]; [right; exists (y :: p); split; [discriminate|reflexivity]|].
  cbn in E. injection E as -> E. destruct (IH r E) as [(t & ->)|(a & Na & ->)]; [left; exists t; reflexivity|right; exists a; auto].
Qed.

(** ** RRDP: publishing a new file puts it there, and withdrawing it then leaves everything as it was (if nothing fails, no file is where a directory has to be, and no directory on the way was empty). *)
Theorem C86_roundtrip : forall cwd repo ns content f, let r := place cwd repo in
  tree_ok f -> lookup f cwd = Some Dir -> repo <> [] -> last repo 0 <> 47 -> plain repo -> ns <> [] -> Forall ordinary ns ->
  lookup f r = Some Dir -> lookup f (r ++ ns) = None ->
  (forall p c, above p (r ++ ns) -> lookup f p <> Some (File c)) ->
  (forall p, strictly_above r p -> strictly_above p (r ++ ns) -> lookup f p <> None -> exists q, strictly_above p q /\ lookup f q <> None) ->
  exists g h, write_file cwd (fun _ => 0) 0 f (join repo ns) content = Ok (0, g) /\ lookup g (r ++ ns) = Some (File content) /\
    (forall p, lookup g p = lookup f p \/ p = r ++ ns \/ (lookup f p = None /\ lookup g p = Some Dir /\ above p (r ++ ns))) /\
    delete_file cwd (fun _ => 0) repo g (join repo ns) = Ok (0, h) /\ forall p, lookup h p = lookup f p.
Proof.
  intros cwd repo ns content f r W C NE NL PR NN O LR LN NFile NEmpty.
  destruct (exists_last NN) as (ms & n & ->). assert (Forall ordinary ms /\ ordinary n) as (O1 & On) by (apply Forall_app in O; destruct O as (O1 & O2); inversion O2; auto).
  assert (~ In 47 n) as NS by (destruct On as (_ & _ & _ & D); exact D).
  assert (join repo (ms ++ [n]) <> []) as NJ by (unfold join; destruct repo; [contradiction|discriminate]).
  assert (join repo ms <> []) as NJ2 by (unfold join; destruct repo; [contradiction|discriminate]).
  pose proof (place_join cwd repo (ms ++ [n]) NE O) as PJ. pose proof (plain_join repo (ms ++ [n]) PR O) as PP. fold r in PJ.
  pose proof (place_join cwd repo ms NE O1) as PJ2. fold r in PJ2.
  assert (T: target cwd (join repo (ms ++ [n])) false = r ++ ms).
  { unfold target, place_dir. rewrite join_snoc, origin_app by exact NJ2. rewrite comps_app, (comps_name n NS), removelast_app by discriminate. cbn [removelast]. rewrite app_nil_r. exact PJ2. }
  assert (NFile2: forall p c, above p (r ++ ms) -> lookup f p <> Some (File c)).
  { intros p c (t & Et). apply NFile. exists (t ++ [n]). rewrite app_assoc, Et, <- app_assoc. reflexivity. }
  destruct (C86_mkdir_success cwd f (join repo (ms ++ [n])) false W C PP NJ) as (g1 & E1).
  { intros _ m Hm K. rewrite join_snoc in K. destruct (join repo ms) as [|c s] eqn:J; [contradiction|]. cbn in K. injection K as _ K. apply Hm. rewrite <- K. apply in_or_app. right. left. reflexivity. }
  { rewrite T. exact NFile2. }
  destruct (C86_mkdir_partial cwd (fun _ => 0) f (join repo (ms ++ [n])) false W C PP ltac:(discriminate) ltac:(discriminate)) as (_ & M). destruct (M _ _ E1) as (M1 & M2 & W1). rewrite T in *. clear M.
  assert (D1: lookup g1 (r ++ ms) = Some Dir).
  { apply M1; [reflexivity|]. intros e. rewrite join_snoc. pose proof (before_last_spec (join repo ms ++ 47 :: n)) as B. destruct (before_last (join repo ms ++ 47 :: n)) as [s|]; [|discriminate].
    destruct B as (m & Em & Hm). assert (s = join repo ms) as ->.
    { assert (parents (s ++ 47 :: m) = parents (join repo ms ++ 47 :: n)) as Q by (rewrite Em; reflexivity). rewrite !parents_snoc in Q by assumption. injection Q as -> _. reflexivity. }
    unfold sys_stat. cbn [Z.eqb negb]. rewrite resolve_walk by exact NJ2. destruct (walk f (origin cwd (join repo ms)) (comps (join repo ms))) as [p nd|p|er] eqn:Ew; intros K; [discriminate|injection K as <-; reflexivity|]. injection K as <-.
    destruct (walk_errors f _ _ _ (plain_join repo ms PR O1) Ew) as [K|(_ & p & co & A & L)]; [exact K|]. exfalso. unfold place in PJ2. rewrite PJ2 in A. exact (NFile2 p co A L). }
  set (P := r ++ ms ++ [n]) in *. assert (NP: P <> []) by (unfold P; destruct r, ms; discriminate).
  assert (L1: lookup g1 P = None).
  { destruct (M2 P) as [->|(_ & _ & t & K)]; [exact LN|]. exfalso. unfold P in K. apply (f_equal (@length name)) in K. rewrite !app_length in K. cbn in K. lia. }
  assert (RES: forall g, tree_ok g -> lookup g (r ++ ms) = Some Dir -> resolve cwd g (join repo (ms ++ [n])) = match lookup g P with Some nd => Found P nd | None => Missing P end).
  { intros g Wg Dg. rewrite resolve_walk by exact NJ. unfold place in PJ. unfold plain in PP. rewrite join_snoc in PJ, PP |- *. rewrite comps_app, (comps_name n NS) in PJ, PP |- *.
    rewrite (walk_last g Wg _ _ _ PP); [rewrite PJ; reflexivity|]. rewrite origin_app by exact NJ2. unfold place in PJ2. rewrite PJ2. exact Dg. }
  pose proof (RES g1 W1 D1) as R1. rewrite L1 in R1.
  set (g := put g1 P (File content)). assert (Wg: tree_ok g).
  { unfold g, P. rewrite app_assoc. apply ok_put; [exact W1|left; rewrite <- app_assoc; exact L1|exact D1]. }
  assert (Lg: lookup g P = Some (File content)) by (unfold g; rewrite lookup_put by exact NP; destruct (path_dec P P); [reflexivity|contradiction]).
  assert (Gg: forall p, lookup g p = lookup f p \/ p = P \/ (lookup f p = None /\ lookup g p = Some Dir /\ above p (r ++ ms))).
  { intros p. unfold g. rewrite lookup_put by exact NP. destruct (path_dec P p) as [<-|]; [auto|]. destruct (M2 p) as [K|K]; auto. }
  assert (Dg: lookup g (r ++ ms) = Some Dir).
  { unfold g. rewrite lookup_put by exact NP. destruct (path_dec P (r ++ ms)) as [K|]; [|exact D1]. exfalso. unfold P in K. rewrite app_assoc in K. symmetry in K. exact (app_neq_snoc _ _ K). }
  assert (X: exists h, delete_file cwd (fun _ => 0) repo g (join repo (ms ++ [n])) = Ok (0, h)).
  { unfold delete_file, delete_dir_recursive_bottom_up, sys_remove, sys_unlink. cbn [Z.eqb negb]. rewrite (RES g Wg Dg).
    rewrite Lg. cbn [Z.eqb negb E_ISDIR]. destruct (rev repo) as [|c rr] eqn:RR; [apply (f_equal (@rev Z)) in RR; rewrite rev_involutive in RR; contradiction|].
    assert (c <> 47) as Nc. { apply (f_equal (@rev Z)) in RR. rewrite rev_involutive in RR. cbn in RR. rewrite RR, last_last in NL. exact NL. }
    destruct (Z.eqb_spec c 47); [contradiction|]. rewrite join_snoc, parents_snoc by exact NS.
    destruct (delete_dirs_success cwd repo NE PR ms 1 (del g P) O1) as (h & ->); [| |exists h; reflexivity].
    - apply ok_del; [exact NP|exact Wg|]. intros q (t & Nt & ->). destruct (lookup g (P ++ t)) eqn:Q; [|reflexivity]. exfalso. assert (lookup g P = Some Dir) as K; [apply (ok_prefix g P t Wg); [congruence|exact Nt]|congruence].
    - rewrite lookup_del by exact NP. fold r. destruct (path_dec P (r ++ ms)) as [K|]; [|exact Dg]. exfalso. unfold P in K. rewrite app_assoc in K. symmetry in K. exact (app_neq_snoc _ _ K). }
  destruct X as (h & Eh). exists g, h. split; [unfold write_file; rewrite E1; cbn [bind Z.eqb negb]; rewrite R1; reflexivity|]. split; [exact Lg|]. split.
  { intros p. destruct (Gg p) as [K|[K|(K1 & K2 & t & K3)]]; auto. right. right. split; [exact K1|]. split; [exact K2|]. exists (t ++ [n]). unfold P. rewrite app_assoc, K3, <- app_assoc. reflexivity. }
  split; [exact Eh|]. destruct (C86_delete cwd (fun _ => 0) repo (ms ++ [n]) g 0 h Wg NE NL PR NN O Eh) as (H1 & H2 & Wh & H4). fold r in H1, H2, H4. fold P in H1, H2, H4.
  destruct (H1 eq_refl) as (_ & LP). specialize (H4 eq_refl (fun _ => eq_refl)).
  (* directories that were there *)
  assert (A: forall k p, strictly_above r p -> strictly_above p P -> (length P - length p <= k)%nat -> lookup f p <> None -> lookup h p <> None).
  { induction k as [|k IH]; intros p Sr Sp Hk Lp.
    - exfalso. destruct Sp as (t & Nt & Et). rewrite Et, app_length in Hk. destruct t; [contradiction|]. cbn in Hk. lia.
    - destruct (NEmpty p Sr Sp Lp) as (q & (t & Nt & ->) & Lq).
      assert (lookup h (p ++ t) <> None) as Lh.
      { assert (lookup g (p ++ t) <> None) as Lg2 by (destruct (Gg (p ++ t)) as [->|[->|(_ & -> & _)]]; [exact Lq|rewrite Lg; discriminate|discriminate]).
        destruct (H2 (p ++ t)) as [->|(_ & [K|(_ & K1 & K2)])]; [exact Lg2|rewrite K in Lq; contradiction|]. apply (IH (p ++ t) K1 K2); [|exact Lq]. rewrite app_length. destruct t; [contradiction|]. cbn. lia. }
      rewrite (ok_prefix h p t Wh Lh Nt). discriminate. }
  (* directories that were not *)
  assert (B: forall k p, strictly_above r p -> strictly_above p P -> (length P - length p <= k)%nat -> lookup f p = None -> lookup h p = None).
  { induction k as [|k IH]; intros p Sr Sp Hk Lp.
    - exfalso. destruct Sp as (t & Nt & Et). rewrite Et, app_length in Hk. destruct t; [contradiction|]. cbn in Hk. lia.
    - destruct (lookup h p) eqn:Lh; [|reflexivity]. exfalso. destruct (H4 p Sr Sp ltac:(congruence)) as (q & (t & Nt & ->) & Lq).
      assert (lookup g (p ++ t) <> None) as Lg2 by (destruct (H2 (p ++ t)) as [K|(K & _)]; congruence).
      destruct (Gg (p ++ t)) as [K|[K|(K1 & K2 & K3)]].
      + assert (lookup f p = Some Dir) as J; [apply (ok_prefix f p t W); [congruence|exact Nt]|congruence].
      + rewrite K in Lq. contradiction.
      + apply Lq. apply (IH (p ++ t)); [| | |exact K1].
        * destruct Sr as (a & Na & ->). exists (a ++ t). split; [destruct a; [contradiction|discriminate]|rewrite app_assoc; reflexivity].
        * destruct K3 as (u & Hu). exists (u ++ [n]). split; [destruct u; discriminate|]. unfold P. rewrite (app_assoc r ms), Hu, <- app_assoc. reflexivity.
        * rewrite app_length. destruct t; [contradiction|]. cbn. lia. }
  intros p. destruct (path_dec p P) as [->|NPp]; [congruence|].
  assert (DEC: strictly_above r p /\ strictly_above p P \/ ~ (strictly_above r p /\ strictly_above p P)).
  { destruct (inside r p) eqn:I1; [|right; intros (K & _); apply inside_spec in K; congruence]. destruct (inside p P) eqn:I2; [left; rewrite <- !inside_spec; auto|right; intros (_ & K); apply inside_spec in K; congruence]. }
  destruct DEC as [(Sr & Sp)|ND].
  - destruct (lookup f p) as [[|co]|] eqn:Lp.
    + pose proof (A _ p Sr Sp (le_n _) ltac:(congruence)) as K. destruct (H2 p) as [J|(J & _)]; [|contradiction]. rewrite J in *. destruct (Gg p) as [G|[G|(_ & G & _)]]; congruence.
    + exfalso. destruct Sp as (t & _ & Et). apply (NFile p co); [exists t; exact Et|exact Lp].
    + exact (B _ p Sr Sp (le_n _) Lp).
  - destruct (H2 p) as [->|(_ & [K|(_ & K)])]; [|contradiction|contradiction]. destruct (Gg p) as [K|[K|(K1 & K2 & t & K3)]]; [exact K|contradiction|]. exfalso.
    destruct (prefix_compare p t r ms (eq_sym K3)) as [(u & Hu)|(a & Na & Ha)].
    + destruct u as [|y u]; [rewrite app_nil_r in Hu; subst p; congruence|]. assert (lookup f p = Some Dir) as J; [apply (ok_prefix f p (y :: u) W); [rewrite <- Hu, LR; discriminate|discriminate]|congruence].
    + apply ND. split; [exists a; auto|]. exists (t ++ [n]). split; [destruct t; discriminate|]. unfold P. rewrite (app_assoc r ms), K3, <- app_assoc. reflexivity.
Qed.
Print Assumptions C86_roundtrip.
(** ** RRDP: if the directories can't be made, or the file can't be opened, that is what's reported, and no file is written. *)
Theorem C86_write_failed : forall cwd fault opening path content f e g, mkdir_p cwd fault f path false = Ok (e, g) ->
  (e <> 0 -> write_file cwd fault opening f path content = Ok (e, g)) /\
  (e = 0 -> opening <> 0 -> write_file cwd fault opening f path content = Ok (opening, g)).
Proof.
  intros cwd fault opening path content f e g M. unfold write_file. rewrite M. cbn [bind]. split.
  - intros N. destruct (Z.eqb_spec e 0); [contradiction|reflexivity].
  - intros -> N. cbn [Z.eqb negb]. destruct (Z.eqb_spec opening 0); [contradiction|reflexivity].
Qed.
Print Assumptions C86_write_failed.
Example C86_example_failed : write_file [] (fun k => if Nat.eqb k 1 then -13 else 0) 0 [] [47; 97; 47; 98] [7] = Ok (-13, []).
Proof. reflexivity. Qed.
Example C86_example_roundtrip :
  let f := [([[114]], Dir); ([[114]; [97]], Dir); ([[114]; [97]; [122]], File [1])] in
  let path := join [47; 114] [[97]; [98]; [99]] in
  write_file [] (fun _ => 0) 0 f path [7] = Ok (0, ([[114]; [97]; [98]; [99]], File [7]) :: ([[114]; [97]; [98]], Dir) :: f) /\
  delete_file [] (fun _ => 0) [47; 114] (([[114]; [97]; [98]; [99]], File [7]) :: ([[114]; [97]; [98]], Dir) :: f) path = Ok (0, f).
Proof. vm_compute. auto. Qed.
