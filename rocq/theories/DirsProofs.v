(** Proofs about Dirs.v. *)
From Verif Require Import Base BaseLemmas Dirs DirsSpec.
Notation length := List.length.

Lemma find_del f p q : find_entry (del f p) q = if path_dec p q then None else find_entry f q.
Proof.
  unfold del. induction f as [|[r n] f IH]; cbn [filter find_entry fst]; [destruct (path_dec p q); reflexivity|].
  destruct (path_dec r p) as [->|N]; cbn [find_entry].
  - rewrite IH. destruct (path_dec p q); reflexivity.
  - destruct (path_dec r q) as [->|N2]; [destruct (path_dec p q) as [->|]; [contradiction|reflexivity]|exact IH].
Qed.
Lemma lookup_del f p q : p <> [] -> lookup (del f p) q = if path_dec p q then None else lookup f q.
Proof. intros H. destruct q as [|x q]; cbn [lookup]; [destruct (path_dec p []); [contradiction|reflexivity]|apply find_del]. Qed.
Lemma lookup_put f p n q : p <> [] -> lookup (put f p n) q = if path_dec p q then Some n else lookup f q.
Proof.
  intros H. unfold put. destruct q as [|x q]; cbn [lookup find_entry]; [destruct (path_dec p []); [contradiction|reflexivity]|].
  destruct (path_dec p (x :: q)) as [E|N]; [reflexivity|]. rewrite find_del. destruct (path_dec p (x :: q)); [contradiction|reflexivity].
Qed.
Lemma find_in f p n : find_entry f p = Some n -> In (p, n) f.
Proof. induction f as [|[q m] f IH]; cbn; [discriminate|]. destruct (path_dec q p) as [->|]; [intros E; injection E as <-; left; reflexivity|right; auto]. Qed.
Lemma in_find f p n : In (p, n) f -> find_entry f p <> None.
Proof. induction f as [|[q m] f IH]; cbn; [contradiction|]. destruct (path_dec q p) as [->|N]; [discriminate|]. intros [E|H]; [injection E as -> ->; contradiction|auto]. Qed.

Lemma inside_spec p q : inside p q = true <-> strictly_above p q.
Proof.
  unfold inside. rewrite andb_true_iff, Nat.ltb_lt. split.
  - intros (L & E). destruct (path_dec (firstn (length p) q) p) as [K|]; [|discriminate]. exists (skipn (length p) q). split.
    + intros C. assert (length (skipn (length p) q) = 0%nat) as D by (rewrite C; reflexivity). rewrite skipn_length in D. lia.
    + rewrite <- K at 1. rewrite firstn_skipn. reflexivity.
  - intros (r & N & ->). rewrite app_length. split; [destruct r; [contradiction|cbn; lia]|].
    rewrite firstn_app, firstn_all, Nat.sub_diag. cbn. rewrite app_nil_r. destruct (path_dec p p); [reflexivity|contradiction].
Qed.
Lemma busy_spec f p : busy f p = true <-> exists q, strictly_above p q /\ lookup f q <> None.
Proof.
  unfold busy. rewrite existsb_exists. split.
  - intros ([q n] & I & H). apply inside_spec in H. exists q. split; [exact H|]. destruct q as [|x q]; [discriminate|]. cbn. exact (in_find _ _ _ I).
  - intros (q & (r & N & ->) & L). destruct (p ++ r) as [|x q] eqn:E; [destruct p, r; cbn in E; congruence|]. cbn in L. destruct (find_entry f (x :: q)) as [n|] eqn:F; [|contradiction].
    exists (x :: q, n). split; [exact (find_in _ _ _ F)|]. apply inside_spec. exists r. split; [exact N|exact (eq_sym E)].
Qed.

(** ** Well-formed trees *)
Lemma ok_prefix f p r : tree_ok f -> lookup f (p ++ r) <> None -> r <> [] -> lookup f p = Some Dir.
Proof.
  intros W. induction r as [|x r IH] using rev_ind; [contradiction|]. intros L _. rewrite app_assoc in L. pose proof (W _ _ L) as D.
  destruct r as [|y r]; [rewrite app_nil_r in D; exact D|]. apply IH; [rewrite D; discriminate|discriminate].
Qed.
Lemma ok_put f p x n : tree_ok f -> lookup f (p ++ [x]) = None \/ n <> Dir /\ lookup f (p ++ [x]) <> Some Dir \/ n = Dir -> lookup f p = Some Dir -> tree_ok (put f (p ++ [x]) n).
Proof.
  intros W H D q y. assert (p ++ [x] <> []) as NE by (destruct p; discriminate). rewrite !lookup_put by exact NE. destruct (path_dec (p ++ [x]) (q ++ [y])) as [E|N].
  - intros _. apply app_inj_tail in E. destruct E as (<- & <-). destruct (path_dec (p ++ [x]) p) as [K|]; [|exact D].
    assert (length (p ++ [x]) = length p) by (rewrite K; reflexivity). rewrite app_length in *. cbn in *. lia.
  - intros L. pose proof (W _ _ L) as Q. destruct (path_dec (p ++ [x]) q) as [E|]; [|exact Q]. subst q.
    destruct H as [H|[H|H]]; [congruence|destruct H; congruence|subst n; reflexivity].
Qed.
Lemma ok_del f p : p <> [] -> tree_ok f -> (forall q, strictly_above p q -> lookup f q = None) -> tree_ok (del f p).
Proof.
  intros NE W B q y. rewrite !lookup_del by exact NE. destruct (path_dec p (q ++ [y])) as [E|N]; [contradiction|]. intros L. pose proof (W _ _ L) as D.
  destruct (path_dec p q) as [->|]; [|exact D]. exfalso. apply L, B. exists [y]. split; [discriminate|reflexivity].
Qed.

(** ** Resolution *)
Lemma is_dot_spec c : is_dot c = true <-> c = [46].
Proof. apply list_eqb_spec. apply Z.eqb_eq. Qed.
Lemma is_dotdot_spec c : is_dotdot c = true <-> c = [46; 46].
Proof. apply list_eqb_spec. apply Z.eqb_eq. Qed.
Lemma clean_cons c cs : clean (c :: cs) = if is_nil c || is_dot c then clean cs else c :: clean cs.
Proof.
  unfold clean. cbn [filter]. destruct c as [|x c]; [reflexivity|]. cbn [is_nil orb]. destruct (is_dot (x :: c)) eqn:E.
  - apply is_dot_spec in E. injection E as -> ->. reflexivity.
  - assert (match x :: c with [] => false | [46] => false | _ => true end = true) as ->; [|reflexivity].
    destruct c; [|destruct x as [|[p|p|]|]; try reflexivity; repeat (destruct p as [p|p|]; try reflexivity)].
    destruct (Z.eq_dec x 46) as [->|N]; [cbn in E; discriminate|]. destruct x as [|p|]; try reflexivity. repeat (destruct p as [p|p|]; try reflexivity). congruence.
Qed.
Lemma clean_app a b : clean (a ++ b) = clean a ++ clean b.
Proof. apply filter_app. Qed.
Lemma clean_nils cs : forallb is_nil cs = true -> clean cs = [].
Proof. induction cs as [|c cs IH]; [reflexivity|]. cbn [forallb]. intros H. apply andb_true_iff in H. destruct H as (A & B). rewrite clean_cons, A. cbn [orb]. exact (IH B). Qed.

Lemma walk_spec f : tree_ok f -> forall cs cur, ~ In [46; 46] cs ->
  match walk f cur cs with
  | Found p n => p = cur ++ clean cs /\ lookup f p = Some n
  | Missing p => p = cur ++ clean cs /\ lookup f p = None /\ (lookup f cur = Some Dir -> exists q x, p = q ++ [x] /\ lookup f q = Some Dir)
  | Failed e => True
  end.
Proof.
  intros W. induction cs as [|c cs IH]; intros cur ND; cbn [walk].
  - change (clean []) with (@nil name). rewrite app_nil_r. destruct (lookup f cur) as [n|] eqn:E; [auto|]. split; [reflexivity|]. split; [exact E|]. discriminate.
  - destruct (lookup f cur) as [[|co]|] eqn:E; [|exact I|].
    + rewrite clean_cons. destruct (is_nil c || is_dot c) eqn:T.
      { pose proof (IH cur ltac:(intros K; apply ND; right; exact K)) as H. destruct (walk f cur cs) as [p n|p|er] eqn:Ew; [exact H| |exact I]. rewrite E in H. exact H. }
      destruct (is_dotdot c) eqn:DD; [apply is_dotdot_spec in DD; subst c; exfalso; apply ND; left; reflexivity|].
      pose proof (IH (cur ++ [c]) ltac:(intros K; apply ND; right; exact K)) as H. rewrite <- app_assoc in H. cbn [app] in H.
      destruct (walk f (cur ++ [c]) cs) as [p n|p|er] eqn:Ew; [exact H| |exact I]. destruct H as (A & B & C). split; [exact A|]. split; [exact B|]. intros _.
      destruct (lookup f (cur ++ [c])) as [[|co]|] eqn:L; [auto| |].
      * exfalso. destruct cs as [|c' cs]; cbn [walk] in Ew; rewrite L in Ew; discriminate.
      * exists cur, c. split; [|exact E]. rewrite A. f_equal. f_equal.
        destruct cs as [|c' cs]; [reflexivity|]. cbn [walk] in Ew. rewrite L in Ew. destruct (forallb is_nil (c' :: cs)) eqn:F; [exact (clean_nils _ F)|discriminate].
    + destruct (forallb is_nil (c :: cs)) eqn:F; [|exact I]. rewrite (clean_nils _ F), app_nil_r. split; [reflexivity|]. split; [exact E|]. discriminate.
Qed.

Lemma walk_dir f : tree_ok f -> forall cs cur, ~ In [46; 46] cs -> lookup f (cur ++ clean cs) = Some Dir -> walk f cur cs = Found (cur ++ clean cs) Dir.
Proof.
  intros W. induction cs as [|c cs IH]; intros cur ND L; cbn [walk].
  - change (clean []) with (@nil name) in *. rewrite app_nil_r in *. rewrite L. reflexivity.
  - assert (lookup f cur = Some Dir) as ->.
    { destruct (clean (c :: cs)) as [|n l] eqn:Ec; [rewrite app_nil_r in L; exact L|]. apply (ok_prefix f cur (n :: l) W); [rewrite L; discriminate|discriminate]. }
    rewrite clean_cons in *. destruct (is_nil c || is_dot c); [apply IH; [intros K; apply ND; right; exact K|exact L]|].
    destruct (is_dotdot c) eqn:DD; [apply is_dotdot_spec in DD; subst c; exfalso; apply ND; left; reflexivity|].
    change (c :: clean cs) with ([c] ++ clean cs) in *. rewrite app_assoc in *. apply IH; [intros K; apply ND; right; exact K|exact L].
Qed.

Lemma walk_file f co : tree_ok f -> forall cs cur, ~ In [46; 46] cs -> lookup f (cur ++ clean cs) = Some (File co) ->
  walk f cur cs = Found (cur ++ clean cs) (File co) \/ walk f cur cs = Failed E_NOTDIR.
Proof.
  intros W. induction cs as [|c cs IH]; intros cur ND L; cbn [walk].
  - change (clean []) with (@nil name) in *. rewrite app_nil_r in *. rewrite L. left. reflexivity.
  - destruct (clean (c :: cs)) eqn:Ec; [rewrite app_nil_r in L; rewrite L; right; reflexivity|]. rewrite <- Ec in *.
    rewrite (ok_prefix f cur (clean (c :: cs)) W); [|rewrite L; discriminate|rewrite Ec; discriminate]. clear Ec.
    rewrite clean_cons in *. destruct (is_nil c || is_dot c); [apply IH; [intros K; apply ND; right; exact K|exact L]|].
    destruct (is_dotdot c) eqn:DD; [apply is_dotdot_spec in DD; subst c; exfalso; apply ND; left; reflexivity|].
    change (c :: clean cs) with ([c] ++ clean cs) in *. rewrite app_assoc in *. apply IH; [intros K; apply ND; right; exact K|exact L].
Qed.

(** The last piece, in a directory that exists. *)
Lemma walk_last f : tree_ok f -> forall cs cur c, ~ In [46; 46] (cs ++ [c]) -> lookup f (cur ++ clean cs) = Some Dir ->
  walk f cur (cs ++ [c]) = match lookup f (cur ++ clean (cs ++ [c])) with Some n => Found (cur ++ clean (cs ++ [c])) n | None => Missing (cur ++ clean (cs ++ [c])) end.
Proof.
  intros W. induction cs as [|d cs IH]; intros cur c ND L.
  - cbn [app] in *. cbn [walk]. change (clean []) with (@nil name) in L. rewrite app_nil_r in L. rewrite L. rewrite clean_cons. change (clean []) with (@nil name).
    destruct (is_nil c || is_dot c); [rewrite app_nil_r, L; reflexivity|].
    destruct (is_dotdot c) eqn:DD; [apply is_dotdot_spec in DD; subst c; exfalso; apply ND; left; reflexivity|]. reflexivity.
  - cbn [app walk]. assert (lookup f cur = Some Dir) as ->.
    { destruct (clean (d :: cs)) as [|n l] eqn:Ec; [rewrite app_nil_r in L; exact L|]. apply (ok_prefix f cur (n :: l) W); [rewrite L; discriminate|discriminate]. }
    cbn [app] in ND. rewrite clean_cons in L |- *. destruct (is_nil d || is_dot d); [apply IH; [intros K; apply ND; right; exact K|exact L]|].
    destruct (is_dotdot d) eqn:DD; [apply is_dotdot_spec in DD; subst d; exfalso; apply ND; left; reflexivity|].
    change (d :: clean cs) with ([d] ++ clean cs) in L. change (d :: clean (cs ++ [c])) with ([d] ++ clean (cs ++ [c])). rewrite app_assoc in L. rewrite !(app_assoc cur [d]). apply IH; [intros K; apply ND; right; exact K|exact L].
Qed.

(** ** Strings *)
Lemma comps_nonempty s : comps s <> [].
Proof. induction s as [|c s IH]; cbn; [discriminate|]. destruct (c =? 47); [discriminate|]. destruct (comps s); discriminate. Qed.
Lemma comps_app a b : comps (a ++ 47 :: b) = comps a ++ comps b.
Proof.
  induction a as [|c a IH]; [reflexivity|]. cbn [app comps]. destruct (c =? 47); [rewrite IH; reflexivity|]. rewrite IH.
  destruct (comps a) as [|x l] eqn:E; [destruct (comps_nonempty a E)|reflexivity].
Qed.
Lemma comps_name n : ~ In 47 n -> comps n = [n].
Proof. induction n as [|c n IH]; [reflexivity|]. intros H. cbn [comps]. destruct (Z.eqb_spec c 47) as [->|]; [exfalso; apply H; left; reflexivity|]. rewrite IH by (intros K; apply H; right; exact K). reflexivity. Qed.
Lemma comps_snoc a c : c <> 47 -> comps (a ++ [c]) = removelast (comps a) ++ [last (comps a) [] ++ [c]].
Proof.
  intros N. induction a as [|x a IH]; [cbn; destruct (Z.eqb_spec c 47); [contradiction|reflexivity]|]. cbn [app comps]. destruct (x =? 47).
  - rewrite IH. destruct (comps a) as [|y l] eqn:E; [destruct (comps_nonempty a E)|]. reflexivity.
  - rewrite IH. destruct (comps a) as [|y l] eqn:E; [destruct (comps_nonempty a E)|]. destruct l as [|z l]; reflexivity.
Qed.
Lemma comps_slash a : comps (a ++ [47]) = comps a ++ [[]].
Proof. exact (comps_app a []). Qed.
Lemma comps_last s : comps s = removelast (comps s) ++ [last (comps s) []].
Proof. apply app_removelast_last. apply comps_nonempty. Qed.
Lemma origin_app cwd a b : a <> [] -> origin cwd (a ++ b) = origin cwd a.
Proof. destruct a; [contradiction|reflexivity]. Qed.
Lemma place_split cwd s : place cwd s = place_dir cwd s ++ clean [last (comps s) []].
Proof. unfold place, place_dir. rewrite <- app_assoc, <- clean_app, <- comps_last. reflexivity. Qed.
Lemma resolve_walk cwd f s : s <> [] -> resolve cwd f s = walk f (origin cwd s) (comps s).
Proof.
  destruct s as [|c s]; [contradiction|]. intros _. unfold resolve, origin. destruct (Z.eqb_spec c 47) as [->|N]; [reflexivity|].
  assert (match c with 47 => [] | _ => cwd end = cwd) as ->; [|reflexivity]. destruct c as [|p|]; try reflexivity. repeat (destruct p as [p|p|]; try reflexivity). congruence.
Qed.
Lemma origin_dir cwd f s : lookup f cwd = Some Dir -> lookup f (origin cwd s) = Some Dir.
Proof. intros H. unfold origin. destruct s as [|z s]; [exact H|]. destruct z as [|p|]; try exact H. repeat (destruct p as [p|p|]; try exact H). reflexivity. Qed.

(** ** mkdir_p() *)
(** What [f] may become while directories are made at [ps]. *)
Definition grows (f g : fs) (ps : list name -> Prop) : Prop := forall p, lookup g p = lookup f p \/ (lookup f p = None /\ lookup g p = Some Dir /\ ps p).
Lemma grows_dir f g ps p : grows f g ps -> lookup f p = Some Dir -> lookup g p = Some Dir.
Proof. intros G H. destruct (G p) as [->|(K & _)]; congruence. Qed.

Lemma create_dir_spec cwd fault f s e g : tree_ok f -> lookup f cwd = Some Dir -> plain s -> fault <> E_EXIST -> create_dir cwd fault f s = (e, g) ->
  tree_ok g /\ grows f g (eq (place cwd s)) /\ (e = 0 -> lookup g (place cwd s) <> None).
Proof.
  intros W C P NF E. unfold create_dir, sys_mkdir in E. destruct (Z.eqb_spec fault 0) as [F|F]; cbn [negb] in E.
  2:{ destruct (Z.eqb_spec fault E_EXIST); [contradiction|]. injection E as <- <-. split; [exact W|]. split; [left; reflexivity|]. intros K. contradiction. }
  destruct s as [|c s]; [cbn in E; injection E as <- <-; split; [exact W|]; split; [left; reflexivity|discriminate]|].
  rewrite resolve_walk in E by discriminate. pose proof (walk_spec f W _ (origin cwd (c :: s)) P) as H.
  destruct (walk f (origin cwd (c :: s)) (comps (c :: s))) as [p n|p|er] eqn:Ew; cbn in E.
  - injection E as <- <-. destruct H as (-> & L). split; [exact W|]. split; [left; reflexivity|]. intros _. unfold place. rewrite L. discriminate.
  - injection E as <- <-. destruct H as (H1 & L & H3). destruct (H3 (origin_dir cwd f _ C)) as (q & x & Hp & D). fold (place cwd (c :: s)) in H1. split.
    + rewrite Hp in *. apply ok_put; auto.
    + assert (p <> []) as NE by (rewrite Hp; destruct q; discriminate). split.
      * intros r. rewrite lookup_put by exact NE. destruct (path_dec p r) as [<-|]; [right; auto|left; reflexivity].
      * intros _. rewrite lookup_put by exact NE. rewrite <- H1. destruct (path_dec p p); [discriminate|contradiction].
  - destruct (Z.eqb_spec er E_EXIST) as [K|K]; [|injection E as <- <-; split; [exact W|]; split; [left; reflexivity|]; intros ->].
    + exfalso. revert Ew. subst er. clear. generalize (origin cwd (c :: s)). generalize (comps (c :: s)). induction l as [|d l IH]; intros cur; cbn [walk].
      * destruct (lookup f cur); discriminate.
      * destruct (lookup f cur) as [[|]|]; [apply IH|discriminate|]. destruct (forallb is_nil (d :: l)); discriminate.
    + exfalso. revert Ew. clear. generalize (origin cwd (c :: s)). generalize (comps (c :: s)). induction l as [|d l IH]; intros cur; cbn [walk].
      * destruct (lookup f cur); discriminate.
      * destruct (lookup f cur) as [[|]|]; [apply IH|discriminate|]. destruct (forallb is_nil (d :: l)); discriminate.
Qed.

Lemma create_dirs_spec cwd fault : (forall k, fault k <> E_EXIST) -> forall l k f e g, tree_ok f -> lookup f cwd = Some Dir -> Forall plain l -> create_dirs cwd fault k l f = (e, g) ->
  tree_ok g /\ grows f g (fun p => exists s, In s l /\ p = place cwd s) /\ (e = 0 -> forall s, In s l -> lookup g (place cwd s) <> None).
Proof.
  intros NF. induction l as [|s l IH]; intros k f e g W C P E; cbn [create_dirs] in E.
  - injection E as <- <-. split; [exact W|]. split; [left; reflexivity|]. intros _ s [].
  - destruct (create_dir cwd (fault k) f s) as [e1 f1] eqn:E1. inversion P as [|? ? P1 P2]; subst.
    destruct (create_dir_spec _ _ _ _ _ _ W C P1 (NF k) E1) as (W1 & G1 & D1).
    destruct (Z.eqb_spec e1 0) as [->|N].
    + destruct (IH (S k) f1 e g W1 (grows_dir _ _ _ _ G1 C) P2 E) as (W2 & G2 & D2). split; [exact W2|]. split.
      * intros p. destruct (G2 p) as [->|(A & B & (x & I & ->))].
        -- destruct (G1 p) as [->|(A & B & D)]; [left; reflexivity|]. right. split; [exact A|]. split; [exact B|]. exists s. split; [left; reflexivity|symmetry; exact D].
        -- destruct (G1 (place cwd x)) as [K|(K1 & K2 & _)]; [|congruence]. right. split; [congruence|]. split; [exact B|]. exists x. split; [right; exact I|reflexivity].
      * intros E0 x [<-|I]; [|apply D2; auto]. intros K. destruct (G2 (place cwd s)) as [K2|(_ & K2 & _)]; [|congruence]. apply (D1 eq_refl). congruence.
    + injection E as <- <-. split; [exact W1|]. split.
      * intros p. destruct (G1 p) as [->|(A & B & D)]; [left; reflexivity|]. right. split; [exact A|]. split; [exact B|]. exists s. split; [left; reflexivity|symmetry; exact D].
      * intros K. contradiction.
Qed.

Lemma slashes_spec s : forall i j, In j (slashes i s) <-> exists a b, s = a ++ 47 :: b /\ j = (i + length a)%nat.
Proof.
  induction s as [|c s IH]; intros i j; cbn [slashes].
  - split; [contradiction|]. intros (a & b & E & _). destruct a; discriminate.
  - assert (In j (slashes (S i) s) <-> exists a b, c :: s = (c :: a) ++ 47 :: b /\ j = (i + length (c :: a))%nat) as H.
    { rewrite IH. split; intros (a & b & E & K); exists a, b; cbn in *; (split; [congruence|lia]). }
    destruct (Z.eqb_spec c 47) as [->|N].
    + cbn [In]. rewrite H. split.
      * intros [<-|(a & b & E & K)]; [exists [], s; split; [reflexivity|cbn; lia]|exists (47 :: a), b; auto].
      * intros (a & b & E & K). destruct a as [|x a]; [left; cbn in K; lia|]. right. cbn in E. injection E as <- E. exists a, b. cbn in *. split; [congruence|exact K].
    + rewrite H. split.
      * intros (a & b & E & K). exists (c :: a), b. auto.
      * intros (a & b & E & K). destruct a as [|x a]; [injection E as K1 _; contradiction|]. cbn in E. injection E as <- E. exists a, b. cbn in *. split; [congruence|exact K].
Qed.
Lemma ancestors_in s x : s <> [] -> In x (ancestors s) -> x = s \/ x <> [] /\ exists b, s = x ++ 47 :: b.
Proof.
  intros NE I. unfold ancestors in I. apply in_app_or in I. destruct I as [I|[<-|[]]]; [|left; reflexivity]. right.
  apply in_map_iff in I. destruct I as (i & <- & I). destruct s as [|c s]; [contradiction|]. cbn [tl] in I. apply slashes_spec in I. destruct I as (a & b & -> & ->).
  assert (firstn (1 + length a) (c :: a ++ 47 :: b) = c :: a) as ->; [|split; [discriminate|exists b; reflexivity]].
  cbn [plus firstn]. f_equal. rewrite firstn_app, firstn_all, Nat.sub_diag. cbn. apply app_nil_r.
Qed.
Lemma plain_prefix x b : plain (x ++ 47 :: b) -> plain x.
Proof. unfold plain. rewrite comps_app. intros H I. apply H, in_or_app. left. exact I. Qed.
Lemma ancestors_plain s : s <> [] -> plain s -> Forall plain (ancestors s).
Proof. intros NE P. apply Forall_forall. intros x I. destruct (ancestors_in s x NE I) as [->|(_ & b & ->)]; [exact P|]. exact (plain_prefix _ _ P). Qed.
Lemma place_prefix cwd x b : x <> [] -> above (place cwd x) (place cwd (x ++ 47 :: b)).
Proof. intros NE. exists (clean (comps b)). unfold place. rewrite origin_app by exact NE. rewrite comps_app, clean_app, app_assoc. reflexivity. Qed.
Lemma ancestors_above cwd s x : s <> [] -> In x (ancestors s) -> above (place cwd x) (place cwd s).
Proof. intros NE I. destruct (ancestors_in s x NE I) as [->|(N & b & ->)]; [exists []; rewrite app_nil_r; reflexivity|apply place_prefix; exact N]. Qed.

(** Nothing fails if there are no faults and no files in the way. *)
Lemma create_dirs_success cwd fault : (forall k, fault k = 0) -> forall t pre k f, tree_ok f -> lookup f cwd = Some Dir -> pre <> [] -> plain (pre ++ t) ->
  lookup f (place_dir cwd pre) = Some Dir ->
  (forall p c, above p (place cwd (pre ++ t)) -> lookup f p <> Some (File c)) ->
  exists g, create_dirs cwd fault k (map (fun i => firstn i (pre ++ t)) (slashes (length pre) t) ++ [pre ++ t]) f = (0, g).
Proof.
  intros NF. assert (NFE: forall k, fault k <> E_EXIST) by (intros k; rewrite NF; discriminate). assert (STEP: forall pre k f, tree_ok f -> lookup f cwd = Some Dir -> pre <> [] -> plain pre -> lookup f (place_dir cwd pre) = Some Dir ->
    exists g, create_dir cwd (fault k) f pre = (0, g)) .
  { intros pre k f W C NE P L. unfold create_dir, sys_mkdir. rewrite NF. cbn [Z.eqb negb]. rewrite resolve_walk by exact NE. unfold place_dir in L. unfold plain in P.
    rewrite (comps_last pre) in P |- *. rewrite (walk_last f W _ _ _ P L). destruct (lookup f (origin cwd pre ++ clean (removelast (comps pre) ++ [last (comps pre) []]))); eexists; reflexivity. }
  induction t as [|c t IH]; intros pre k f W C NE P L NFile; cbn [slashes].
  - rewrite app_nil_r in *. cbn [map app create_dirs]. destruct (STEP pre k f W C NE P L) as (g & ->). exists g. reflexivity.
  - assert (pre ++ c :: t = (pre ++ [c]) ++ t) as EQ by (rewrite <- app_assoc; reflexivity).
    destruct (Z.eqb_spec c 47) as [->|N].
    + cbn [map app create_dirs]. assert (firstn (length pre) (pre ++ 47 :: t) = pre) as -> by (rewrite firstn_app, firstn_all, Nat.sub_diag; cbn; apply app_nil_r).
      pose proof (plain_prefix _ _ P) as P1. destruct (STEP pre k f W C NE P1 L) as (f1 & E1). rewrite E1. cbn [Z.eqb].
      destruct (create_dir_spec _ _ _ _ _ _ W C P1 (NFE k) E1) as (W1 & G1 & D1).
      replace (S (length pre)) with (length (pre ++ [47])) by (rewrite app_length; cbn; lia). rewrite EQ.
      apply IH; [exact W1|exact (grows_dir _ _ _ _ G1 C)|destruct pre; discriminate|rewrite <- EQ; exact P| |].
      * unfold place_dir. rewrite origin_app by exact NE. rewrite comps_slash, removelast_app by discriminate. cbn [removelast]. rewrite app_nil_r. fold (place cwd pre).
        destruct (lookup f1 (place cwd pre)) as [[|co]|] eqn:Q; [reflexivity| |destruct (D1 eq_refl eq_refl)]. exfalso. destruct (G1 (place cwd pre)) as [K|(_ & K & _)]; [|congruence].
        apply (NFile (place cwd pre) co); [apply place_prefix; exact NE|congruence].
      * intros p co A K. rewrite <- EQ in A. destruct (G1 p) as [K1|(_ & K1 & _)]; [|congruence]. apply (NFile p co A). congruence.
    + replace (S (length pre)) with (length (pre ++ [c])) by (rewrite app_length; cbn; lia). rewrite EQ.
      apply IH; [exact W|exact C|destruct pre; discriminate|rewrite <- EQ; exact P| |intros p co A; rewrite <- EQ in A; exact (NFile p co A)].
      unfold place_dir. rewrite origin_app by exact NE. rewrite comps_snoc by exact N. rewrite removelast_app by discriminate. cbn [removelast]. rewrite app_nil_r. exact L.
Qed.

Lemma mkdir_p_success_base cwd fault f s : (forall k, fault k = 0) -> tree_ok f -> lookup f cwd = Some Dir -> s <> [] -> plain s ->
  (forall p c, above p (place cwd s) -> lookup f p <> Some (File c)) -> exists g, create_dirs cwd fault 1 (ancestors s) f = (0, g).
Proof.
  intros NF W C NE P H. destruct s as [|c s]; [contradiction|]. unfold ancestors. cbn [tl]. change (c :: s) with ([c] ++ s) in *. apply (create_dirs_success cwd fault NF s [c] 1 f); auto; [discriminate|].
  unfold place_dir. cbn [comps]. destruct (c =? 47); cbn [removelast]; change (clean [[]]) with (@nil name); change (clean []) with (@nil name); rewrite app_nil_r; apply origin_dir; exact C.
Qed.

(** What stat() says when there are no faults. *)
Lemma stat_dir cwd f s : tree_ok f -> plain s -> sys_stat cwd 0 f s = inl Dir -> lookup f (place cwd s) = Some Dir.
Proof.
  intros W P E. unfold sys_stat in E. cbn [Z.eqb negb] in E. destruct s as [|c s]; [discriminate|]. rewrite resolve_walk in E by discriminate.
  pose proof (walk_spec f W _ (origin cwd (c :: s)) P) as H. destruct (walk f (origin cwd (c :: s)) (comps (c :: s))); [|discriminate|discriminate]. injection E as ->. destruct H as (-> & H). exact H.
Qed.
Lemma stat_noent cwd f s co : tree_ok f -> s <> [] -> plain s -> sys_stat cwd 0 f s = inr E_NOENT -> lookup f (place cwd s) <> Some (File co).
Proof.
  intros W NE P E L. unfold sys_stat in E. cbn [Z.eqb negb] in E. rewrite resolve_walk in E by exact NE.
  destruct (walk_file f co W _ _ P L) as [K|K]; rewrite K in E; discriminate.
Qed.

(** ** delete_dir_recursive_bottom_up() *)
(** What [f] may become while directories are removed at [ps]. *)
Definition shrinks (f g : fs) (ps : list name -> Prop) : Prop := forall p, lookup g p = lookup f p \/ (lookup g p = None /\ lookup f p <> None /\ ps p).

Lemma rmdir_spec cwd fault f s e g : tree_ok f -> s <> [] -> plain s -> sys_rmdir cwd fault f s = (e, g) ->
  (e = 0 /\ fault = 0 /\ place cwd s <> [] /\ lookup f (place cwd s) = Some Dir /\ (forall q, strictly_above (place cwd s) q -> lookup f q = None) /\ g = del f (place cwd s)) \/
  (e <> 0 /\ g = f /\ (fault = 0 -> e = E_NOTEMPTY -> lookup f (place cwd s) = Some Dir /\ exists q, strictly_above (place cwd s) q /\ lookup f q <> None) /\ (fault = 0 -> e <> E_EXIST)).
Proof.
  intros W NE P E. unfold sys_rmdir in E. destruct (Z.eqb_spec fault 0) as [F|F]; cbn [negb] in E; [|injection E as <- <-; right; split; [exact F|]; split; [reflexivity|]; split; intros; contradiction].
  rewrite resolve_walk in E by exact NE. pose proof (walk_spec f W _ (origin cwd s) P) as H. fold (place cwd s) in H. destruct (walk f (origin cwd s) (comps s)) as [p n|p|er] eqn:Ew.
  - destruct H as (-> & L). destruct n; [|injection E as <- <-; right; split; [discriminate|]; split; [reflexivity|]; split; discriminate].
    destruct (place cwd s) as [|x q] eqn:Pl; [injection E as <- <-; right; split; [discriminate|]; split; [reflexivity|]; split; discriminate|]. rewrite <- Pl in *.
    destruct (busy f (place cwd s)) eqn:B; injection E as <- <-.
    + right. split; [discriminate|]. split; [reflexivity|]. split; [|discriminate]. intros _ _. split; [exact L|]. apply busy_spec in B. exact B.
    + left. split; [reflexivity|]. split; [exact F|]. split; [rewrite Pl; discriminate|]. split; [exact L|]. split; [|reflexivity].
      intros r A. destruct (lookup f r) eqn:Q; [|reflexivity]. exfalso. assert (busy f (place cwd s) = true) as K; [|congruence]. apply busy_spec. exists r. split; [exact A|congruence].
  - injection E as <- <-. right. split; [discriminate|]. split; [reflexivity|]. split; discriminate.
  - injection E as <- <-. right. assert (er = E_NOENT \/ er = E_NOTDIR) as K.
    { revert Ew. clear. generalize (origin cwd s). generalize (comps s). induction l as [|d l IH]; intros cur; cbn [walk].
      - destruct (lookup f cur); discriminate.
      - destruct (lookup f cur) as [[|]|]; [apply IH|intros E; injection E as <-; auto|]. destruct (forallb is_nil (d :: l)); [discriminate|]. intros E; injection E as <-; auto. }
    split; [destruct K; subst er; discriminate|]. split; [reflexivity|]. split; [intros _ K2|intros _ K2]; destruct K; subst er; discriminate.
Qed.

Lemma join_snoc base ns n : join base (ns ++ [n]) = join base ns ++ 47 :: n.
Proof. unfold join. rewrite map_app, concat_app. cbn [map concat]. rewrite app_nil_r, app_assoc. reflexivity. Qed.
Lemma slashes_app a : forall i b, slashes i (a ++ b) = slashes i a ++ slashes (i + length a) b.
Proof.
  induction a as [|c a IH]; intros i b; cbn [app slashes length]; [rewrite Nat.add_0_r; reflexivity|]. rewrite IH. replace (S i + length a)%nat with (i + S (length a))%nat by lia. destruct (c =? 47); reflexivity.
Qed.
Lemma slashes_name n : ~ In 47 n -> forall i, slashes i n = [].
Proof. induction n as [|c n IH]; intros H i; [reflexivity|]. cbn [slashes]. destruct (Z.eqb_spec c 47) as [->|]; [exfalso; apply H; left; reflexivity|]. apply IH. intros K. apply H. right. exact K. Qed.
Lemma parents_snoc s n : ~ In 47 n -> parents (s ++ 47 :: n) = s :: parents s.
Proof.
  intros H. unfold parents. rewrite slashes_app. cbn [slashes]. rewrite Z.eqb_refl, (slashes_name n H). rewrite rev_app_distr. cbn [rev app map plus]. f_equal.
  - rewrite firstn_app, firstn_all, Nat.sub_diag. cbn. apply app_nil_r.
  - apply map_ext_in. intros i I. apply in_rev in I. apply slashes_spec in I. destruct I as (a & b & -> & ->). cbn [plus]. rewrite <- !app_assoc. rewrite !firstn_app, Nat.sub_diag. reflexivity.
Qed.
Lemma clean_ordinary n : ordinary n -> clean [n] = [n].
Proof. intros (A & B & _). rewrite clean_cons. destruct n as [|x n]; [contradiction|]. cbn [is_nil orb]. destruct (is_dot (x :: n)) eqn:E; [apply is_dot_spec in E; contradiction|reflexivity]. Qed.
Lemma place_join cwd base ns : base <> [] -> Forall ordinary ns -> place cwd (join base ns) = place cwd base ++ ns.
Proof.
  intros NE. induction ns as [|n ns IH] using rev_ind; intros O; [unfold join; cbn; rewrite !app_nil_r; reflexivity|]. apply Forall_app in O. destruct O as (O1 & O2). inversion O2 as [|? ? O3 _]; subst. specialize (IH O1).
  rewrite join_snoc. unfold place in *. assert (join base ns <> []) as NE2 by (unfold join; destruct base; [contradiction|discriminate]).
  rewrite origin_app by exact NE2. rewrite comps_app, clean_app. destruct O3 as (A & B & C & D). rewrite (comps_name n D), (clean_ordinary n (conj A (conj B (conj C D)))). rewrite (app_assoc (origin cwd (join base ns))). rewrite IH. rewrite <- !app_assoc. reflexivity.
Qed.
Lemma plain_join base ns : plain base -> Forall ordinary ns -> plain (join base ns).
Proof.
  intros P. induction ns as [|n ns IH] using rev_ind; intros O; [unfold join; cbn; rewrite app_nil_r; exact P|]. apply Forall_app in O. destruct O as (O1 & O2). inversion O2 as [|? ? (A & B & C & D) _]; subst.
  rewrite join_snoc. unfold plain. rewrite comps_app, (comps_name n D). intros I. apply in_app_or in I. destruct I as [I|[I|[]]]; [exact (IH O1 I)|contradiction].
Qed.
Lemma join_length base ns : length (join base ns) = length base -> Forall ordinary ns -> ns = [].
Proof. unfold join. intros E O. destruct ns as [|n ns]; [reflexivity|]. exfalso. rewrite app_length in E. cbn in E. lia. Qed.
Lemma app_neq_snoc {A} (l : list A) x : l <> l ++ [x].
Proof. intros E. assert (length l = length (l ++ [x])) as H by (rewrite <- E; reflexivity). rewrite app_length in H. cbn in H. lia. Qed.

(** The loop, from the directory [base/ms]. *)
Lemma delete_dirs_spec cwd fault base : base <> [] -> plain base -> forall ms k f e g, Forall ordinary ms -> tree_ok f ->
  delete_dirs cwd fault (length base) k (join base ms :: parents (join base ms)) f = (e, g) ->
  tree_ok g /\ shrinks f g (fun p => lookup f p = Some Dir /\ exists a b, ms = a ++ b /\ a <> [] /\ p = place cwd base ++ a) /\
  ((forall k, fault k = 0) -> e = 0 -> forall a b, ms = a ++ b -> a <> [] -> lookup g (place cwd base ++ a) <> None -> exists q, strictly_above (place cwd base ++ a) q /\ lookup g q <> None).
Proof.
  intros NE PB. induction ms as [|n ms IH] using rev_ind; intros k f e g O W E.
  - cbn [delete_dirs] in E. unfold join in E. cbn [map concat] in E. rewrite app_nil_r, Nat.eqb_refl in E. injection E as <- <-. split; [exact W|]. split; [left; reflexivity|].
    intros _ _ a b K N. destruct a; [contradiction|discriminate].
  - cbn [delete_dirs] in E. destruct (Nat.eqb_spec (length (join base (ms ++ [n]))) (length base)) as [K|K]; [apply join_length in K; [destruct ms; discriminate|exact O]|].
    assert (Forall ordinary ms /\ ordinary n) as (O1 & O2) by (apply Forall_app in O; destruct O as (O1 & O2); inversion O2; auto).
    assert (~ In 47 n) as NS by (destruct O2 as (_ & _ & _ & D); exact D).
    destruct (sys_rmdir cwd (fault k) f (join base (ms ++ [n]))) as [e1 f1] eqn:E1.
    assert (join base (ms ++ [n]) <> []) as NE2 by (unfold join; destruct base; [contradiction|discriminate]).
    destruct (rmdir_spec _ _ _ _ _ _ W NE2 (plain_join base _ PB O) E1) as [(-> & F0 & NP & LD & EM & ->)|(N0 & -> & BZ & NX)].
    + cbn [Z.eqb] in E. rewrite join_snoc, parents_snoc in E by exact NS. rewrite <- join_snoc in E. rewrite place_join in * by auto.
      set (P := place cwd base ++ ms ++ [n]) in *. assert (tree_ok (del f P)) as W1 by (apply ok_del; auto).
      destruct (IH (S k) _ e g O1 W1 E) as (W2 & G2 & C2). split; [exact W2|]. split.
      * intros p. destruct (G2 p) as [->|(A1 & A2 & A3 & a & b & -> & Na & ->)].
        -- rewrite lookup_del by exact NP. destruct (path_dec P p) as [<-|]; [|left; reflexivity]. right. split; [reflexivity|]. split; [rewrite LD; discriminate|]. split; [exact LD|]. exists (ms ++ [n]), []. rewrite app_nil_r. split; [reflexivity|]. split; [destruct ms; discriminate|reflexivity].
        -- right. split; [exact A1|]. rewrite lookup_del in A2, A3 by exact NP. destruct (path_dec P (place cwd base ++ a)); [contradiction|]. split; [exact A2|]. split; [exact A3|]. exists a, (b ++ [n]). rewrite app_assoc. auto.
      * intros FZ -> a b Eq Na L. destruct b as [|y b] using rev_ind.
        -- rewrite app_nil_r in Eq. subst a. exfalso. apply L. destruct (G2 P) as [H|(H & _)]; [|exact H]. unfold P in *. rewrite H, lookup_del by exact NP. destruct (path_dec (place cwd base ++ ms ++ [n]) (place cwd base ++ ms ++ [n])); [reflexivity|contradiction].
        -- rewrite app_assoc in Eq. apply app_inj_tail in Eq. destruct Eq as (Eq & _). exact (C2 FZ eq_refl a b Eq Na L).
    + destruct (Z.eqb_spec e1 0); [contradiction|]. assert (g = f /\ (e = 0 -> e1 = E_NOTEMPTY \/ e1 = E_EXIST)) as (-> & Hst).
      { destruct (Z.eqb_spec e1 E_NOTEMPTY) as [J|J], (Z.eqb_spec e1 E_EXIST) as [J2|J2]; cbn [orb] in E; injection E as <- <-; auto; split; auto; intros; contradiction. }
      split; [exact W|]. split; [left; reflexivity|]. intros FZ E0 a b Eq Na L. rewrite place_join in BZ by auto. destruct (Hst E0) as [J|J]; [|exfalso; exact (NX (FZ k) J)].
      destruct (BZ (FZ k) J) as (LD & q & (r & Nr & ->) & LQ). exists ((place cwd base ++ ms ++ [n]) ++ r). split; [|exact LQ]. exists (b ++ r). rewrite Eq. split; [destruct b; [exact Nr|discriminate]|]. rewrite <- !app_assoc. reflexivity.
Qed.
