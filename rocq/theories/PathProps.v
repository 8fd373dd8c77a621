(** C27-C30: where URIs are stored. *)
From Coq Require Import String.
From Verif Require Import Base BaseLemmas CString CLib PathBuilder PathSpec PathProofs PathProofs2 PathProofs3 PathProofs4.
Notation length := List.length.

Definition printable (s : list Z) : Prop := Forall (fun c => 32 <= c <= 126) s.
Lemma printable_nul s : printable s -> ~ In 0 s.
Proof. unfold printable. rewrite Forall_forall. intros H I. apply H in I. lia. Qed.
Lemma printable_app a b : printable (a ++ b) <-> printable a /\ printable b.
Proof. apply Forall_app. Qed.
Lemma str2global_iff g r : str2global g = Ok r <-> r = g /\ printable g.
Proof.
  unfold str2global, printable. destruct (forallb validate_url_character g) eqn:E.
  - rewrite forallb_forall in E. split.
    + intros H. inversion H; subst. split; auto. apply Forall_forall. intros c I. apply E in I.
      unfold validate_url_character in I. lia.
    + intros [-> _]. reflexivity.
  - split; [discriminate|]. intros [_ H]. exfalso. rewrite Forall_forall in H.
    assert (X : forallb validate_url_character g = true); [|congruence].
    apply forallb_forall. intros c I. apply H in I. unfold validate_url_character. lia.
Qed.

(** ** Sizes. *)
Definition total (l : list (list Z)) : nat := fold_right (fun c n => S (length c + n)) 0%nat l.
Lemma total_app a b : total (a ++ b) = (total a + total b)%nat.
Proof. induction a as [|x a IH]; cbn; auto. fold (total (a ++ b)). fold (total a). rewrite IH. lia. Qed.
Lemma total_cons x l : total (x :: l) = S (length x + total l).
Proof. reflexivity. Qed.
Lemma ext_total B l : length (ext B l) = (length B + total l)%nat.
Proof.
  unfold ext. rewrite app_length. f_equal. induction l as [|x l IH]; cbn; auto. rewrite app_length. fold (total l).
  rewrite <- IH. reflexivity.
Qed.
Lemma split_total s l : split_at s l -> total l = S (length s).
Proof. induction 1 as [s N|a s l N S IH]; cbn; [lia|]. fold (total l). rewrite IH, app_length. cbn. lia. Qed.
Lemma walk_total d cs r : walk d cs r -> (total r <= total d + total cs)%nat.
Proof.
  induction 1 as [d|d c cs r C W IH|d x cs r W IH|d c cs r N1 N2 N3 W IH]; rewrite ?total_app, ?total_cons in *; cbn [total fold_right] in *; lia.
Qed.
Lemma names_total text dom path : names text dom path -> (total (dom ++ path) <= S (length text))%nat.
Proof.
  intros (_ & d & cs & S & _ & _ & -> & W). apply split_total in S. apply walk_total in W. rewrite total_app.
  rewrite total_cons in S. cbn [total fold_right Nat.add] in W. fold (total cs) in W. fold (total path) in W.
  destruct d as [|z d]; [change (total []) with 0%nat|rewrite total_cons; change (total []) with 0%nat]; cbn [length] in *; lia.
Qed.
Lemma join_total x l : length (join (x :: l)) = (length x + total l)%nat.
Proof. rewrite join_ext. apply ext_total. Qed.

(** Only absence of NUL is needed for the names of a URI to be the same text's. *)
Lemma names_fun text d p d' p' : names text d p -> names text d' p' -> d = d' /\ p = p'.
Proof.
  intros (_ & x & cs & S & _ & _ & -> & W) (_ & x' & cs' & S' & _ & _ & -> & W').
  pose proof (split_fun _ _ S _ S') as E. inversion E; subst. split; auto. eapply walk_fun; eauto.
Qed.
Lemma walk_plain d cs r : walk d cs r -> Forall plain d -> Forall (fun c => ~ In 47 c /\ ~ In 0 c) cs -> Forall plain r.
Proof.
  induction 1 as [d|d c cs r C W IH|d x cs r W IH|d c cs r N1 N2 N3 W IH]; intros F G; auto; inversion G; subst; auto.
  - apply Forall_app in F. apply IH; tauto.
  - apply IH; auto. apply Forall_app. split; auto. constructor; auto. repeat split; tauto.
Qed.
Lemma names_plain text dom path : names text dom path -> ~ In 0 text -> Forall plain (dom ++ path).
Proof.
  intros (_ & d & cs & S & N1 & N2 & -> & W) N0.
  assert (G : Forall (fun c => ~ In 47 c /\ ~ In 0 c) (d :: cs)).
  { pose proof (split_noslash _ _ S) as F. rewrite Forall_forall in *. intros c I. split; auto. intros I0. apply N0. eapply split_incl; eauto. }
  inversion G; subst. apply Forall_app. split.
  - destruct d; constructor; [|constructor]. repeat split; try tauto. discriminate.
  - eapply walk_plain; eauto.
Qed.

Lemma prefix8 (s p t : list Z) : length p = 8%nat -> s = p ++ t -> printable s -> printable t.
Proof. intros _ -> H. apply printable_app in H. tauto. Qed.
Lemma nul_app (p t : list Z) : ~ In 0 (p ++ t) -> ~ In 0 t.
Proof. intros H I. apply H, in_app_iff. auto. Qed.
Lemma prefix_dec (p s : list Z) : {t | s = p ++ t} + {forall t, s <> p ++ t}.
Proof.
  destruct (str_starts_with s p) eqn:E.
  - left. exists (skipn (length p) s). unfold str_starts_with in E. apply list_eqb_eq in E. rewrite <- E at 1. symmetry. apply firstn_skipn.
  - right. intros t Q. assert (str_starts_with s p = true) by (apply starts_iff; eauto). congruence.
Qed.

Section C27.
  Variables (J : Z) (repository : list Z) (tal : option (list Z)).
  Hypothesis rep0 : ~ In 0 repository.
  Hypothesis tal0 : ~ In 0 (opt tal).
  Definition root : list (list Z) := nonempty [repository; opt tal].
  Lemma base_root c t : base repository tal (c :: t) = root ++ [c :: t].
  Proof using. unfold base, root. change [repository; opt tal; c :: t] with ([repository; opt tal] ++ [c :: t]). apply nonempty_app. Qed.

  Definition size (notif : option (list Z)) (guri : list Z) : nat := (length (join root) + length guri + length (opt notif) + 6)%nat.

  Lemma base_len c t : (length (join (base repository tal (c :: t))) <= length (join root) + 1 + length (c :: t))%nat.
  Proof using.
    rewrite base_root. destruct root as [|x l]; [cbn; lia|]. rewrite join_app by discriminate. rewrite ext_total. cbn. lia.
  Qed.

  Definition mapped (r : res (list Z)) (t : uri_type) (notif : option (list Z)) (g : list Z) : Prop :=
    (exists comps, r = Ok (join (root ++ comps)) /\ place t notif g comps /\ Forall plain comps) \/
    (exists e, r = Err e /\ e <> ENOSPC /\ forall comps, ~ place t notif g comps) \/
    (r = Err ENOSPC /\ (4096 < size notif g)%nat).

  Lemma plain_schemes : plain (cstr "rsync") /\ plain (cstr "https") /\ plain (cstr "rrdp").
  Proof using. repeat split; try discriminate; cbn; intuition discriminate. Qed.
  Lemma root_none : nonempty [repository; opt tal; opt None] = root.
  Proof using. unfold root. change [repository; opt tal; opt None] with ([repository; opt tal] ++ [[]]). rewrite nonempty_app. cbn [nonempty filter]. rewrite app_nil_r. reflexivity. Qed.

  Lemma simple_mapped t scheme c0 w err notif g :
    scheme = c0 :: w -> length scheme = 5%nat -> ~ In 0 scheme -> plain scheme -> err <> ENOSPC -> ~ In 0 g ->
    (forall text dom path, names text dom path -> place t notif ((scheme ++ [58; 47; 47]) ++ text) (scheme :: dom ++ path)) ->
    (forall comps, place t notif g comps -> exists text dom path, g = (scheme ++ [58; 47; 47]) ++ text /\ names text dom path) ->
    mapped (map_simple J repository g tal (scheme ++ [58; 47; 47]) err) t notif g.
  Proof using rep0 tal0.
    intros ES LS S0 PS NE N0 P1 P2. destruct (prefix_dec (scheme ++ [58; 47; 47]) g) as [(text & ->)|NP].
    - destruct (map_simple_spec J repository tal rep0 tal0 scheme err text LS S0) as [(d & p & E & NM & PL)|[(E & NN)|(E & LL)]].
      { eapply nul_app; eauto. }
      + left. exists (scheme :: d ++ p). split; [|split; auto].
        rewrite E. rewrite ES at 1. rewrite base_root, <- app_assoc, <- ES. reflexivity.
      + right. left. exists EINVAL. split; [exact E|]. split; [discriminate|]. intros comps H. apply P2 in H.
        destruct H as (t' & d & p & E' & NM). apply app_inv_head in E'. subst. apply (NN d p NM).
      + right. right. split; [exact E|]. unfold size. rewrite !app_length, LS. cbn [length].
        pose proof (base_len c0 w) as BL. rewrite <- ES, LS in BL. lia.
    - unfold map_simple. destruct (init_cache_cases J repository tal rep0 tal0 None) as [(pb & E & R)|[E LL]].
      { cbn. auto. }
      + right. left. exists err. rewrite E. cbn [bind]. rewrite append_guri_wrong by exact NP. split; [reflexivity|]. split; [auto|].
        intros comps H. apply P2 in H. destruct H as (t' & d & p & E' & NM). apply (NP _ E').
      + right. right. rewrite E. split; [reflexivity|]. rewrite root_none in LL. unfold size. lia.
  Qed.

  Lemma caged_mapped notif g : ~ In 0 g -> ~ In 0 notif -> mapped (map_caged J repository g tal notif) UT_CAGED (Some notif) g.
  Proof using rep0 tal0.
    intros N0 Nn. destruct plain_schemes as (_ & _ & PR).
    pose proof (base_len 114 (cstr "rdp")) as BL. change (114 :: cstr "rdp") with RRDP in BL. change (length RRDP) with 4%nat in BL.
    pose proof (base_root 114 (cstr "rdp")) as BR. change (114 :: cstr "rdp") with RRDP in BR.
    assert (INIT : (exists pb, pb_init_cache J repository tal (Some (cstr "rrdp")) = Ok pb /\ repr pb (join (base repository tal RRDP))) \/
      (pb_init_cache J repository tal (Some (cstr "rrdp")) = Err ENOSPC /\ (4096 < length (join (base repository tal RRDP)) + 1)%nat)).
    { apply (init_cache_cases J repository tal rep0 tal0 (Some (cstr "rrdp"))). cbn. intuition discriminate. }
    assert (NER : join (base repository tal RRDP) <> []) by (apply base_join_ne; discriminate).
    destruct (prefix_dec HTTPS_PREFIX notif) as [(nt & ->)|NP].
    2:{ assert (NPL : forall comps, ~ place UT_CAGED (Some notif) g comps) by (intros comps H; inversion H; subst; eapply NP; reflexivity).
        unfold map_caged, get_rrdp_workspace. destruct INIT as [(pb & E & R)|[E LL]]; rewrite E; cbn [bind].
        - right. left. exists (EOTHER 1). rewrite append_guri_wrong by exact NP. cbn [bind]. split; [reflexivity|]. split; [discriminate|auto].
        - right. right. split; [reflexivity|]. unfold size. lia. }
    assert (Nnt : ~ In 0 nt) by (eapply nul_app; eauto).
    destruct g as [|c g'] eqn:EG.
    { destruct (map_caged_root J repository tal rep0 tal0 nt Nnt) as [(d & p & E & NM & PL)|[(E & NN)|(E & LL)]].
      - left. exists (RRDP :: d ++ p). split; [|split; [apply pl_root; auto|constructor; auto]].
        rewrite E, BR, <- app_assoc. reflexivity.
      - right. left. exists EINVAL. split; [exact E|]. split; [discriminate|]. intros comps H. inversion H; subst.
        match goal with N : names _ ?d ?p, E : HTTPS_PREFIX ++ _ = _ |- _ => apply app_inv_head in E; subst; apply (NN d p N)
                      | N : names _ ?d ?p |- _ => apply (NN d p N) end.
      - right. right. split; [exact E|]. unfold size. cbn [opt]. rewrite app_length. change (length HTTPS_PREFIX) with 8%nat. lia. }
    rewrite <- EG in *. assert (NEg : g <> []) by (rewrite EG; discriminate). clear EG c g'.
    destruct (prefix_dec RSYNC_PREFIX g) as [(gt & ->)|NP].
    - assert (Ngt : ~ In 0 gt) by (eapply nul_app; eauto).
      destruct (map_caged_spec J repository tal rep0 tal0 nt gt Nnt Ngt)
        as [(nd & np & d & p & E & NM & NM' & PL & PL')|[(E & NN)|[(E & LL)|(nd & np & NM & E & LL)]]].
      + left. exists (RRDP :: (nd ++ np) ++ d ++ p). split; [|split; [apply pl_caged; auto|constructor; auto; apply Forall_app; auto]].
        rewrite E, BR. rewrite <- (app_assoc root). reflexivity.
      + right. left. exists EINVAL. split; [exact E|]. split; [discriminate|]. intros comps H.
        inversion H; subst. match goal with A : names nt ?a ?b, B : names gt ?c ?e |- _ => destruct NN as [NN|NN]; [apply (NN a b A)|apply (NN c e B)] end.
      + right. right. split; [exact E|]. unfold size. cbn [opt]. rewrite !app_length. change (length HTTPS_PREFIX) with 8%nat. change (length RSYNC_PREFIX) with 8%nat.
        unfold blen in LL. lia.
      + right. right. split; [exact E|]. unfold size. cbn [opt]. rewrite !app_length. change (length HTTPS_PREFIX) with 8%nat. change (length RSYNC_PREFIX) with 8%nat.
        rewrite join_app in LL by (apply base_ne; discriminate). rewrite ext_total in LL. apply names_total in NM. lia.
    - assert (NPL : forall comps, ~ place UT_CAGED (Some (HTTPS_PREFIX ++ nt)) g comps) by (intros comps H; inversion H; subst; [congruence|]; eapply NP; reflexivity).
      unfold map_caged, get_rrdp_workspace. destruct INIT as [(pb & E & R)|[E LL]]; rewrite E; cbn [bind].
      + destruct (append_guri_skip J _ pb HTTPS_PREFIX nt (EOTHER 1) NER R eq_refl Nnt)
          as [(nd & np & p & E2 & NM & R2 & PL)|[(E2 & NN)|(E2 & LL)]]; rewrite E2; cbn [bind].
        * right. left. exists ENOTRSYNC. destruct g as [|c g]; [congruence|]. rewrite append_guri_wrong by exact NP. cbn [bind].
          split; [reflexivity|]. split; [discriminate|auto].
        * right. left. exists EINVAL. split; [reflexivity|]. split; [discriminate|auto].
        * right. right. split; [reflexivity|]. unfold size. cbn [opt]. rewrite !app_length. change (length HTTPS_PREFIX) with 8%nat. lia.
      + right. right. split; [reflexivity|]. unfold size. lia.
  Qed.

  Lemma local_mapped t notif g : ~ In 0 g -> ~ In 0 (opt notif) -> (t = UT_CAGED -> notif <> None) ->
    mapped (autocomplete_local J repository g t tal notif) t notif g.
  Proof using rep0 tal0.
    intros N0 Nn TN. destruct plain_schemes as (P1 & P2 & P3). destruct t; cbn [autocomplete_local].
    - apply (simple_mapped UT_RSYNC (cstr "rsync") 114 (cstr "sync")); auto; try discriminate.
      + cbn. intuition discriminate.
      + intros. apply (pl_rsync notif). auto.
      + intros comps H. inversion H; subst. eauto.
    - apply (simple_mapped UT_HTTPS (cstr "https") 104 (cstr "ttps")); auto; try discriminate.
      + cbn. intuition discriminate.
      + intros. apply (pl_https notif). auto.
      + intros comps H. inversion H; subst. eauto.
    - destruct notif as [n|]; [|destruct TN; auto]. apply caged_mapped; auto.
  Qed.
End C27.

Lemma place_fun t n g c c' : place t n g c -> place t n g c' -> c = c'.
Proof.
  intros P P'. inversion P; subst; inversion P'; subst;
      repeat match goal with
             | E : ?p ++ _ = ?p ++ _ |- _ => apply app_inv_head in E; subst
             | A : names ?t _ _, B : names ?t _ _ |- _ => destruct (names_fun _ _ _ _ _ A B); subst; clear A
             end; auto; discriminate.
Qed.

(** ** C27: accepted URIs are stored at or below <repository>/<tal>/<scheme>, in
    plain components. *)
Definition conf_ok (repository : list Z) (tal notif : option (list Z)) : Prop :=
  ~ In 0 repository /\ ~ In 0 (opt tal) /\ ~ In 0 (opt notif).

Lemma uri_create_inv J repository tal t notif guri u : uri_create J repository tal t notif guri = Ok u ->
  u_global u = guri /\ u_type u = t /\ printable guri /\ autocomplete_local J repository guri t tal notif = Ok (u_local u).
Proof.
  unfold uri_create. destruct (str2global guri) as [g| |] eqn:G; cbn [bind]; try discriminate.
  apply str2global_iff in G. destruct G as [-> P].
  destruct (autocomplete_local J repository guri t tal notif) as [l| |] eqn:A; cbn [bind]; try discriminate.
  intros H. inversion H; subst. auto.
Qed.

Theorem C27_contained J repository tal t notif guri u :
  conf_ok repository tal notif -> uri_create J repository tal t notif guri = Ok u ->
  u_global u = guri /\ printable guri /\
  exists comps, place t notif guri comps /\ Forall plain comps /\
    u_local u = join (nonempty [repository; opt tal] ++ comps).
Proof.
  intros (C1 & C2 & C3) H. apply uri_create_inv in H. destruct H as (EG & ET & P & A). split; auto. split; auto.
  assert (TN : t = UT_CAGED -> notif <> None) by (intros -> ->; discriminate).
  destruct (local_mapped J repository tal C1 C2 t notif guri (printable_nul _ P) C3 TN) as [(comps & E & PL & F)|[(e & E & _)|(E & _)]].
  - exists comps. rewrite E in A. inversion A as [X]. auto.
  - rewrite E in A. discriminate.
  - rewrite E in A. discriminate.
Qed.

(** Every URI that names a place is accepted, unless the path is too long. *)
Theorem C27_accepts J repository tal t notif guri comps :
  conf_ok repository tal notif -> printable guri -> place t notif guri comps ->
  (length (join (nonempty [repository; opt tal])) + length guri + length (opt notif) <= 4090)%nat ->
  exists u, uri_create J repository tal t notif guri = Ok u /\ u_global u = guri /\
    u_local u = join (nonempty [repository; opt tal] ++ comps).
Proof.
  intros (C1 & C2 & C3) P PL SZ. unfold uri_create.
  assert (G : str2global guri = Ok guri) by (apply str2global_iff; auto). rewrite G. cbn [bind].
  assert (TN : t = UT_CAGED -> notif <> None) by (intros -> ->; inversion PL).
  destruct (local_mapped J repository tal C1 C2 t notif guri (printable_nul _ P) C3 TN) as [(comps' & E & PL' & F)|[(e & E & _ & NP)|(E & LL)]].
  - rewrite E. cbn [bind]. eexists. split; [reflexivity|]. split; [reflexivity|]. cbn [u_local]. unfold root. repeat f_equal.
    eapply place_fun; eauto.
  - destruct (NP comps PL).
  - unfold size, root in LL. lia.
Qed.

(** No URI breaks the mapping, and one that names no place is refused. *)
Theorem C27_total J repository tal t notif guri :
  conf_ok repository tal notif -> (t = UT_CAGED -> notif <> None) ->
  (exists u, uri_create J repository tal t notif guri = Ok u) \/ (exists e, uri_create J repository tal t notif guri = Err e).
Proof.
  intros (C1 & C2 & C3) TN. unfold uri_create.
  destruct (str2global guri) as [g|e|] eqn:G; cbn [bind]; [|eauto|].
  - apply str2global_iff in G. destruct G as [-> P].
    destruct (local_mapped J repository tal C1 C2 t notif guri (printable_nul _ P) C3 TN) as [(comps & E & _)|[(e & E & _)|(E & _)]];
      rewrite E; cbn [bind]; eauto.
  - unfold str2global in G. destruct (forallb validate_url_character guri); discriminate.
Qed.
Theorem C27_refuses J repository tal t notif guri u : conf_ok repository tal notif ->
  (forall comps, ~ place t notif guri comps) -> uri_create J repository tal t notif guri <> Ok u.
Proof. intros C N H. apply C27_contained in H; auto. destruct H as (_ & _ & comps & P & _). apply (N comps P). Qed.

Definition ex_repo : list Z := cstr "/var/cache/fort".
Definition ex_tal : option (list Z) := Some (cstr "lacnic").
Lemma ex_conf n : ~ In 0 (opt n) -> conf_ok ex_repo ex_tal n.
Proof. intros N. repeat split; auto; cbn; intuition discriminate. Qed.
Definition s_u (r : res rpki_uri) : option (list Z) := match r with Ok u => Some (u_local u) | _ => None end.
Example C27_nonvacuous :
  s_u (uri_create 7 ex_repo ex_tal UT_RSYNC None (cstr "rsync://a.b/./c//d/../e.cer")) = Some (cstr "/var/cache/fort/lacnic/rsync/a.b/c/e.cer") /\
  s_u (uri_create 7 ex_repo ex_tal UT_CAGED (Some (cstr "https://n.m/x/notification.xml")) (cstr "rsync://a.b/c.roa"))
    = Some (cstr "/var/cache/fort/lacnic/rrdp/n.m/x/notification.xml/a.b/c.roa") /\
  s_u (uri_create 7 ex_repo ex_tal UT_HTTPS None (cstr "https://a.b/../../c")) = None.
Proof. vm_compute. auto. Qed.
(** A URI without domain or path is accepted, and stands for the directory of all
    URIs of its scheme. *)
Example C27_no_domain :
  s_u (uri_create 7 ex_repo ex_tal UT_RSYNC None (cstr "rsync:///")) = Some (cstr "/var/cache/fort/lacnic/rsync") /\
  s_u (uri_create 7 ex_repo ex_tal UT_RSYNC None (cstr "rsync:///a/b")) = s_u (uri_create 7 ex_repo ex_tal UT_RSYNC None (cstr "rsync://a/b")).
Proof. vm_compute. auto. Qed.

(** ** C28: different objects, different files. *)
Lemma plain_noslash l : Forall plain l -> Forall (fun c => ~ In 47 c) l.
Proof. apply Forall_impl. intros c ((_ & H & _) & _). exact H. Qed.

(** The local path determines the TAL and the components below it. *)
Theorem C28_places J repository tal tal' t t' notif notif' guri guri' u u' comps comps' :
  repository <> [] -> component tal -> component tal' ->
  conf_ok repository (Some tal) notif -> conf_ok repository (Some tal') notif' ->
  uri_create J repository (Some tal) t notif guri = Ok u -> uri_create J repository (Some tal') t' notif' guri' = Ok u' ->
  place t notif guri comps -> place t' notif' guri' comps' ->
  u_local u = u_local u' -> tal = tal' /\ comps = comps'.
Proof.
  intros NR CT CT' C C' H H' P P' E.
  assert (K : repository <> [] -> forall tal t notif guri u comps, component tal -> conf_ok repository (Some tal) notif -> uri_create J repository (Some tal) t notif guri = Ok u ->
     place t notif guri comps -> u_local u = ext repository (tal :: comps) /\ Forall (fun c => ~ In 47 c) (tal :: comps)).
  { clear. intros NR tal t notif guri u comps CT C H P. apply C27_contained in H; auto. destruct H as (_ & _ & comps' & P' & F & ->).
    assert (comps' = comps) as -> by (eapply place_fun; eauto).
    split; [|constructor; [apply CT|apply plain_noslash; auto]].
    destruct CT as (NE & _). destruct tal; [congruence|]. unfold nonempty. cbn [opt filter]. destruct repository as [|a b]; [congruence|].
    cbn [app]. apply join_ext. }
  destruct (K NR _ _ _ _ _ _ CT C H P) as [E1 F1]. destruct (K NR _ _ _ _ _ _ CT' C' H' P') as [E2 F2].
  rewrite E1, E2 in E. apply ext_inj in E; auto. inversion E; auto.
Qed.

(** Objects fetched directly: same file only if same TAL, scheme, domain and
    normalised path. *)
Definition scheme (t : uri_type) : list Z := match t with UT_HTTPS => cstr "https://" | _ => cstr "rsync://" end.
Lemma domain_one text dom path : names text dom path -> dom <> [] -> exists d, dom = [d].
Proof. intros (_ & d & cs & _ & _ & _ & -> & _) N. destruct d; [congruence|eauto]. Qed.
Theorem C28_direct J repository tal tal' t t' n n' text text' dom dom' path path' u u' :
  repository <> [] -> component tal -> component tal' ->
  conf_ok repository (Some tal) n -> conf_ok repository (Some tal') n' -> t <> UT_CAGED -> t' <> UT_CAGED ->
  uri_create J repository (Some tal) t n (scheme t ++ text) = Ok u ->
  uri_create J repository (Some tal') t' n' (scheme t' ++ text') = Ok u' ->
  names text dom path -> names text' dom' path' -> dom <> [] -> dom' <> [] ->
  u_local u = u_local u' -> tal = tal' /\ t = t' /\ dom = dom' /\ path = path'.
Proof.
  intros NR CT CT' C C' T T' H H' NM NM' D D' E.
  destruct (domain_one _ _ _ NM D) as (d & ->). destruct (domain_one _ _ _ NM' D') as (d' & ->).
  assert (P : place t n (scheme t ++ text) ((match t with UT_HTTPS => cstr "https" | _ => cstr "rsync" end) :: [d] ++ path)).
  { destruct t; [apply pl_rsync; auto|apply pl_https; auto|congruence]. }
  assert (P' : place t' n' (scheme t' ++ text') ((match t' with UT_HTTPS => cstr "https" | _ => cstr "rsync" end) :: [d'] ++ path')).
  { destruct t'; [apply pl_rsync; auto|apply pl_https; auto|congruence]. }
  destruct (C28_places J repository tal tal' t t' n n' _ _ u u' _ _ NR CT CT' C C' H H' P P' E) as [-> EC].
  split; auto. inversion EC. split; [destruct t, t'; try discriminate; try congruence|]. subst. auto.
Qed.
(** Objects of RRDP repositories never share a file with objects fetched
    directly, nor with those of another TAL; ... *)
Theorem C28_rrdp_apart J repository tal tal' t n n' guri guri' u u' :
  repository <> [] -> component tal -> component tal' ->
  conf_ok repository (Some tal) (Some n) -> conf_ok repository (Some tal') n' ->
  uri_create J repository (Some tal) UT_CAGED (Some n) guri = Ok u ->
  uri_create J repository (Some tal') t n' guri' = Ok u' ->
  u_local u = u_local u' -> tal = tal' /\ t = UT_CAGED.
Proof.
  intros NR CT CT' C C' H H' E.
  destruct (C27_contained _ _ _ _ _ _ _ C H) as (_ & _ & comps & P & _). destruct (C27_contained _ _ _ _ _ _ _ C' H') as (_ & _ & comps' & P' & _).
  destruct (C28_places J repository tal tal' UT_CAGED t (Some n) n' _ _ u u' _ _ NR CT CT' C C' H H' P P' E) as [-> EC].
  split; auto. subst comps'. inversion P; subst; inversion P'; subst; auto; discriminate.
Qed.
Lemma place_caged_inv n text comps : place UT_CAGED (Some n) (cstr "rsync://" ++ text) comps ->
  exists nt nd np dom path, n = cstr "https://" ++ nt /\ names nt nd np /\ names text dom path /\ comps = cstr "rrdp" :: (nd ++ np) ++ dom ++ path.
Proof.
  intros P. inversion P as [| | |nt nd np t d p NM NM' E1 E2 E3]; subst. exists nt, nd, np, d, p. auto.
Qed.
(** ... two objects of the same RRDP repository share one only if they have the
    same domain and path ... *)
Theorem C28_caged_partial J repository tal n text text' dom dom' path path' u u' :
  repository <> [] -> component tal -> conf_ok repository (Some tal) (Some n) ->
  uri_create J repository (Some tal) UT_CAGED (Some n) (cstr "rsync://" ++ text) = Ok u ->
  uri_create J repository (Some tal) UT_CAGED (Some n) (cstr "rsync://" ++ text') = Ok u' ->
  names text dom path -> names text' dom' path' -> dom <> [] -> dom' <> [] ->
  u_local u = u_local u' -> dom = dom' /\ path = path'.
Proof.
  intros NR CT C H H' NM NM' D D' E.
  destruct (domain_one _ _ _ NM D) as (d & ->). destruct (domain_one _ _ _ NM' D') as (d' & ->).
  destruct (C27_contained _ _ _ _ _ _ _ C H) as (_ & _ & comps & P & _). destruct (C27_contained _ _ _ _ _ _ _ C H') as (_ & _ & comps' & P' & _).
  destruct (C28_places J repository tal tal UT_CAGED UT_CAGED (Some n) (Some n) _ _ u u' _ _ NR CT CT C C H H' P P' E) as [_ EC].
  subst comps'. apply place_caged_inv in P. apply place_caged_inv in P'.
  destruct P as (nt & nd & np & d1 & p1 & En & Q1 & Q2 & Ec). destruct P' as (nt' & nd' & np' & d1' & p1' & En' & Q1' & Q2' & Ec').
  rewrite En in En'. apply app_inv_head in En'. subst nt'.
  destruct (names_fun _ _ _ _ _ Q1 Q1'); subst nd' np'.
  destruct (names_fun _ _ _ _ _ Q2 NM); subst d1 p1. destruct (names_fun _ _ _ _ _ Q2' NM'); subst d1' p1'.
  rewrite Ec in Ec'. inversion Ec' as [X]. apply app_inv_head in X. inversion X. auto.
Qed.
(** ... but one RRDP repository can overwrite the files of another one. *)
Theorem C28_cages_refuted : exists n n' g g' u u',
  uri_create 0 ex_repo ex_tal UT_CAGED (Some n) g = Ok u /\ uri_create 0 ex_repo ex_tal UT_CAGED (Some n') g' = Ok u' /\
  n <> n' /\ g <> g' /\ u_local u = u_local u'.
Proof.
  exists (cstr "https://victim.net/a"), (cstr "https://victim.net/a/evil.net"), (cstr "rsync://evil.net/b/c.cer"), (cstr "rsync://b/c.cer").
  do 2 eexists. split; [vm_compute; reflexivity|]. split; [vm_compute; reflexivity|]. repeat split; discriminate.
Qed.

(** ** C29: paths. *)
Theorem C29_exact J os : Forall op_ok os -> exists r, op_steps [] os r /\ bind (apply_ops J (pb_init J) os) pb_string = r.
Proof.
  intros F. destruct (ops_spec J os (pb_init J) [] (init_repr J) F) as [(s & pb & S & E & R)|(e & S & E)]; rewrite E; cbn [bind].
  - exists (Ok s). split; auto. apply string_spec. auto.
  - exists (Err e). auto.
Qed.
(** The specification determines the result, ... *)
Theorem C29_determined os r r' : op_steps [] os r -> op_steps [] os r' -> r = r'.
Proof. apply op_steps_fun. Qed.
(** ... for appends it is the components joined with '/', ... *)
Theorem C29_join J cs : Forall (fun c => c <> [] /\ ~ In 0 c) cs ->
  bind (apply_ops J (pb_init J) (map (fun c => OpAppend (Some c)) cs)) pb_string =
  if (length (join cs) <=? 4095)%nat then Ok (join cs) else Err ENOSPC.
Proof.
  intros F.
  assert (G : forall cs pb l, Forall (fun c => c <> [] /\ ~ In 0 c) cs -> repr pb (join l) -> Forall (fun c => c <> []) l ->
    bind (apply_ops J pb (map (fun c => OpAppend (Some c)) cs)) pb_string =
    if (length (join (l ++ cs)) <=? 4095)%nat then Ok (join (l ++ cs)) else Err ENOSPC).
  { clear. induction cs as [|c cs IH]; intros pb l F R NE.
    - cbn [map apply_ops bind]. rewrite app_nil_r, (string_spec _ _ R). apply repr_fits in R. unfold fits in R.
      destruct (Nat.leb_spec (length (join l)) 4095); [reflexivity|lia].
    - inversion F as [|? ? [NEc N0] F']; subst. cbn [map apply_ops apply_op].
      destruct (append_spec J pb _ c R N0) as [A1 A2].
      assert (EG : match c with [] => join l | _ :: _ => glue (join l) c end = join (l ++ [c])).
      { rewrite <- glue_join by auto. destruct c; [congruence|reflexivity]. }
      rewrite EG in A1, A2.
      replace (l ++ c :: cs) with ((l ++ [c]) ++ cs) by (rewrite <- app_assoc; reflexivity).
      destruct (fits_dec (join (l ++ [c]))) as [FI|FI].
      + destruct (A1 FI) as (pb' & E & R'). rewrite E. cbn [bind].
        apply IH; auto. apply Forall_app. auto.
      + rewrite (A2 FI). cbn [bind]. destruct (Nat.leb_spec (length (join ((l ++ [c]) ++ cs))) 4095) as [LE|]; [|reflexivity].
        exfalso. apply FI. unfold fits. rewrite join_app in LE by (destruct l; discriminate). rewrite ext_total in LE. lia. }
  apply (G cs (pb_init J) [] F (init_repr J)). constructor.
Qed.
(** ... and no path outgrows its memory. *)
Theorem C29_bounded J os pb : Forall op_ok os -> apply_ops J (pb_init J) os = Ok pb ->
  (pb_capacity pb <= 4096)%nat /\ exists s, pb_string pb = Ok s /\ pb_len pb = length s /\ (length s <= 4095)%nat.
Proof.
  intros F H. destruct (ops_spec J os (pb_init J) [] (init_repr J) F) as [(s & pb' & S & E & R)|(e & S & E)]; rewrite E in H; inversion H; subst.
  pose proof R as (LN & N0 & CO & _). apply cap_ok_le in CO. split; [lia|]. exists s. pose proof (repr_fits _ _ R) as FI. unfold fits in FI.
  split; [apply string_spec; auto|]. split; auto. lia.
Qed.
(** Popping undoes appending a component. *)
Theorem C29_pop_undoes s x s' : s <> [] -> x <> [] -> ~ In 47 x -> op_steps s [OpAppend (Some x); OpPop] (Ok s') -> s' = s.
Proof.
  intros NE NX N H. inversion H; subst. 
  match goal with A : op_step s _ (Ok _) |- _ => inversion A; subst; try congruence end.
  match goal with A : op_steps _ [OpPop] _ |- _ => inversion A; subst end.
  match goal with A : op_step _ OpPop _ |- _ => inversion A; subst end.
  match goal with A : op_steps _ [] _ |- _ => inversion A; subst end.
  match goal with A : popped _ _ |- _ => eapply popped_fun in A; [symmetry; exact A|] end. apply po_slash; auto.
Qed.
(** The text of a number determines it (names of temporary files). *)
Theorem C29_hex n m s : hex_text s n -> hex_text s m -> n = m.
Proof. apply hex_text_inj. Qed.
(** Mirroring. *)
Theorem C29_reverse_partial J cs pb : Forall component cs ->
  apply_ops J (pb_init J) (map (fun c => OpAppend (Some c)) cs) = Ok pb -> pb_string (pb_reverse pb) = Ok (join (rev cs)).
Proof.
  intros F H. assert (F' : Forall (fun c => c <> [] /\ ~ In 0 c) cs) by (eapply Forall_impl; [|exact F]; intros c (A & B & C); auto).
  pose proof (C29_join J cs F') as G. rewrite H in G. cbn [bind] in G.
  assert (O : Forall op_ok (map (fun c => OpAppend (Some c)) cs)).
  { apply Forall_forall. intros o I. apply in_map_iff in I. destruct I as (c & <- & I). rewrite Forall_forall in F'. apply F' in I. cbn. tauto. }
  destruct (ops_spec J _ (pb_init J) [] (init_repr J) O) as [(s & pb' & S & E & R)|(e & S & E)]; rewrite E in H; inversion H; subst.
  rewrite (string_spec _ _ R) in G. destruct (length (join cs) <=? 4095)%nat; [|discriminate]. inversion G; subst.
  apply string_spec. apply reverse_spec; auto. eapply Forall_impl; [|exact F]. intros c (A & B & _). split; auto.
Qed.
(** A path with an empty last component comes out wrong, namely unchanged. *)
Theorem C29_reverse_refuted : forall c, c = 97 \/ c = 98 ->
  bind (apply_ops 0 (pb_init 0) [OpAppend (Some [c; 47])]) (fun pb => pb_string (pb_reverse pb)) = Ok [c; 47].
Proof. intros c [-> | ->]; vm_compute; reflexivity. Qed.
Example C29_nonvacuous :
  bind (apply_ops 7 (pb_init 7) [OpAppend (Some (cstr "ab")); OpHex 43981; OpAppend None; OpAppend (Some (cstr "c/d")); OpPop]) pb_string = Ok (cstr "ab/ABCD/c") /\
  bind (apply_ops 7 (pb_init 7) [OpAppend (Some (cstr "ab")); OpAppend (Some (cstr "cd")); OpAppend (Some (cstr "ef"))]) (fun pb => pb_string (pb_reverse pb)) = Ok (cstr "ef/cd/ab") /\
  bind (apply_ops 7 (pb_init 7) [OpAppend (Some (repeat 65 4000)); OpAppend (Some (repeat 66 95))]) pb_string = Err ENOSPC.
Proof. vm_compute. auto. Qed.

(** ** C30: manifest entries. *)
Lemma mft_chara_iff c : is_valid_mft_file_chara c = true <-> mft_char c.
Proof. unfold is_valid_mft_file_chara, mft_char. lia. Qed.
Lemma mft_chars_iff dot s : forall i, mft_chars dot i s = true <-> (forall j c, nth_error s j = Some c -> (i + j)%nat <> dot -> mft_char c).
Proof.
  induction s as [|c s IH]; intros i; cbn [mft_chars].
  - split; auto. intros _ [|j] c; discriminate.
  - destruct (Nat.eqb_spec i dot) as [E|E]; cbn [negb andb].
    + rewrite IH. split.
      * intros H [|j] x Hx Hj; [lia|]. apply (H j x Hx). lia.
      * intros H j x Hx Hj. apply (H (S j) x Hx). lia.
    + destruct (is_valid_mft_file_chara c) eqn:V; cbn [negb].
      * rewrite IH. split.
        -- intros H [|j] x Hx Hj; [inversion Hx; subst; apply mft_chara_iff; auto|]. apply (H j x Hx). lia.
        -- intros H j x Hx Hj. apply (H (S j) x Hx). lia.
      * split; [discriminate|]. intros H. specialize (H 0%nat c eq_refl ltac:(lia)). apply mft_chara_iff in H. congruence.
Qed.
Lemma app_len_inj (a b x y : list Z) : length a = length b -> a ++ x = b ++ y -> a = b /\ x = y.
Proof.
  revert b. induction a as [|c a IH]; intros [|d b] L E; cbn in *; try discriminate; auto.
  inversion E; subst. destruct (IH b) as [-> ->]; auto.
Qed.
Theorem C30_name s : validate_mft_file s = Ok tt <-> mft_name s.
Proof.
  unfold validate_mft_file, mft_name. destruct (Nat.ltb_spec (length s) 5) as [L|L].
  { split; [discriminate|]. intros (stem & e & -> & NE & LE & _). exfalso. rewrite !app_length in L. destruct stem; [congruence|]. cbn in L. lia. }
  destruct (nth_error s (length s - 4)) as [c|] eqn:N.
  2:{ exfalso. apply nth_error_None in N. lia. }
  assert (SP : exists stem e, s = stem ++ [c] ++ e /\ length stem = (length s - 4)%nat /\ length e = 3%nat).
  { apply nth_error_split in N. destruct N as (l1 & l2 & E & E1). exists l1, l2. split; auto. split; auto. rewrite E, app_length in *. cbn in *. lia. }
  destruct SP as (stem & e & E & L1 & L2).
  assert (M : mft_chars (length s - 4) 0 s = true <-> Forall mft_char stem /\ Forall mft_char e).
  { rewrite mft_chars_iff, !Forall_forall. split.
    - intros H. split; intros x I; apply In_nth_error in I; destruct I as (j & I).
      + apply (H j x). { rewrite E, nth_error_app1; auto. apply nth_error_Some. congruence. }
        assert (j < length stem)%nat by (apply nth_error_Some; congruence). lia.
      + apply (H (length stem + 1 + j)%nat x); [|lia]. rewrite E, nth_error_app2 by lia.
        replace (length stem + 1 + j - length stem)%nat with (S j) by lia. exact I.
    - intros [H1 H2] j x Hx Hj. rewrite E in Hx. destruct (Nat.lt_ge_cases j (length stem)) as [A|A].
      + rewrite nth_error_app1 in Hx by auto. apply H1. eapply nth_error_In; eauto.
      + rewrite nth_error_app2 in Hx by auto. destruct (j - length stem)%nat as [|k] eqn:K; [lia|]. apply H2. eapply nth_error_In. exact Hx. }
  destruct (Z.eqb_spec c 46) as [->|NC]; cbn [negb].
  - destruct (mft_chars (length s - 4) 0 s) eqn:MC.
    + split; auto. intros _. exists stem, e. destruct M as [M _]. destruct (M eq_refl). repeat split; auto.
      intros ->. cbn in L1. lia.
    + split; [discriminate|]. intros (stem' & e' & E' & NE & LE & F1 & F2). exfalso.
      assert (X : stem' = stem /\ e' = e).
      { rewrite E in E'. assert (LS : length stem' = length stem).
        { assert (length (stem ++ [46] ++ e) = length (stem' ++ [46] ++ e')) by congruence. rewrite !app_length in H. cbn in H. lia. }
        destruct (app_len_inj stem stem' _ _ (eq_sym LS) E') as [-> E2]. inversion E2. auto. }
      destruct X; subst. assert (Bad : false = true) by (apply M; auto). discriminate.
  - split; [discriminate|]. intros (stem' & e' & E' & NE & LE & F1 & F2). exfalso.
    rewrite E in E'. assert (LS : length stem' = length stem).
    { assert (length (stem ++ [c] ++ e) = length (stem' ++ [46] ++ e')) by congruence. rewrite !app_length in H. cbn in H. lia. }
    destruct (app_len_inj stem stem' _ _ (eq_sym LS) E') as [-> E2]. inversion E2. congruence.
Qed.

(** Such a name is one plain component. *)
Theorem C30_plain s : mft_name s -> plain s.
Proof.
  intros (stem & e & -> & NE & LE & F1 & F2). rewrite Forall_forall in F1, F2.
  assert (NO : forall x, (x = 47 \/ x = 0) -> ~ In x (stem ++ [46] ++ e)).
  { intros x X I. apply in_app_iff in I. destruct I as [I|[I|I]]; [apply F1 in I|lia|apply F2 in I]; unfold mft_char in *; lia. }
  destruct stem as [|a stem]; [congruence|]. destruct e as [|b e]; [discriminate|].
  split; [split; [discriminate|split; apply NO; auto]|]. cbn [app]. split; intros E; inversion E.
  - destruct stem; discriminate.
  - destruct stem as [|x [|y stem]]; cbn in *; discriminate.
Qed.

Lemma strrchr_end_spec s : forall n, strrchr_end 47 s = Some n <-> exists a b, s = a ++ 47 :: b /\ ~ In 47 b /\ n = S (length a).
Proof.
  assert (NONE : forall s, strrchr_end 47 s = None <-> ~ In 47 s).
  { induction s0 as [|c s0 IH]; cbn; [tauto|]. destruct (strrchr_end 47 s0) eqn:E.
    - split; [discriminate|]. intros H. exfalso. destruct IH as [_ IH]. assert (Some n = None) by (apply IH; intros I; apply H; auto). discriminate.
    - destruct (Z.eqb_spec c 47); split; try discriminate.
      + intros H. destruct H. auto.
      + intros _ [H|H]; [congruence|]. destruct IH as [IH _]. apply IH; auto.
      + auto. }
  induction s as [|c s IH]; intros n; cbn [strrchr_end].
  - split; [discriminate|]. intros (a & b & E & _). destruct a; discriminate.
  - destruct (strrchr_end 47 s) as [m|] eqn:E.
    + split.
      * intros H. inversion H; subst. destruct (proj1 (IH m) eq_refl) as (a & b & -> & N & ->). exists (c :: a), b. auto.
      * intros (a & b & Q & N & ->). destruct a as [|x a]; cbn in Q; inversion Q; subst.
        -- exfalso. destruct (proj1 (IH m) eq_refl) as (a' & b' & -> & _). apply N. apply in_app_iff. right. left. auto.
        -- f_equal. assert (Some m = Some (S (length a))) by (apply IH; eauto). cbn. congruence.
    + apply NONE in E. destruct (Z.eqb_spec c 47) as [->|NC].
      * split.
        -- intros H. inversion H; subst. exists [], s. auto.
        -- intros (a & b & Q & N & ->). destruct a as [|x a]; cbn in Q; inversion Q; subst; auto. exfalso. apply E. apply in_app_iff. right. left. auto.
      * split; [discriminate|]. intros (a & b & Q & N & ->). destruct a as [|x a]; cbn in Q; inversion Q; subst; [congruence|].
        exfalso. apply E. apply in_app_iff. right. left. auto.
Qed.

Lemma dir_cut (a b : list Z) : firstn (S (length a)) (a ++ 47 :: b) = a ++ [47].
Proof.
  change (a ++ 47 :: b) with (a ++ [47] ++ b). rewrite app_assoc, firstn_app.
  replace (S (length a) - length (a ++ [47%Z]))%nat with 0%nat by (rewrite app_length; cbn [length]; lia). change (firstn 0 b) with (@nil Z). rewrite app_nil_r.
  apply firstn_all2. rewrite app_length; cbn [length]; lia.
Qed.
(** The URI of an entry: the manifest's, with the entry's name instead of the
    text after the last '/'. *)
Theorem C30_uri J repository tal notif mft ia5 u : uri_create_mft J repository tal notif mft ia5 = Ok u ->
  mft_name ia5 /\ exists dir m, u_global mft = dir ++ 47 :: m /\ ~ In 47 m /\ u_global u = dir ++ 47 :: ia5.
Proof.
  unfold uri_create_mft, ia5str2global. destruct (validate_mft_file ia5) as [[]| |] eqn:V; cbn [bind]; try discriminate.
  apply C30_name in V. destruct (strrchr_end 47 (u_global mft)) as [n|] eqn:S; cbn [bind]; [|discriminate].
  apply strrchr_end_spec in S. destruct S as (a & b & E & N & ->).
  rewrite E. remember (S (length a)) as k eqn:EK.
  destruct (autocomplete_local _ _ _ _ _ _) as [l| |]; cbn [bind]; try discriminate. intros H. inversion H; subst u. split; auto.
  exists a, b. split; auto. split; auto. cbn [u_global]. subst k.
  rewrite dir_cut, <- app_assoc. reflexivity.
Qed.

Lemma split_snoc a m : split_at a m -> forall b, ~ In 47 b -> split_at (a ++ 47 :: b) (m ++ [b]).
Proof.
  induction 1 as [s N|x s l N S IH]; intros b Nb.
  - cbn. constructor; auto. constructor; auto.
  - rewrite <- app_assoc. cbn. constructor; auto.
Qed.
Lemma walk_snoc cs : forall d m r, plain m -> walk d (cs ++ [m]) r -> exists p, r = p ++ [m] /\ walk d cs p.
Proof.
  induction cs as [|c cs IH]; intros d m r PM W; cbn [app] in W.
  - destruct PM as ((N & _) & N1 & N2). apply walk_down_inv in W; auto. inversion W; subst. exists d. split; auto. constructor.
  - inversion W; subst; match goal with H : walk _ (cs ++ [m]) r |- _ => apply IH in H; auto; destruct H as (p & -> & H); exists p; split; auto end.
    + apply w_stay; auto.
    + apply w_up; auto.
    + apply w_down; auto.
Qed.
Lemma walk_snoc' cs d m p : plain m -> walk d cs p -> walk d (cs ++ [m]) (p ++ [m]).
Proof.
  intros PM W. induction W as [d|d c cs r C W IH|d x cs r W IH|d c cs r N1 N2 N3 W IH]; cbn [app].
  - destruct PM as ((N & _) & N1 & N2). apply w_down; auto. constructor.
  - apply w_stay; auto.
  - apply w_up; auto.
  - apply w_down; auto.
Qed.
(** Sibling URIs. *)
Lemma names_sibling dir m x dom path : plain m -> plain x -> names (dir ++ 47 :: m) dom path ->
  exists p, path = p ++ [m] /\ names (dir ++ 47 :: x) dom (p ++ [x]).
Proof.
  intros PM PX (_ & d & cs & S & N1 & N2 & -> & W).
  destruct (split_exists dir) as (l & SL). destruct (cons_ne l (split_nonempty _ _ SL)) as (d' & cs' & ->).
  pose proof (split_snoc _ _ SL m ltac:(apply PM)) as S'. pose proof (split_fun _ _ S _ S') as E. cbn in E. inversion E; subst.
  apply walk_snoc in W; auto. destruct W as (p & -> & W). exists p. split; auto.
  split; [destruct dir; discriminate|]. exists d', (cs' ++ [x]). split; [apply (split_snoc _ _ SL x); apply PX|].
  repeat split; auto. apply walk_snoc'; auto.
Qed.

(** The file of an entry is in the directory of the manifest's file, if the
    manifest's own name is an ordinary one. *)
Theorem C30_directory J repository tal notif mt mft ia5 u rest m :
  conf_ok repository tal notif -> mt = (match notif with None => UT_RSYNC | Some _ => UT_CAGED end) ->
  uri_create J repository tal mt notif (cstr "rsync://" ++ rest ++ 47 :: m) = Ok mft -> plain m ->
  uri_create_mft J repository tal notif mft ia5 = Ok u ->
  exists D, u_local mft = join (D ++ [m]) /\ u_local u = join (D ++ [ia5]).
Proof.
  intros C EM H PM HU.
  pose proof (C30_uri _ _ _ _ _ _ _ HU) as (MN & dir & m' & E1 & Nm & E2). apply C30_plain in MN.
  destruct (C27_contained _ _ _ _ _ _ _ C H) as (EG & PR & comps & PL & F & EL).
  rewrite EG, app_assoc in E1.
  assert (X : dir = cstr "rsync://" ++ rest /\ m' = m).
  { clear - E1 Nm PM. destruct PM as ((_ & N & _) & _). revert E1. generalize (cstr "rsync://" ++ rest). intros a. revert dir. induction a as [|x a IH]; intros dir E.
    - destruct dir as [|y dir]; cbn in E; inversion E; subst; auto. destruct N. apply in_app_iff. right. left. auto.
    - destruct dir as [|y dir]; cbn in E; inversion E; subst.
      + destruct Nm. apply in_app_iff. right. left. auto.
      + destruct (IH dir) as [-> ->]; auto. }
  destruct X as [-> ->]. clear E1.
  (* the entry's mapping *)
  assert (A : autocomplete_local J repository ((cstr "rsync://" ++ rest) ++ 47 :: ia5) mt tal notif = Ok (u_local u)).
  { revert HU. unfold uri_create_mft. destruct (ia5str2global (u_global mft) ia5) as [g| |]; cbn [bind]; try discriminate.
    rewrite <- EM. destruct (autocomplete_local J repository g mt tal notif) as [l| |] eqn:AL; cbn [bind]; try discriminate.
    intros Q. inversion Q; subst. cbn [u_global u_local] in *. subst g. exact AL. }
  rewrite <- app_assoc in A, E2.
  destruct C as (C1 & C2 & C3).
  assert (NU : ~ In 0 (cstr "rsync://" ++ rest ++ 47 :: ia5)).
  { intros I. apply in_app_iff in I. destruct I as [I|I]; [cbn in I; intuition discriminate|].
    apply in_app_iff in I. destruct I as [I|[I|I]]; [|discriminate|destruct MN as ((_ & _ & N) & _); auto].
    apply (printable_nul _ PR). apply in_app_iff. right. apply in_app_iff. auto. }
  assert (TN : mt = UT_CAGED -> notif <> None) by (destruct notif; [discriminate|subst; discriminate]).
  assert (SIB : exists D0, comps = D0 ++ [m] /\ place mt notif (cstr "rsync://" ++ rest ++ 47 :: ia5) (D0 ++ [ia5])).
  { assert (SEQ : forall text, (cstr "rsync://" ++ text) = (cstr "rsync://" ++ rest ++ 47 :: m) -> text = rest ++ 47 :: m) by (intros text Q; apply app_inv_head in Q; auto).
    clear - PL MN PM SEQ.
    inversion PL as [n text dom path NM E1 E2 E3|n text dom path NM E1 E2 E3|nt nd np NM E1 E2 E3|nt nd np text dom path NM NM' E1 E2 E3].
    - try apply SEQ in E3. subst. destruct (names_sibling _ _ ia5 _ _ PM MN NM) as (q & -> & NS).
      exists (cstr "rsync" :: dom ++ q). split; [cbn; rewrite !app_assoc; reflexivity|].
      pose proof (pl_rsync notif _ _ _ NS) as PP. rewrite (app_assoc dom) in PP. exact PP.
    - try apply SEQ in E3. subst. destruct (names_sibling _ _ ia5 _ _ PM MN NM') as (q & -> & NS).
      exists (cstr "rrdp" :: (nd ++ np) ++ dom ++ q). split; [cbn; rewrite !app_assoc; reflexivity|].
      pose proof (pl_caged nt nd np _ _ _ NM NS) as PP. rewrite (app_assoc dom), (app_assoc (nd ++ np)) in PP. exact PP. }
  destruct SIB as (D0 & -> & PS).
  destruct (local_mapped J repository tal C1 C2 mt notif _ NU C3 TN) as [(comps' & E & PL' & F')|[(e & E & _)|(E & _)]].
  2:{ rewrite E in A. discriminate. }
  2:{ rewrite E in A. discriminate. }
  assert (comps' = D0 ++ [ia5]) as -> by (eapply place_fun; eauto).
  exists (nonempty [repository; opt tal] ++ D0). rewrite E in A. inversion A as [Q]. rewrite EL. unfold root. rewrite !app_assoc. auto.
Qed.
(** Every well-formed name in an accepted manifest is accepted, unless its path is
    too long. *)
Theorem C30_accepts J repository tal notif mt mft ia5 rest m :
  conf_ok repository tal notif -> mt = (match notif with None => UT_RSYNC | Some _ => UT_CAGED end) ->
  uri_create J repository tal mt notif (cstr "rsync://" ++ rest ++ 47 :: m) = Ok mft -> plain m -> mft_name ia5 ->
  (exists u, uri_create_mft J repository tal notif mft ia5 = Ok u) \/ uri_create_mft J repository tal notif mft ia5 = Err ENOSPC.
Proof.
  intros C EM H PM MN. pose proof (proj2 (C30_name ia5) MN) as V. pose proof (C30_plain _ MN) as PI.
  destruct (C27_contained _ _ _ _ _ _ _ C H) as (EG & PR & comps & PL & F & EL). destruct C as (C1 & C2 & C3).
  unfold uri_create_mft, ia5str2global. rewrite V, EG. cbn [bind].
  assert (SE : strrchr_end 47 (cstr "rsync://" ++ rest ++ 47 :: m) = Some (S (length (cstr "rsync://" ++ rest)))).
  { apply strrchr_end_spec. exists (cstr "rsync://" ++ rest), m. split; [rewrite app_assoc; reflexivity|]. split; auto. apply PM. }
  rewrite SE. cbn [bind]. rewrite <- EM.
  assert (FE : firstn (S (length (cstr "rsync://" ++ rest))) (cstr "rsync://" ++ rest ++ 47 :: m) ++ ia5 = cstr "rsync://" ++ rest ++ 47 :: ia5).
  { rewrite !app_assoc, dir_cut, <- app_assoc. reflexivity. }
  rewrite FE.
  assert (NU : ~ In 0 (cstr "rsync://" ++ rest ++ 47 :: ia5)).
  { intros I. apply in_app_iff in I. destruct I as [I|I]; [cbn in I; intuition discriminate|].
    apply in_app_iff in I. destruct I as [I|[I|I]]; [|discriminate|destruct PI as ((_ & _ & N) & _); auto].
    apply (printable_nul _ PR). apply in_app_iff. right. apply in_app_iff. auto. }
  assert (TN : mt = UT_CAGED -> notif <> None) by (destruct notif; [discriminate|subst; discriminate]).
  destruct (local_mapped J repository tal C1 C2 mt notif _ NU C3 TN) as [(comps' & E & PL' & F')|[(e & E & NE & NP)|(E & _)]]; rewrite E; cbn [bind]; eauto.
  exfalso.
  inversion PL as [n text dom path NM E1 E2 E3|n text dom path NM E1 E2 E3|nt nd np NM E1 E2 E3|nt nd np text dom path NM NM' E1 E2 E3]; try discriminate.
  - try apply app_inv_head in E3. subst text. destruct (names_sibling _ _ ia5 _ _ PM PI NM) as (q & _ & NS).
    eapply NP. rewrite <- E1. apply pl_rsync. exact NS.
  - try apply app_inv_head in E3. subst text. destruct (names_sibling _ _ ia5 _ _ PM PI NM') as (q & _ & NS).
    eapply NP. rewrite <- E1, <- E2. eapply pl_caged; eauto.
Qed.
Example C30_nonvacuous : exists mft u, uri_create 7 ex_repo ex_tal UT_RSYNC None (cstr "rsync://a.b/c/d.mft") = Ok mft /\
  uri_create_mft 7 ex_repo ex_tal None mft (cstr "e_f-1.roa") = Ok u /\ u_local u = cstr "/var/cache/fort/lacnic/rsync/a.b/c/e_f-1.roa" /\
  (forall u', uri_create_mft 7 ex_repo ex_tal None mft (cstr "../x.roa") <> Ok u').
Proof.
  do 2 eexists. split; [vm_compute; reflexivity|]. split; [vm_compute; reflexivity|]. split; [reflexivity|]. intros u'. vm_compute. discriminate.
Qed.
