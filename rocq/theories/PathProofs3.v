(** Proofs about the mapping of URIs to local paths. *)
From Coq Require Import String.
From Verif Require Import Base BaseLemmas CString CLib PathBuilder PathSpec PathProofs PathProofs2.
Notation length := List.length.

Lemma cons_ne {A} (l : list A) : l <> [] -> exists x t, l = x :: t.
Proof. destruct l; [congruence|eauto]. Qed.

Lemma list_eqb_refl (l : list Z) : list_eqb Z.eqb l l = true.
Proof. induction l as [|x l IH]; cbn; [reflexivity|]. rewrite Z.eqb_refl, IH. reflexivity. Qed.
Lemma list_eqb_eq (l l' : list Z) : list_eqb Z.eqb l l' = true -> l = l'.
Proof.
  revert l'. induction l as [|x l IH]; intros [|y l']; cbn; try discriminate; auto.
  intros H. apply andb_true_iff in H. destruct H as [H1 H2]. f_equal; [lia|auto].
Qed.
Lemma starts_iff s p : str_starts_with s p = true <-> exists t, s = p ++ t.
Proof.
  unfold str_starts_with. split.
  - intros H. apply list_eqb_eq in H. exists (skipn (length p) s). rewrite <- H at 1. symmetry. apply firstn_skipn.
  - intros (t & ->). rewrite firstn_app, firstn_all, Nat.sub_diag. cbn [firstn]. rewrite app_nil_r. apply list_eqb_refl.
Qed.

Lemma split_first text : exists d cs, split_at text (d :: cs).
Proof.
  destruct (split_exists text) as (l & S). destruct (cons_ne l (split_nonempty _ _ S)) as (d & cs & ->). eauto.
Qed.

Definition domain_of (d : list Z) : list (list Z) := match d with [] => [] | _ => [d] end.

Lemma join_nil_iff l : Forall (fun c => c <> []) l -> (join l = [] <-> l = []).
Proof.
  intros F. split; [|intros ->; reflexivity]. destruct l as [|x l]; auto. inversion F; subst.
  rewrite join_ext. intros H. apply ext_ne in H; auto. destruct H.
Qed.
Lemma glue_join l x : Forall (fun c => c <> []) l -> glue (join l) x = join (l ++ [x]).
Proof.
  intros F. destruct l as [|y l]; [reflexivity|]. rewrite join_app by discriminate.
  assert (NE : join (y :: l) <> []) by (rewrite join_nil_iff by auto; discriminate).
  unfold ext. cbn [flat_map]. rewrite app_nil_r. unfold glue. destruct (join (y :: l)); [congruence|reflexivity].
Qed.
Lemma nonempty_app l r : nonempty (l ++ r) = nonempty l ++ nonempty r.
Proof. unfold nonempty. induction l as [|[|c x] l IH]; cbn in *; auto. rewrite IH. reflexivity. Qed.
Lemma nonempty_ne l : Forall (fun c => c <> []) (nonempty l).
Proof. unfold nonempty. apply Forall_forall. intros x I. apply filter_In in I. destruct I as [_ I]. destruct x; congruence. Qed.

Section Junk.
  Variable J : Z.

  Lemma append_join pb l x : repr pb (join (nonempty l)) -> ~ In 0 x ->
    (fits (join (nonempty (l ++ [x]))) -> exists pb', pb_append J pb (Some x) = Ok pb' /\ repr pb' (join (nonempty (l ++ [x])))) /\
    (~ fits (join (nonempty (l ++ [x]))) -> pb_append J pb (Some x) = Err ENOSPC).
  Proof.
    intros R N0. destruct (append_spec J pb _ x R N0) as [A1 A2]. rewrite nonempty_app.
    destruct x as [|c x].
    - replace (nonempty l ++ nonempty [[]]) with (nonempty l) by (cbn; rewrite app_nil_r; reflexivity). split; auto.
    - cbn [nonempty filter]. fold (nonempty l). rewrite <- glue_join by apply nonempty_ne. split; auto.
  Qed.

  Section Config.
    Variable repository : list Z.
    Variable tal : option (list Z).
    Hypothesis rep0 : ~ In 0 repository.
    Hypothesis tal0 : ~ In 0 (opt tal).

    Lemma fits_prefix l r : fits (join (nonempty (l ++ r))) -> fits (join (nonempty l)).
    Proof using.
      rewrite nonempty_app. unfold fits. destruct (nonempty l) as [|x t]; [cbn; lia|].
      rewrite join_app by discriminate. unfold ext. rewrite app_length. lia.
    Qed.

    Lemma init_cache_spec sub : ~ In 0 (opt sub) ->
      let s := join (nonempty [repository; opt tal; opt sub]) in
      (fits s -> exists pb, pb_init_cache J repository tal sub = Ok pb /\ repr pb s) /\
      (~ fits s -> pb_init_cache J repository tal sub = Err ENOSPC).
    Proof.
      intros S0. cbv zeta. unfold pb_init_cache.
      destruct (append_join (pb_init J) [] repository (init_repr J) rep0) as [A1 A2]. cbn [app] in A1, A2.
      assert (ST : forall pb, repr pb (join (nonempty [repository])) ->
        (fits (join (nonempty [repository; opt tal])) -> exists pb', (match tal with Some _ => pb_append J pb tal | None => Ok pb end) = Ok pb' /\
            repr pb' (join (nonempty [repository; opt tal]))) /\
        (~ fits (join (nonempty [repository; opt tal])) -> (match tal with Some _ => pb_append J pb tal | None => Ok pb end) = Err ENOSPC)).
      { intros pb R. pose proof (append_join pb [repository] (opt tal) R tal0) as [B1 B2]. cbn [app] in *.
        destruct tal as [t|]; cbn [opt] in *; [split; auto|].
        assert (E : nonempty [repository; []] = nonempty [repository]) by (destruct repository; reflexivity).
        rewrite E. split; [eauto|]. intros F. destruct F. eapply repr_fits; eauto. }
      assert (SU : forall pb, repr pb (join (nonempty [repository; opt tal])) ->
        (fits (join (nonempty [repository; opt tal; opt sub])) -> exists pb', pb_append J pb sub = Ok pb' /\
            repr pb' (join (nonempty [repository; opt tal; opt sub]))) /\
        (~ fits (join (nonempty [repository; opt tal; opt sub])) -> pb_append J pb sub = Err ENOSPC)).
      { intros pb R. pose proof (append_join pb [repository; opt tal] (opt sub) R S0) as [B1 B2]. cbn [app] in *.
        destruct sub as [t|]; cbn [opt] in *; [split; auto|].
        assert (E : nonempty [repository; opt tal; []] = nonempty [repository; opt tal]) by (destruct repository, (opt tal); reflexivity).
        rewrite E. split; [cbn; eauto|]. intros F. destruct F. eapply repr_fits; eauto. }
      assert (D : forall s, {fits s} + {~ fits s}) by (intros s; unfold fits; apply le_dec).
      split.
      - intros F.
        destruct A1 as (p1 & E1 & R1). { apply (fits_prefix [repository] [opt tal; opt sub]). exact F. }
        rewrite E1. cbn [bind]. destruct (ST _ R1) as [T1 _].
        destruct T1 as (p2 & E2 & R2). { apply (fits_prefix [repository; opt tal] [opt sub]). exact F. }
        rewrite E2. cbn [bind]. destruct (SU _ R2) as [U1 _]. auto.
      - intros F. destruct (D (join (nonempty [repository]))) as [F1|F1]; [|rewrite (A2 F1); reflexivity].
        destruct (A1 F1) as (p1 & E1 & R1). rewrite E1. cbn [bind]. destruct (ST _ R1) as [T1 T2].
        destruct (D (join (nonempty [repository; opt tal]))) as [F2|F2]; [|rewrite (T2 F2); reflexivity].
        destruct (T1 F2) as (p2 & E2 & R2). rewrite E2. cbn [bind]. destruct (SU _ R2) as [_ U2]. auto.
    Qed.
  End Config.

  (** append_guri() without the scheme. *)
  Lemma append_guri_skip B pb prefix text err : B <> [] -> repr pb B -> length prefix = 8%nat -> ~ In 0 text ->
    (exists dom path pb', append_guri J pb (prefix ++ text) prefix err true = Ok pb' /\ names text dom path /\
        repr pb' (ext B (dom ++ path)) /\ Forall plain (dom ++ path)) \/
    (append_guri J pb (prefix ++ text) prefix err true = Err EINVAL /\ forall dom path, ~ names text dom path) \/
    (append_guri J pb (prefix ++ text) prefix err true = Err ENOSPC /\ (4096 < length B + length text + 3)%nat).
  Proof.
    intros NB R LP N0. unfold append_guri.
    assert (SW : str_starts_with (prefix ++ text) prefix = true) by (apply starts_iff; eauto).
    rewrite SW. cbn [negb bind].
    assert (SK : skipn 8 (prefix ++ text) = text).
    { rewrite <- LP, skipn_app, skipn_all, Nat.sub_diag. reflexivity. }
    rewrite SK. destruct (split_first text) as (d & cs & S).
    assert (Nd : ~ In 47 d) by (apply split_noslash in S; inversion S; auto).
    assert (N0d : ~ In 0 d) by (intros I; apply N0; eapply split_incl; eauto; left; auto).
    assert (UN : forall dom path, names text dom path -> d <> DOT /\ d <> DOTDOT /\ dom = domain_of d /\ walk [] cs path).
    { intros dom path (_ & d' & cs' & S' & X). pose proof (split_fun _ _ S _ S') as E. inversion E; subst. exact X. }
    assert (LF : (length text <= length (prefix ++ text))%nat) by (rewrite app_length; lia).
    remember (length (prefix ++ text)) as L eqn:EL. clear EL SW SK.
    (* what path_next() yields first *)
    assert (PN : path_next (Some text) = None /\ text = [] \/
                 exists slash, path_next (Some text) = Some (text, length d, slash) /\
                   ((slash = None /\ text = d /\ cs = [] /\ d <> []) \/ (exists s, slash = Some s /\ text = d ++ 47 :: s /\ split_at s cs))).
    { inversion S; subst.
      - rewrite path_next_last by auto. destruct d as [|z d]; [left; auto|]. right. eexists. split; [reflexivity|]. left. repeat split; auto. discriminate.
      - rewrite path_next_cons by auto. right. eexists. split; [reflexivity|]. right. eauto. }
    destruct PN as [[PN E]|(slash & PN & X)]; rewrite PN.
    { right. left. split; auto. intros dom path (NE & _). congruence. }
    assert (NE : text <> []).
    { destruct X as [(_ & -> & _ & H)|(s & _ & -> & _)]; auto. destruct d; discriminate. }
    assert (TX : exists t, text = d ++ t).
    { destruct X as [(_ & -> & _)|(s & _ & -> & _)]; [exists []; rewrite app_nil_r; auto|eauto]. }
    destruct TX as (t & TX).
    destruct (path_is_dot text (length d)) eqn:D1.
    { rewrite TX in D1. apply dot_iff in D1; auto. right. left. split; auto. intros dom path Q. apply UN in Q. tauto. }
    destruct (path_is_dotdots text (length d)) eqn:D2.
    { rewrite TX in D2. apply dotdots_iff in D2; auto. right. left. split; auto. intros dom path Q. apply UN in Q. tauto. }
    assert (N1 : d <> DOT). { intros Q. apply (dot_iff d t) in Q; auto. rewrite <- TX in Q. congruence. }
    assert (N2 : d <> DOTDOT). { intros Q. apply (dotdots_iff d t) in Q; auto. rewrite <- TX in Q. congruence. }
    assert (PD : Forall plain (domain_of d)).
    { destruct d; constructor; [|constructor]. repeat split; auto. discriminate. }
    assert (LT : length text = (length d + length t)%nat) by (rewrite TX, app_length; auto).
    (* the domain *)
    assert (AP : (exists pb', pb_appendn J pb (text ++ [0]) (length d) = Ok pb' /\ repr pb' (ext B (domain_of d))) \/
                 (pb_appendn J pb (text ++ [0]) (length d) = Err ENOSPC /\ (4096 < length B + length text + 3)%nat)).
    { destruct d as [|z d]; [left; exists pb; split; [reflexivity|cbn [domain_of]; rewrite ext_nil; auto]|].
      cbn [domain_of]. set (e := z :: d) in *. assert (NEe : e <> []) by discriminate. clearbody e.
      assert (T0 : exists y u, t ++ [0] = y :: u) by (destruct t; cbn; eauto). destruct T0 as (y & u & T0).
      rewrite TX, <- app_assoc, T0.
      destruct (appendn_spec J pb B e y u R NEe N0d) as [A1 A2].
      assert (GE : glue B e = ext B [e]) by (rewrite <- (ext_nil B) at 1; rewrite glue_ext by auto; reflexivity).
      rewrite GE in *. destruct (le_dec (length (ext B [e]) + 1) 4096) as [F|F].
      - left. destruct (A1 F) as (pb' & ? & ?). eauto.
      - right. split; [auto|]. unfold ext in F. cbn [flat_map] in F. rewrite app_nil_r, app_length in F. cbn [length] in F. rewrite ?app_length. lia. }
    destruct AP as [(pb' & E & R')|[E LE]]; rewrite E; cbn [bind]; [|right; right; auto].
    assert (LB : (length (ext B (domain_of d)) <= length B + length d + 1)%nat).
    { unfold ext. rewrite app_length. destruct d as [|z d]; cbn [domain_of flat_map length app]; [lia|]. rewrite app_nil_r. cbn [length]. lia. }
    pose proof (proj1 R') as LN. rewrite LN.
    destruct X as [(-> & Et & -> & _)|(s & -> & Et & Ss)].
    - cbn [guri_loop path_next]. left. exists (domain_of d), [], pb'. split; auto. rewrite app_nil_r.
      split; [|split; auto]. split; auto. exists d, []. repeat split; auto. constructor.
    - assert (N0s : ~ In 0 s) by (rewrite Et in N0; intros I; apply N0, in_app_iff; right; right; auto).
      assert (Ls : (length text = length d + 1 + length s)%nat) by (rewrite Et, app_length; cbn; lia).
      destruct (guri_loop_spec J (ext B (domain_of d)) cs (ext_ne _ _ NB) s Ss N0s (Datatypes.S (Datatypes.S L)) pb' [])
        as [(r & p & E1 & W & R1 & P1)|[(E1 & W)|(E1 & LL)]]; auto; try lia.
      + rewrite ext_nil. exact R'.
      + left. rewrite E1. exists (domain_of d), r, p. split; auto. rewrite ext_app. split.
        * split; auto. exists d, cs. repeat split; auto.
        * split; auto. apply Forall_app. auto.
      + right. left. rewrite E1. split; auto. intros dom path Q. apply UN in Q. apply (W path). tauto.
      + right. right. rewrite E1. split; auto. rewrite ext_nil in LL. lia.
  Qed.

  Lemma append_guri_wrong pb guri prefix err skip : (forall t, guri <> prefix ++ t) ->
    append_guri J pb guri prefix err skip = Err err.
  Proof.
    intros N. unfold append_guri. destruct (str_starts_with guri prefix) eqn:E; [|reflexivity].
    apply starts_iff in E. destruct E as (t & E). destruct (N t E).
  Qed.

  (** ... and with the scheme. *)
  Lemma append_guri_scheme pb B prefix scheme text err : repr pb B -> prefix = scheme ++ [58; 47; 47] -> length scheme = 5%nat ->
    ~ In 0 scheme ->
    (fits (glue B scheme) -> exists pb', append_guri J pb (prefix ++ text) prefix err false = append_guri J pb' (prefix ++ text) prefix err true /\
        repr pb' (glue B scheme)) /\
    (~ fits (glue B scheme) -> append_guri J pb (prefix ++ text) prefix err false = Err ENOSPC).
  Proof.
    intros R EP LS N0. unfold append_guri.
    assert (SW : str_starts_with (prefix ++ text) prefix = true) by (apply starts_iff; eauto).
    rewrite SW. cbn [negb bind].
    assert (NEs : scheme <> []) by (destruct scheme; discriminate).
    assert (E : (prefix ++ text) ++ [0] = scheme ++ 58 :: ([47; 47] ++ text ++ [0])).
    { rewrite EP, <- !app_assoc. reflexivity. }
    destruct (appendn_spec J pb B scheme 58 ([47; 47] ++ text ++ [0]) R NEs N0) as [A1 A2].
    rewrite <- E, LS in A1, A2. split.
    - intros F. destruct (A1 F) as (pb' & E1 & R'). exists pb'. rewrite E1. auto.
    - intros F. rewrite (A2 F). reflexivity.
  Qed.

  Section Map.
    Variable repository : list Z.
    Variable tal : option (list Z).
    Hypothesis rep0 : ~ In 0 repository.
    Hypothesis tal0 : ~ In 0 (opt tal).
    Notation map_simple := (map_simple J repository).
    Notation map_caged := (map_caged J repository).

    Definition blen (scheme : list Z) : nat := length (join (base repository tal scheme)).
    Lemma fits_dec s : {fits s} + {~ fits s}.
    Proof using. unfold fits. apply le_dec. Qed.

    Lemma base_ne scheme : scheme <> [] -> base repository tal scheme <> [].
    Proof using.
      intros NE. unfold base. change [repository; opt tal; scheme] with ([repository; opt tal] ++ [scheme]).
      rewrite nonempty_app. cbn [nonempty filter]. destruct scheme; [congruence|]. intros H. apply app_eq_nil in H. destruct H. discriminate.
    Qed.
    Lemma base_join_ne scheme : scheme <> [] -> join (base repository tal scheme) <> [].
    Proof using. intros NE H. apply join_nil_iff in H; [|apply nonempty_ne]. apply base_ne in H; auto. Qed.

    Definition outcome (r : res (list Z)) (text : list Z) (B : list (list Z)) : Prop :=
      (exists dom path, r = Ok (join (B ++ dom ++ path)) /\ names text dom path /\ Forall plain (dom ++ path)) \/
      (r = Err EINVAL /\ forall dom path, ~ names text dom path) \/
      (r = Err ENOSPC /\ (4096 < length (join B) + length text + 3)%nat).

    Lemma map_simple_spec scheme err text : length scheme = 5%nat -> ~ In 0 scheme -> ~ In 0 text ->
      outcome (map_simple ((scheme ++ [58; 47; 47]) ++ text) tal (scheme ++ [58; 47; 47]) err) text (base repository tal scheme).
    Proof.
      intros LS S0 N0. unfold PathBuilder.map_simple.
      assert (NEs : scheme <> []) by (destruct scheme; discriminate).
      destruct (init_cache_spec repository tal rep0 tal0 None (fun H => H)) as [I1 I2]. cbn [opt] in I1, I2.
      set (B0 := nonempty [repository; opt tal; []]) in *.
      assert (GL : glue (join B0) scheme = join (base repository tal scheme)).
      { rewrite glue_join by apply nonempty_ne. unfold B0, base. f_equal.
        change [repository; opt tal; []] with ([repository; opt tal] ++ [[]]).
        change [repository; opt tal; scheme] with ([repository; opt tal] ++ [scheme]).
        rewrite !nonempty_app. cbn [nonempty filter]. rewrite app_nil_r. destruct scheme; [congruence|reflexivity]. }
      assert (ML : (length (join B0) <= length (join (base repository tal scheme)))%nat).
      { rewrite <- GL. unfold glue. destruct (join B0); cbn; [lia|]. rewrite app_length. lia. }
      destruct (fits_dec (join B0)) as [F|F].
      2:{ right. right. rewrite (I2 F). cbn [bind]. split; auto. unfold fits in F. lia. }
      destruct (I1 F) as (pb & E & R). rewrite E. cbn [bind].
      destruct (append_guri_scheme pb (join B0) (scheme ++ [58; 47; 47]) scheme text err R eq_refl LS S0) as [S1 S2].
      rewrite GL in S1, S2.
      destruct (fits_dec (join (base repository tal scheme))) as [F1|F1].
      2:{ right. right. rewrite (S2 F1). cbn [bind]. split; auto. unfold fits in F1. lia. }
      destruct (S1 F1) as (pb' & E1 & R1). rewrite E1.
      destruct (append_guri_skip _ pb' (scheme ++ [58; 47; 47]) text err (base_join_ne scheme NEs) R1) as [(dom & path & p & E2 & NM & R2 & PL)|[(E2 & NN)|(E2 & LL)]]; auto.
      { rewrite app_length, LS. reflexivity. }
      - left. exists dom, path. rewrite E2. cbn [bind]. rewrite (string_spec _ _ R2).
        rewrite join_app by (apply base_ne; auto). auto.
      - right. left. rewrite E2. auto.
      - right. right. rewrite E2. auto.
    Qed.

    Definition RRDP : list Z := cstr "rrdp".

    Lemma map_caged_spec ntext gtext : ~ In 0 ntext -> ~ In 0 gtext ->
      (exists nd np dom path, map_caged (RSYNC_PREFIX ++ gtext) tal (HTTPS_PREFIX ++ ntext) =
            Ok (join (base repository tal RRDP ++ (nd ++ np) ++ (dom ++ path))) /\
          names ntext nd np /\ names gtext dom path /\ Forall plain (nd ++ np) /\ Forall plain (dom ++ path)) \/
      (map_caged (RSYNC_PREFIX ++ gtext) tal (HTTPS_PREFIX ++ ntext) = Err EINVAL /\
          ((forall a b, ~ names ntext a b) \/ (forall a b, ~ names gtext a b))) \/
      (map_caged (RSYNC_PREFIX ++ gtext) tal (HTTPS_PREFIX ++ ntext) = Err ENOSPC /\ (4096 < blen RRDP + length ntext + length gtext + 6)%nat \/
       exists nd np, names ntext nd np /\ map_caged (RSYNC_PREFIX ++ gtext) tal (HTTPS_PREFIX ++ ntext) = Err ENOSPC /\
          (4096 < length (join (base repository tal RRDP ++ nd ++ np)) + length gtext + 3)%nat).
    Proof.
      intros N0n N0g. unfold PathBuilder.map_caged, get_rrdp_workspace.
      destruct (init_cache_spec repository tal rep0 tal0 (Some RRDP)) as [I1 I2].
      { cbn. intuition discriminate. }
      cbn [opt] in I1, I2. fold (base repository tal RRDP) in I1, I2. change (cstr "rrdp") with RRDP.
      destruct (fits_dec (join (base repository tal RRDP))) as [F|F].
      2:{ right. right. left. rewrite (I2 F). cbn [bind]. split; auto. unfold fits in F. unfold blen. lia. }
      destruct (I1 F) as (pb & E & R). rewrite E. cbn [bind].
      assert (NER : join (base repository tal RRDP) <> []) by (apply base_join_ne; discriminate).
      destruct (append_guri_skip _ pb HTTPS_PREFIX ntext (EOTHER 1) NER R eq_refl N0n)
        as [(nd & np & p & E2 & NM & R2 & PL)|[(E2 & NN)|(E2 & LL)]]; rewrite E2; cbn [bind].
      2:{ right. left. auto. }
      2:{ right. right. left. split; auto. unfold blen. lia. }
      assert (G : exists c t, RSYNC_PREFIX ++ gtext = c :: t) by (cbn; eauto). destruct G as (c & t & G). rewrite G, <- G.
      destruct (append_guri_skip _ p RSYNC_PREFIX gtext ENOTRSYNC (ext_ne _ _ NER) R2 eq_refl N0g)
        as [(dom & path & p' & E3 & NM' & R3 & PL')|[(E3 & NN)|(E3 & LL)]]; rewrite E3; cbn [bind].
      - left. exists nd, np, dom, path. rewrite (string_spec _ _ R3). rewrite join_app by (apply base_ne; discriminate).
        rewrite (ext_app _ (nd ++ np)). auto.
      - right. left. auto.
      - right. right. right. exists nd, np. rewrite join_app by (apply base_ne; discriminate). auto.
    Qed.

    (** The RRDP workspace itself: an empty global URI. *)
    Lemma map_caged_root ntext : ~ In 0 ntext ->
      outcome (map_caged [] tal (HTTPS_PREFIX ++ ntext)) ntext (base repository tal RRDP).
    Proof.
      intros N0n. unfold PathBuilder.map_caged, get_rrdp_workspace.
      destruct (init_cache_spec repository tal rep0 tal0 (Some RRDP)) as [I1 I2].
      { cbn. intuition discriminate. }
      cbn [opt] in I1, I2. fold (base repository tal RRDP) in I1, I2. change (cstr "rrdp") with RRDP.
      destruct (fits_dec (join (base repository tal RRDP))) as [F|F].
      2:{ right. right. rewrite (I2 F). cbn [bind]. split; auto. unfold fits in F. lia. }
      destruct (I1 F) as (pb & E & R). rewrite E. cbn [bind].
      assert (NER : join (base repository tal RRDP) <> []) by (apply base_join_ne; discriminate).
      destruct (append_guri_skip _ pb HTTPS_PREFIX ntext (EOTHER 1) NER R eq_refl N0n)
        as [(nd & np & p & E2 & NM & R2 & PL)|[(E2 & NN)|(E2 & LL)]]; rewrite E2; cbn [bind].
      - left. exists nd, np. rewrite (string_spec _ _ R2). rewrite join_app by (apply base_ne; discriminate). auto.
      - right. left. auto.
      - right. right. auto.
    Qed.

    Lemma init_cache_cases sub : ~ In 0 (opt sub) -> (exists pb, pb_init_cache J repository tal sub = Ok pb /\ repr pb (join (nonempty [repository; opt tal; opt sub]))) \/
        (pb_init_cache J repository tal sub = Err ENOSPC /\ (4096 < length (join (nonempty [repository; opt tal; opt sub])) + 1)%nat).
    Proof.
      intros S0. destruct (init_cache_spec repository tal rep0 tal0 sub S0) as [I1 I2].
      destruct (fits_dec (join (nonempty [repository; opt tal; opt sub]))) as [F|F]; auto.
      right. split; auto. unfold fits in F. lia.
    Qed.
  End Map.
End Junk.
