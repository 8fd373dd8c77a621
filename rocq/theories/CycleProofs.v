(** C90: proofs. *)
From Coq Require Import String.
From Verif Require Import Base BaseLemmas CString CLib Types HashSet DbTable PduWireSpec Address AddressSpec PathBuilder Tal TalSpec TalProofs TalProps
  Slurm SlurmSpec SlurmProofs SlurmProofs2 SlurmProofs3 SlurmProofs4 SlurmProps Vrps VrpsSpec VrpsProofs VrpsProofs2 Manifest ManifestSpec ManifestProofs Resources ResourcesSpec CertProfile Tree TreeSpec TreeProps TreeAloneSpec TreeAlone TreeAlone2 TreeAlone3 TreeAloneProps
  PduHandler PduHandlerSpec Cycle CycleSpec.
Notation length := List.length.

Lemma is_tal_file l path : is_tal l path <-> tal_file l path.
Proof.
  destruct l as [|p|entries rd]; cbn [is_tal tal_file]; [tauto|tauto|].
  rewrite <- talb_iff. unfold talb. destruct (strrchr 46 path) as [x|]; [|split; intros (_ & H); discriminate H].
  rewrite (list_eqb_spec Z.eqb Z.eqb_eq). split; intros (H & K); (split; [exact H|congruence]).
Qed.

(** ** All the TALs *)
Section All.
  Context (realpath : list Z -> bool) (run : list Z -> thread).

  Lemma dir_true entries : forall rd found threads threads', process_dir_files realpath run entries rd found threads = (true, threads') ->
    (forall e, In e entries -> tal_name e -> realpath e = true /\ run e <> NoThread) /\ rd = true /\ (found = true \/ exists e, In e entries /\ tal_name e).
  Proof.
    induction entries as [|e entries IH]; intros rd found threads threads'; cbn [process_dir_files].
    - intros E. injection E as E _. apply andb_prop in E. destruct E as (-> & ->). split; [intros e []|auto].
    - unfold process_file. pose proof (talb_iff e) as T. unfold talb in T. destruct (strrchr 46 e) as [x|].
      + destruct (list_eqb Z.eqb x (cstr ".tal")) eqn:EX; cbn [negb].
        * destruct (realpath e) eqn:R; cbn [negb]; [|discriminate]. unfold spawn_tal_thread.
          destruct (run e) eqn:Er; cbn [negb]; [discriminate| |]; intros E; apply IH in E; destruct E as (A & B & _);
            (split; [intros e' [<-|I] N; [split; [exact R|congruence]|apply A; auto]|split; [exact B|right; exists e; split; [left; reflexivity|apply T; reflexivity]]]).
        * cbn [negb]. intros E. apply IH in E. destruct E as (A & B & D). rewrite orb_false_r in D.
          split; [intros e' [<-|I] N; [apply T in N; discriminate N|apply A; auto]|]. split; [exact B|]. destruct D as [D|(e' & I & N)]; [auto|right; exists e'; split; [right; exact I|exact N]].
      + cbn [negb]. intros E. apply IH in E. destruct E as (A & B & D). rewrite orb_false_r in D.
        split; [intros e' [<-|I] N; [apply T in N; discriminate N|apply A; auto]|]. split; [exact B|]. destruct D as [D|(e' & I & N)]; [auto|right; exists e'; split; [right; exact I|exact N]].
  Qed.

  Lemma wait_ok ts : forall db err db' err', wait_all ts db err = Ok (db', err') ->
    (forall d, In (Some (Done d)) ts -> table_ok d) -> (forall d, db = Some d -> table_ok d) -> forall d, db' = Some d -> table_ok d.
  Proof.
    induction ts as [|t ts IH]; intros db err db' err' E H K; cbn [wait_all] in E; [injection E as <- _; exact K|].
    assert (H' : forall d, In (Some (Done d)) ts -> table_ok d) by (intros; apply H; right; assumption).
    destruct t as [[|e|d]|]; try discriminate E; [eapply IH; eauto|].
    destruct (err =? 0); [|eapply IH; eauto]. destruct db as [d0|].
    - eapply IH; [exact E|exact H'|]. intros x Q. injection Q as <-. apply table_ok_join, K. reflexivity.
    - eapply IH; [exact E|exact H'|]. intros x Q. injection Q as <-. apply H. left. reflexivity.
  Qed.

  Lemma perform_lem l db : perform_standalone_validation realpath run l = Ok (Some db) -> (forall path, tal_file l path -> run path <> Failed 0) ->
    (exists path, tal_file l path) /\ (forall path, tal_file l path -> exists d, run path = Done d) /\
    (forall v, roas_of db v <-> exists path d, tal_file l path /\ run path = Done d /\ roas_of d v) /\
    (forall k, rks_of db k <-> exists path d, tal_file l path /\ run path = Done d /\ rks_of d k) /\
    ((forall path d, tal_file l path -> run path = Done d -> table_ok d) -> table_ok db).
  Proof.
    intros H N. destruct l as [|p|entries rd]; cbn [tal_file] in *.
    - discriminate H.
    - assert (N0 : run p <> NoThread).
      { intros Q. unfold perform_standalone_validation, foreach_file, spawn_tal_thread in H. rewrite Q in H. discriminate H. }
      rewrite (C44_file realpath run p N0 (N p eq_refl)) in H. injection H as H. destruct (run p) as [|e|d] eqn:R; try discriminate H. injection H as ->.
      split; [eauto|]. split; [intros path ->; eauto|].
      assert (G : forall P : db_table -> Prop, P db <-> exists path d, path = p /\ run path = Done d /\ P d).
      { intros P. split; [intros Q; exists p, db; auto|]. intros (path & d & -> & Q & K). rewrite R in Q. injection Q as ->. exact K. }
      split; [intros v; apply (G (fun d => roas_of d v))|]. split; [intros k; apply (G (fun d => rks_of d k))|]. intros Q. apply (Q p db eq_refl R).
    - assert (D : forall e, In e entries -> tal_name e -> realpath e = true /\ run e <> NoThread).
      { pose proof H as H'. unfold perform_standalone_validation, foreach_file in H'. destruct (process_dir_files realpath run entries rd false []) as [ok threads] eqn:E.
        destruct ok; cbn [negb] in H'; [|destruct threads; discriminate H']. apply dir_true in E. tauto. }
      assert (RD : rd = true /\ exists e, In e entries /\ tal_name e).
      { pose proof H as H'. unfold perform_standalone_validation, foreach_file in H'. destruct (process_dir_files realpath run entries rd false []) as [ok threads] eqn:E.
        destruct ok; cbn [negb] in H'; [|destruct threads; discriminate H']. apply dir_true in E. destruct E as (_ & -> & [Q|Q]); [discriminate Q|auto]. }
      destruct RD as (-> & X). split; [destruct X as (e & I & T); exists e; auto|].
      destruct (C44_union_partial realpath run entries) as [(A & db' & E & R1 & R2)|(_ & E)]; [| | |rewrite E in H; discriminate H].
      { intros e I T. destruct (D e I T). split; [assumption|]. split; [assumption|]. apply N. auto. } { exact X. }
      rewrite E in H. injection H as ->. split; [intros path (I & T); apply A; auto|].
      split; [intros v; unfold roas_of; rewrite R1; split; intros (e & d & Q); exists e, d; tauto|].
      split; [intros v; unfold rks_of; rewrite R2; split; intros (e & d & Q); exists e, d; tauto|].
      intros Q. unfold perform_standalone_validation, foreach_file in E. rewrite (dir_ok realpath run entries true false [] D), app_nil_r in E.
      assert (EX : existsb talb entries = true) by (apply existsb_exists; destruct X as (e & I & T); exists e; rewrite talb_iff; auto). rewrite EX in E. cbn [orb andb negb] in E.
      destruct (wait_all _ None 0) as [[w err]| |] eqn:W; cbn [bind] in E; try discriminate E. destruct (err =? 0); [|discriminate E]. injection E as ->.
      eapply wait_ok; [exact W| |discriminate|reflexivity]. intros d I. apply in_map_iff in I. destruct I as (e & Q1 & I). injection Q1 as Q1.
      rewrite <- in_rev, filter_In, talb_iff in I. apply (Q e d); [exact I|exact Q1].
  Qed.
End All.

(** ** A TAL *)
Definition key_of_tal (C : surroundings) (path : list Z) : list Z :=
  match c_file C path with
  | inl _ => []
  | inr f => match tal_init (w_J (c_world C path)) (w_repository (c_world C path)) (base_name path) (c_decode C) f with Ok (_, spki) => spki | _ => [] end
  end.

Lemma line_unique r t r' t' x x' : line_of r t -> line_of r' t' -> r ++ x = r' ++ x' -> t = t' /\ x = x'.
Proof.
  assert (G : forall r t x, line_of r t -> exists a, (t = a \/ a = t ++ [13]) /\ ~ In 10 a /\ r ++ x = a ++ 10 :: x /\ (forall q, t <> q ++ [13] \/ a = t ++ [13])).
  { clear. intros r t x (N & _ & [->|(-> & K)]).
    - exists (t ++ [13]). split; [auto|]. split; [intros I; apply in_app_or in I; destruct I as [I|[I|[]]]; [auto|discriminate I]|]. split; [rewrite <- !app_assoc; reflexivity|auto].
    - exists t. split; [auto|]. split; [exact N|]. split; [rewrite <- app_assoc; reflexivity|]. intros q. left. apply K. }
  assert (U : forall a b (x y : list Z), ~ In 10 a -> ~ In 10 b -> a ++ 10 :: x = b ++ 10 :: y -> a = b /\ x = y).
  { clear. induction a as [|c a IH]; intros [|d b] x y Na Nb E; cbn in E.
    - injection E as E. auto.
    - injection E as E1 _. destruct Nb. left. auto.
    - injection E as E1 _. destruct Na. left. auto.
    - injection E as E1 E2. subst. destruct (IH b x y) as (-> & ->); [intros I; apply Na; right; exact I|intros I; apply Nb; right; exact I|exact E2|auto]. }
  intros L L' E. destruct (G _ _ x L) as (a & A1 & A2 & A3 & A4). destruct (G _ _ x' L') as (b & B1 & B2 & B3 & B4). rewrite A3, B3 in E.
  destruct (U _ _ _ _ A2 B2 E) as (<- & <-). split; [|reflexivity].
  destruct A1 as [<-|A1], B1 as [<-|B1].
  - reflexivity.
  - destruct (A4 t') as [Q|Q]; [congruence|]. exfalso. apply (f_equal (@length Z)) in Q. rewrite app_length in Q. cbn in Q. lia.
  - destruct (B4 t) as [Q|Q]; [congruence|]. exfalso. apply (f_equal (@length Z)) in Q. rewrite app_length in Q. cbn in Q. lia.
  - rewrite A1 in B1. apply app_inj_tail in B1. tauto.
Qed.
Lemma lines_unique rs ts b body : Forall2 line_of rs ts -> Forall (fun t => t <> []) ts -> line_of b [] ->
  forall rs' ts' b' body', Forall2 line_of rs' ts' -> Forall (fun t => t <> []) ts' -> line_of b' [] ->
  concat rs ++ b ++ body = concat rs' ++ b' ++ body' -> ts = ts' /\ body = body'.
Proof.
  intros F. induction F as [|r t rs ts Hr F IH]; intros N L rs' ts' b' body' F' N' L' E; cbn [concat app] in E.
  - destruct F' as [|r' t' rs' ts' Hr' F']; cbn [concat app] in E.
    + destruct (line_unique _ _ _ _ _ _ L L' E). auto.
    + rewrite <- app_assoc in E. destruct (line_unique _ _ _ _ _ _ L Hr' E) as (Q & _). inversion N'; congruence.
  - inversion N as [|? ? Nt Nts]; subst. destruct F' as [|r' t' rs' ts' Hr' F']; cbn [concat app] in E; rewrite <- app_assoc in E.
    + destruct (line_unique _ _ _ _ _ _ Hr L' E) as (Q & _). congruence.
    + inversion N' as [|? ? Nt' Nts']; subst. rewrite <- app_assoc in E. destruct (line_unique _ _ _ _ _ _ Hr Hr' E) as (<- & E').
      destruct (IH Nts L rs' ts' b' body' F' Nts' L' E') as (-> & ->). auto.
Qed.
Lemma tal_text_unique c t b c' t' b' f : tal_text c t b f -> tal_text c' t' b' f -> t = t' /\ b = b'.
Proof.
  intros (rc & ru & bl & E & A1 & A2 & A3 & A4 & A5 & A6) (rc' & ru' & bl' & E' & B1 & B2 & B3 & B4 & B5 & B6).
  assert (NC : forall l, Forall comment l -> Forall (fun t => t <> []) l) by (intros l; apply Forall_impl; intros a (q & ->); discriminate).
  destruct (lines_unique (rc ++ ru) (c ++ t) bl b) with (rs' := rc' ++ ru') (ts' := c' ++ t') (b' := bl') (body' := b') as (Q & QB);
    try (apply Forall2_app; assumption); try (apply Forall_app; auto); try assumption.
  { rewrite !concat_app, <- !app_assoc. congruence. }
  split; [|exact QB]. clear - A4 A6 B4 B6 Q. revert c' B4 Q. induction A4 as [|x c Hx A IH]; intros c' B4 Q; destruct B4 as [|y c' Hy B]; cbn [app] in Q.
  - exact Q.
  - subst t. cbn in A6. destruct (A6 Hy).
  - subst t'. cbn in B6. destruct (B6 Hx).
  - injection Q as _ Q. eapply IH; eauto.
Qed.

Lemma tal_init_says C path f uris spki : c_file C path = inr f ->
  tal_init (w_J (c_world C path)) (w_repository (c_world C path)) (base_name path) (c_decode C) f = Ok (uris, spki) ->
  (forall i u, nth_error uris i = Some u <-> exists k, tal_says C path i u k) /\ (forall i u, nth_error uris i = Some u -> tal_says C path i u spki).
Proof.
  intros F H. unfold tal_init in H.
  destruct (read_uris _ _ _ f) as [[us body]| |] eqn:R; cbn [bind] in H; try discriminate H.
  destruct (C43_reflow (w_J (c_world C path)) (length body) body) as (out & O & NN & _). rewrite O in H. cbn [bind] in H. rewrite firstn_all in NN.
  destruct (c_decode C (out ++ [0])) as [k|] eqn:Dk; [|discriminate H]. injection H as <- <-.
  pose proof (proj1 (C58_grammar _ _ _ _ _ _) R) as (comments & texts & T & F2).
  assert (G1 : forall i u, nth_error us i = Some u -> tal_says C path i u k).
  { intros i u N. assert (X : exists text, nth_error texts i = Some text /\
      (((exists t, text = cstr "rsync://" ++ t) /\ uri_create (w_J (c_world C path)) (w_repository (c_world C path)) (Some (base_name path)) UT_RSYNC None text = Ok u) \/
       ((exists t, text = cstr "https://" ++ t) /\ uri_create (w_J (c_world C path)) (w_repository (c_world C path)) (Some (base_name path)) UT_HTTPS None text = Ok u))).
    { clear - F2 N. revert i N. induction F2 as [|x y l m Hx Hl IH]; intros [|i] N; cbn in *; try discriminate N; [injection N as <-; eauto|apply IH; exact N]. }
    destruct X as (text & X1 & X2). exists f, comments, texts, body, text, out. auto 10. }
  split; [|exact G1]. intros i u. split; [intros N; exists k; apply G1; exact N|].
  intros (k' & f' & comments' & texts' & body' & text' & key' & F' & T' & N' & U' & _). rewrite F in F'. injection F' as <-.
  destruct (tal_text_unique _ _ _ _ _ _ _ T T') as (<- & <-).
  assert (X : exists u0, nth_error us i = Some u0 /\
      (((exists t, text' = cstr "rsync://" ++ t) /\ uri_create (w_J (c_world C path)) (w_repository (c_world C path)) (Some (base_name path)) UT_RSYNC None text' = Ok u0) \/
       ((exists t, text' = cstr "https://" ++ t) /\ uri_create (w_J (c_world C path)) (w_repository (c_world C path)) (Some (base_name path)) UT_HTTPS None text' = Ok u0))).
  { clear - F2 N'. revert i N'. induction F2 as [|x y l m Hx Hl IH]; intros [|i] N; cbn in *; try discriminate N; [injection N as <-; eauto|apply IH; exact N]. }
  destruct X as (u0 & X1 & X2). rewrite X1. f_equal.
  destruct X2 as [((q & Q) & X2)|((q & Q) & X2)], U' as [((q' & Q') & U')|((q' & Q') & U')]; try congruence; rewrite Q in Q'; discriminate Q'.
Qed.

Lemma says_unique C path i a b k k' : tal_says C path i a k -> tal_says C path i b k' -> a = b.
Proof.
  intros (f & c & ts & body & text & key & F & T & N & U & _) (f' & c' & ts' & body' & text' & key' & F' & T' & N' & U' & _).
  rewrite F in F'. injection F' as <-. destruct (tal_text_unique _ _ _ _ _ _ _ T T') as (<- & _). rewrite N in N'. injection N' as <-.
  destruct U as [((q & Q) & X2)|((q & Q) & X2)], U' as [((q' & Q') & U')|((q' & Q') & U')]; try congruence; rewrite Q in Q'; discriminate Q'.
Qed.
Lemma elected_unique C path key u u' : elected C path key u -> elected C path key u' -> u = u'.
Proof.
  intros (b & i & n & a & E & T & W & N) (b' & i' & n' & a' & E' & T' & W' & N').
  rewrite E in E'. clear E. revert b' E' N'. induction b as [|x b IH]; intros [|x' b'] E' N'; cbn [app] in E'.
  - injection E' as <- _ _. eapply says_unique; eassumption.
  - injection E' as <- _. destruct (N' i n u); [left; reflexivity|exact T|exact W].
  - injection E' as -> _. destruct (N i' n' u'); [left; reflexivity|exact T'|exact W'].
  - injection E' as -> E'. apply (IH (fun j m w I => N j m w (or_intror I)) b' E'). intros j m w I. apply (N' j m w). right. exact I.
Qed.

(** ** The URIs of a TAL *)
Section Uris.
  Context (W : world) (fuel : nat).

  Lemma try_sound uris tried : sane W -> forall db t, try_uris W fuel uris tried db = Some (Ok t) ->
    match t with
    | Done db' => (forall v, roas_of db' v -> roas_of db v \/ exists i n u, In (i, n) tried /\ nth_error uris i = Some u /\ authorised W (fun k => (n <= k)%nat) u v) /\
        t_rks db' = t_rks db /\ (table_ok db -> table_ok db')
    | Failed e => e <> 0
    | NoThread => False
    end.
  Proof.
    intros S. induction tried as [|[i n] tried IH]; intros db t H; cbn [try_uris] in H; [injection H as <-; lia|].
    destruct (nth_error uris i) as [u|] eqn:N.
    2:{ specialize (IH db t H). destruct t as [|e|db']; auto. destruct IH as (A & B & D). split; [|auto]. intros v Hv.
        destruct (A v Hv) as [?|(i' & n' & u' & I & Q)]; [auto|right; exists i', n', u'; split; [right; exact I|exact Q]]. }
    destruct (handle_tal_uri W fuel n u db) as [[[db1 [|]]| |]|] eqn:E; try discriminate H.
    - injection H as <-. pose proof (C74_sound W fuel n u db db1 true S E) as A. destruct (C74_keeps W fuel n u db db1 true E) as (_ & B & D).
      split; [|auto]. intros v Hv. destruct (A v Hv); [auto|]. right. exists i, n, u. split; [left; reflexivity|auto].
    - specialize (IH db1 t H). pose proof (C74_sound W fuel n u db db1 false S E) as A'. destruct (C74_keeps W fuel n u db db1 false E) as (_ & B' & D').
      destruct t as [|e|db']; auto. destruct IH as (A & B & D). split; [|split; [congruence|auto]]. intros v Hv.
      destruct (A v Hv) as [K|(i' & n' & u' & I & Q)]; [|right; exists i', n', u'; split; [right; exact I|exact Q]].
      destruct (A' v K); [auto|]. right. exists i, n, u. split; [left; reflexivity|auto].
  Qed.

  Lemma alone_start u s : alone W u s -> ends_with (u_global u) (cstr ".cer") /\ exists r, certificate_traverse W None u (create 0 db_table_create) = Ok (r, true).
  Proof. intros H. induction H as [s E T|]; [split; [exact E|exists s; exact T]|assumption]. Qed.

  Lemma uri_works n u db db' ok : sane W -> still W -> handle_tal_uri W fuel n u db = Some (Ok (db', ok)) -> (ok = true <-> works W u).
  Proof.
    intros S Q H. unfold handle_tal_uri in H. destruct (str_ends_with (u_global u) (cstr ".cer")) eqn:E; cbn [negb] in H.
    2:{ injection H as _ <-. split; [discriminate|]. intros (s & Ha). apply alone_start in Ha. destruct Ha as (Hr & _). apply ends_with_iff in Hr. congruence. }
    destruct (certificate_traverse W None u (create n db)) as [[s1 b]| |] eqn:T; try discriminate H.
    destruct (traverse_sim W S Q (w_rnd W) (w_rnd W) None None u (create n db) (create 0 db_table_create) s1 b) as (s2 & T2 & Ch).
    { constructor; [apply reach_init|apply reach_init|constructor]. } { exact I. } { rewrite with_own_rnd. exact T. }
    rewrite with_own_rnd in T2. destruct b.
    - destruct (tal_loop W fuel s1) as [[d| |]|]; try discriminate H. injection H as _ <-. split; [|reflexivity]. intros _.
      exists s2. apply alone_root; [apply ends_with_iff; exact E|exact T2].
    - injection H as _ <-. split; [discriminate|]. intros (s & Ha). apply alone_start in Ha. destruct Ha as (_ & r & Tr). congruence.
  Qed.

  Lemma try_exact uris tried : sane W -> still W -> forall db db', try_uris W fuel uris tried db = Some (Ok (Done db')) ->
    exists before i n after u, tried = before ++ (i, n) :: after /\ nth_error uris i = Some u /\ works W u /\
      (forall j m u', In (j, m) before -> nth_error uris j = Some u' -> ~ works W u') /\
      forall v, roas_of db' v <-> roas_of db v \/ of_tree W u v.
  Proof.
    intros S Q. induction tried as [|[i n] tried IH]; intros db db' H; cbn [try_uris] in H; [discriminate H|].
    destruct (nth_error uris i) as [u|] eqn:N.
    2:{ destruct (IH db db' H) as (before & i' & n' & after & u & -> & A). exists ((i, n) :: before), i', n', after, u. split; [reflexivity|].
        destruct A as (A1 & A2 & A3 & A4). split; [exact A1|]. split; [exact A2|]. split; [|exact A4].
        intros j m u' [K|K] N'; [injection K as <- <-; congruence|eapply A3; eauto]. }
    destruct (handle_tal_uri W fuel n u db) as [[[db1 b]| |]|] eqn:E; try discriminate H. pose proof (uri_works n u db db1 b S Q E) as Wk.
    assert (Iso : forall v, roas_of db1 v <-> roas_of db v \/ of_tree W u v).
    { apply (C77_isolated W (w_rnd W) fuel n u db db1 b S Q). rewrite with_own_rnd. exact E. }
    destruct b.
    - injection H as <-. exists [], i, n, tried, u. split; [reflexivity|]. split; [exact N|]. split; [apply Wk; reflexivity|]. split; [intros j m u' []|exact Iso].
    - destruct (IH db1 db' H) as (before & i' & n' & after & u' & -> & A1 & A2 & A3 & A4). exists ((i, n) :: before), i', n', after, u'. split; [reflexivity|].
      assert (NW : ~ works W u) by (intros K; apply Wk in K; discriminate K).
      split; [exact A1|]. split; [exact A2|]. split.
      + intros j m w [K|K] N'; [injection K as <- <-; rewrite N in N'; injection N' as <-; exact NW|eapply A3; eauto].
      + intros v. rewrite A4, Iso. split; [intros [[?|(s & Hs & _)]|?]; auto; elim NW; exists s; exact Hs|intros [?|?]; auto].
  Qed.
End Uris.

(** A TAL's thread. *)
Lemma becomes_spec C path t : plausible C -> tal_file (c_tals C) path -> becomes C path t ->
  match t with
  | NoThread => True
  | Failed e => e <> 0
  | Done db =>
      (forall v, roas_of db v -> authorised_by C v) /\ t_rks db = [] /\ table_ok db /\
      (still (world_of C path (key_of_tal C path)) -> exists u, elected C path (key_of_tal C path) u /\
         forall v, roas_of db v <-> of_tree (world_of C path (key_of_tal C path)) u v)
  end.
Proof.
  intros P T B. unfold becomes in B. destruct (c_spawned C path); [|subst t; exact I]. destruct B as (fuel & B). unfold do_file_validation in B.
  destruct (c_file C path) as [e|f] eqn:F; [injection B as <-; lia|].
  destruct (tal_init _ _ _ _ f) as [[uris spki]| |] eqn:TI; [|injection B as <-; lia|discriminate B].
  pose proof (tal_init_says C path f uris spki F TI) as (N1 & N2). pose proof (pl_world C P path spki T) as Sa.
  assert (EK : key_of_tal C path = spki) by (unfold key_of_tal; rewrite F, TI; reflexivity). rewrite EK. fold (world_of C path spki) in B.
  pose proof (try_sound (world_of C path spki) fuel uris (c_tried C path) Sa db_table_create t B) as K. destruct t as [|e|db]; [contradiction|exact K|].
  destruct K as (K1 & K2 & K3). split; [|split; [exact K2|split; [apply K3; split; constructor|]]].
  - intros v Hv. destruct (K1 v Hv) as [[]|(i & n & u & I & N & A)]. exists path, i, u, spki, n. split; [exact T|]. split; [exact I|]. split; [apply N2; exact N|exact A].
  - intros St. destruct (try_exact (world_of C path spki) fuel uris (c_tried C path) Sa St db_table_create db B) as (before & i & n & after & u & E1 & E2 & E3 & E4 & E5).
    exists u. split.
    + exists before, i, n, after. split; [exact E1|]. split; [apply N2; exact E2|]. split; [exact E3|]. intros j m u' I TS. eapply E4; [exact I|]. apply N1. eauto.
    + intros v. rewrite E5. split; [intros [[]|?]; assumption|auto].
Qed.
