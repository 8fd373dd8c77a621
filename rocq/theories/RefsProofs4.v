From Verif Require Import Base Refs RefsSpec RefsProofs RefsProofs2 RefsProofs3.
Notation length := List.length.

Lemma set_stacks_I s L d m L' : I s L ->
  (forall i, cnt i (flat_map d_refs d ++ flat_map m_refs m ++ L') = cnt i (stack s ++ L)) -> Forall (d_ok s) d -> Forall (m_ok s) m -> I (set_stacks s d m) L'.
Proof.
  intros [A B C D E] H Hd Hm. split; try assumption.
  intros i. cbn [refs next set_stacks]. rewrite (sum_ext _ (mine s i)) by reflexivity. rewrite A, <- H. unfold stack. cbn [defers metas set_stacks]. now rewrite app_assoc.
Qed.
Lemma set_stacks_ext s d m : ext s (set_stacks s d m).
Proof. split; cbn; auto. intros p. exists []. now rewrite app_nil_r. Qed.

(** As [step], with what the stacks become. *)
Record moved (s s' : st) (L : list nat) (d : list defer) (m : list meta) : Prop := { v_I : I s' L; v_ext : ext s s'; v_d : defers s' = d; v_m : metas s' = m }.
Lemma step_moved s s1 s2 L1 L2 d m : step s s1 L1 -> moved s1 s2 L2 d m -> moved s s2 L2 d m.
Proof. intros [A1 A2 A3] [B1 B2 B3 B4]. split; auto. eapply ext_trans; eassumption. Qed.
Lemma moved_step s s1 s2 L1 L2 d m : moved s s1 L1 d m -> step s1 s2 L2 -> moved s s2 L2 d m.
Proof. intros [A1 A2 A3 A4] [B1 B2 [B3 B4]]. split; [exact B1|eapply ext_trans; eassumption|congruence|congruence]. Qed.
Lemma moved_trans s s1 s2 L1 L2 d m d' m' : moved s s1 L1 d m -> moved s1 s2 L2 d' m' -> moved s s2 L2 d' m'.
Proof. intros [A1 A2 A3 A4] [B1 B2 B3 B4]. split; auto. eapply ext_trans; eassumption. Qed.
Lemma moved_perm s s' L L' d m : moved s s' L d m -> (forall i, cnt i L = cnt i L') -> moved s s' L' d m.
Proof. intros [A1 A2 A3 A4] H. split; auto. eapply I_perm; eassumption. Qed.
Lemma step_same s s' L : step s s' L -> moved s s' L (defers s) (metas s).
Proof. intros [A B [C D]]. split; auto. Qed.

Section S.
  Variable answers : nat -> Z.
  Variable max_cert_depth : nat.
  Notation ask := (ask answers).

  Lemma push_defer_S d s L F : I s L -> (forall i, cnt i L = cnt i (d_refs d ++ F)) -> d_ok s d -> wp (push_defer d) s (fun _ s' => moved s s' F (d :: defers s) (metas s)).
  Proof.
    intros H P K. unfold wp, push_defer. split; [|apply set_stacks_ext|reflexivity|reflexivity].
    eapply set_stacks_I; [exact H| |constructor; [exact K|exact (i_defers _ _ H)]|exact (i_metas _ _ H)].
    intros i. unfold stack. cbn [flat_map]. rewrite !cnt_app, P, !cnt_app. lia.
  Qed.
  Lemma push_meta_S m s L F : I s L -> (forall i, cnt i L = cnt i (m_refs m ++ F)) -> m_ok s m -> wp (push_meta m) s (fun _ s' => moved s s' F (defers s) (m :: metas s)).
  Proof.
    intros H P K. unfold wp, push_meta. split; [|apply set_stacks_ext|reflexivity|reflexivity].
    eapply set_stacks_I; [exact H| |exact (i_defers _ _ H)|constructor; [exact K|exact (i_metas _ _ H)]].
    intros i. unfold stack. cbn [flat_map]. rewrite !cnt_app, P, !cnt_app. lia.
  Qed.
  Lemma pop_defer_S s F d l : I s F -> defers s = d :: l ->
    wp pop_defer s (fun r s' => r = Some d /\ moved s s' (d_refs d ++ F) l (metas s) /\ match d with Separator => True | Deferred u p => np s' u /\ full s' p end).
  Proof.
    intros H E. unfold wp, pop_defer. rewrite E. pose proof (i_defers _ _ H) as D. rewrite E in D. inversion D as [|? ? D1 D2]; subst.
    split; [reflexivity|]. split; [split; [|apply set_stacks_ext|reflexivity|reflexivity]|].
    - eapply set_stacks_I; [exact H| |exact D2|exact (i_metas _ _ H)]. intros i. unfold stack. rewrite E. cbn [flat_map]. rewrite !cnt_app. lia.
    - destruct d as [|u p]; [exact Logic.I|]. destruct D1 as [D1 D3].
      assert (Lv : forall i, In i [u; p] -> (i < next s)%nat). { intros i Hi. eapply live_old; [exact H|]. eapply I_stack_live; [exact H|]. unfold stack. rewrite E. apply in_or_app. left. cbn [flat_map d_refs]. apply in_or_app. now left. }
      split; split; cbn; auto; apply Lv; cbn; auto.
  Qed.
  Lemma pop_meta_S s F m l : I s F -> metas s = m :: l ->
    wp pop_meta s (fun r s' => r = Some m /\ moved s s' (m_refs m ++ F) (defers s) l /\ np s' (m_uri m) /\ np s' (m_x509 m) /\ np s' (m_resources m)).
  Proof.
    intros H E. unfold wp, pop_meta. rewrite E. pose proof (i_metas _ _ H) as D. rewrite E in D. inversion D as [|? ? D1 D2]; subst.
    split; [reflexivity|]. split; [split; [|apply set_stacks_ext|reflexivity|reflexivity]|].
    - eapply set_stacks_I; [exact H| |exact (i_defers _ _ H)|exact D2]. intros i. unfold stack. rewrite E. cbn [flat_map]. rewrite !cnt_app. lia.
    - destruct D1 as (X & Y & Z).
      assert (Lv : forall i, In i (m_refs m) -> (i < next s)%nat). { intros i Hi. eapply live_old; [exact H|]. eapply I_stack_live; [exact H|]. unfold stack. rewrite E. apply in_or_app. right. cbn [flat_map]. apply in_or_app. now left. }
      split; [split; [exact X|apply Lv; cbn; auto]|]. split; [split; [exact Y|apply Lv; cbn; auto]|split; [exact Z|apply Lv; cbn; auto]].
  Qed.

  Lemma defer_destroy_S d s F : I s (d_refs d ++ F) -> (match d with Separator => True | Deferred u p => np s u /\ full s p end) -> wp (defer_destroy d) s (fun _ s' => step s s' F).
  Proof.
    intros H P. destruct d as [|u p]; cbn [defer_destroy d_refs] in *; [apply wp_ret, step_refl, H|]. destruct P as [P1 P2]. pose proof (step_refl _ _ H) as St.
    run (put_S (p :: F) u); [held|exact P1|]. intros _ s1 X. adv X. last (rpp_refput_S F p); [held|now apply full_pt|]. intros _ s2 X. now adv X.
  Qed.
  Lemma x509stack_pop_S s F m l : I s F -> metas s = m :: l -> wp x509stack_pop s (fun _ s' => moved s s' F (defers s) l).
  Proof.
    intros H E. unfold x509stack_pop. run (pop_meta_S s F m l H E). intros r s1 (-> & V & N1 & N2 & N3).
    pose proof (step_refl _ _ (v_I _ _ _ _ _ V)) as St. cbn [m_refs app] in St.
    run (put_S (m_uri m :: m_resources m :: F) (m_x509 m)); [held|exact N2|]. intros _ s2 X. adv X. unfold meta_destroy.
    run (put_S (m_resources m :: F) (m_uri m)); [held|exact N1|]. intros _ s3 X. adv X.
    last (put_S F (m_resources m)); [held|exact N3|]. intros _ s4 X. adv X. eapply moved_step; eassumption.
  Qed.

  Definition balanced (s : st) : Prop := separators (defers s) = length (metas s).

  Lemma pop_loop_S n : forall s F, I s F -> balanced s -> (length (defers s) < n)%nat ->
    wp (pop_loop n) s (fun r s' => ext s s' /\ balanced s' /\ match r with None => I s' F /\ defers s' = [] | Some (u, p) => I s' (u :: p :: F) /\ np s' u /\ full s' p end).
  Proof.
    induction n as [|n IH]; intros s F H B Hn; [lia|]. cbn [pop_loop]. destruct (defers s) as [|d l] eqn:E.
    - apply wp_bnd. unfold wp at 1, pop_defer. rewrite E. apply wp_ret. split; [apply ext_refl|]. auto.
    - run (pop_defer_S s F d l H E). intros r s1 (-> & V & P). destruct V as [V1 V2 V3 V4]. destruct d as [|u p].
      + destruct (metas s1) as [|m ms] eqn:Em. { unfold balanced in B. rewrite E in B. rewrite <- V4 in B. cbn in B. discriminate B. }
        run (x509stack_pop_S s1 F m ms V1 Em). intros _ s2 [W1 W2 W3 W4].
        last (IH s2 F W1).
        * unfold balanced in *. rewrite W3, W4, V3. rewrite E, <- V4 in B. unfold separators in *. cbn in B. lia.
        * rewrite W3, V3. cbn in Hn. lia.
        * intros r s3 (X & Y). split; [exact (ext_trans _ _ _ V2 (ext_trans _ _ _ W2 X))|exact Y].
      + destruct P as [P1 P2]. pose proof (step_refl _ _ V1) as St. cbn [d_refs app] in St.
        run (get_S s1 (u :: p :: F)); [held|live|]. intros _ s2 X. adv X.
        run (get_S s2 (u :: u :: p :: F)); [held|live|]. intros _ s3 X. adv X.
        run (defer_destroy_S (Deferred u p) s3 (u :: p :: F)); [cbn [d_refs app]; eapply hold; [exact St|perm]|split; assumption|]. intros _ s4 X. adv X.
        apply wp_ret. destruct St as [S1 S2 [S3 S4]]. split; [exact (ext_trans _ _ _ V2 S2)|]. split; [|auto].
        unfold balanced in *. rewrite S3, S4, V3, V4. rewrite E in B. exact B.
  Qed.
  Lemma deferstack_pop_S s F : I s F -> balanced s ->
    wp deferstack_pop s (fun r s' => ext s s' /\ balanced s' /\ match r with None => I s' F /\ defers s' = [] | Some (u, p) => I s' (u :: p :: F) /\ np s' u /\ full s' p end).
  Proof. intros H B. unfold deferstack_pop. apply (pop_loop_S (S (length (defers s))) s F H B). lia. Qed.

  Lemma x509stack_push_S uri x s F : I s (x :: F) -> In uri F -> np s uri -> np s x ->
    wp (x509stack_push answers uri x) s (fun e s' => if e =? 0 then exists m, moved s s' F (Separator :: defers s) (m :: metas s) else step s s' (x :: F)).
  Proof.
    intros H Hu Nu Nx. unfold x509stack_push. pose proof (step_refl _ _ H) as St.
    run (get_S s (x :: F) uri); [held|live|]. intros _ s1 X. adv X.
    run (create_S s1 (uri :: x :: F) false); [held|]. intros r s2 (X & Nr). adv X.
    run (ask_S answers s2 _ (t_I _ _ _ St)). intros e s3 X. adv X.
    assert (Bad : forall s4 e, (e =? 0) = false -> step s s4 (r :: uri :: x :: F) -> np s4 r -> np s4 uri -> 
      wp (put r;; put uri;; ret e) s4 (fun e s' => if e =? 0 then exists m, moved s s' F (Separator :: defers s) (m :: metas s) else step s s' (x :: F))).
    { intros s4 e' He S4 A B. clear St. rename S4 into St. run (put_S (uri :: x :: F) r); [held|exact A|]. intros _ s5 X. adv X. run (put_S (x :: F) uri); [held|exact B|]. intros _ s6 X. adv X.
      apply wp_ret. rewrite He. exact St. }
    destruct (e =? 0) eqn:Ee; cbn [negb]; [|now apply Bad].
    run (ask_S answers s3 _ (t_I _ _ _ St)). intros p s4 X. adv X.
    destruct (p =? 0) eqn:Ep; cbn [negb]; [|now apply Bad].
    apply wp_bnd. eapply wp_mono; [apply (push_defer_S Separator s4 _ (r :: uri :: x :: F) (t_I _ _ _ St)); [reflexivity|exact Logic.I]|]. cbv beta. intros _ s5 V.
    pose proof (v_ext _ _ _ _ _ V) as E5. up s4 E5.
    apply wp_bnd. eapply wp_mono; [apply (push_meta_S {| m_uri := uri; m_x509 := x; m_resources := r |} s5 _ F (v_I _ _ _ _ _ V)); [cbn [m_refs m_uri m_x509 m_resources app]; perm|]|].
    { destruct Nu, Nx, Nr. repeat split; assumption. }
    cbv beta. intros _ s6 W. apply wp_ret. cbn. exists {| m_uri := uri; m_x509 := x; m_resources := r |}. pose proof (step_moved _ _ _ _ _ _ _ St (moved_trans _ _ _ _ _ _ _ _ _ V W)) as Y. destruct Y as [Y1 Y2 Y3 Y4].
    split; auto; [rewrite Y3, (v_d _ _ _ _ _ V)|rewrite Y4, (v_m _ _ _ _ _ V)]; destruct (t_same _ _ _ St); congruence.
  Qed.
  Lemma x509stack_cancel_S s F m l d : I s F -> metas s = m :: l -> defers s = Separator :: d -> wp x509stack_cancel s (fun _ s' => moved s s' F d l).
  Proof.
    intros H E D. unfold x509stack_cancel. run (x509stack_pop_S s F m l H E). intros _ s1 [V1 V2 V3 V4].
    run (pop_defer_S s1 F Separator d V1). { congruence. } intros r s2 (-> & [W1 W2 W3 W4] & _). apply wp_ret. split; [exact W1|exact (ext_trans _ _ _ V2 W2)|exact W3|congruence].
  Qed.

  Lemma destroy_defers_S n : forall s F, I s F -> (length (defers s) <= n)%nat -> wp (destroy_defers n) s (fun _ s' => moved s s' F [] (metas s)).
  Proof.
    induction n as [|n IH]; intros s F H Hn; cbn [destroy_defers].
    - apply wp_ret. split; [exact H|apply ext_refl| |reflexivity]. destruct (defers s); [reflexivity|cbn in Hn; lia].
    - destruct (defers s) as [|d l] eqn:E.
      + apply wp_bnd. unfold wp at 1, pop_defer. rewrite E. apply wp_ret. split; [exact H|apply ext_refl|exact E|reflexivity].
      + run (pop_defer_S s F d l H E). intros r s1 (-> & V & P).
        run (defer_destroy_S d s1 F); [exact (v_I _ _ _ _ _ V)|exact P|]. intros _ s2 X.
        pose proof (moved_step _ _ _ _ _ _ _ V X) as W. destruct W as [W1 W2 W3 W4].
        last (IH s2 F W1). { rewrite W3. cbn in Hn. lia. } intros _ s3 [Y1 Y2 Y3 Y4]. split; auto; [exact (ext_trans _ _ _ W2 Y2)|congruence].
  Qed.
  Lemma destroy_metas_S n : forall s F, I s F -> (length (metas s) <= n)%nat -> wp (destroy_metas n) s (fun _ s' => moved s s' F (defers s) []).
  Proof.
    induction n as [|n IH]; intros s F H Hn; cbn [destroy_metas].
    - apply wp_ret. split; [exact H|apply ext_refl|reflexivity|]. destruct (metas s); [reflexivity|cbn in Hn; lia].
    - destruct (metas s) as [|m l] eqn:E.
      + apply wp_bnd. unfold wp at 1, pop_meta. rewrite E. apply wp_ret. split; [exact H|apply ext_refl|reflexivity|exact E].
      + run (pop_meta_S s F m l H E). intros r s1 (-> & V & N1 & N2 & N3).
        pose proof (step_refl _ _ (v_I _ _ _ _ _ V)) as St. cbn [m_refs app] in St.
        run (put_S (m_uri m :: m_resources m :: F) (m_x509 m)); [held|exact N2|]. intros _ s2 X. adv X. unfold meta_destroy. apply wp_bnd.
        run (put_S (m_resources m :: F) (m_uri m)); [held|exact N1|]. intros _ s3 X. adv X.
        last (put_S F (m_resources m)); [held|exact N3|]. intros _ s4 X. adv X.
        pose proof (moved_step _ _ _ _ _ _ _ V St) as W. destruct W as [W1 W2 W3 W4].
        last (IH s4 F W1). { rewrite W4. cbn in Hn. lia. } intros _ s5 [Y1 Y2 Y3 Y4]. split; auto; [exact (ext_trans _ _ _ W2 Y2)|congruence].
  Qed.
  Lemma certstack_destroy_S s F : I s F -> wp certstack_destroy s (fun _ s' => moved s s' F [] []).
  Proof.
    intros H. unfold certstack_destroy. change (wp (destroy_defers (length (defers s));; destroy_metas (length (metas s))) s (fun _ s' => moved s s' F [] [])).
    run (destroy_defers_S (length (defers s)) s F H). { lia. } intros _ s1 [V1 V2 V3 V4]. last (destroy_metas_S (length (metas s)) s1 F V1). { rewrite V4. lia. }
    intros _ s2 [W1 W2 W3 W4]. split; auto; [exact (ext_trans _ _ _ V2 W2)|congruence].
  Qed.

  Lemma separators_deferred u p l : separators (Deferred u p :: l) = separators l.
  Proof. reflexivity. Qed.
  Lemma each_defer_S l pp : forall s F, I s F -> full s pp -> In pp F -> (forall u, In u l -> kid s pp u) -> balanced s ->
    wp (each (fun u => deferstack_push u pp) l) s (fun _ s' => I s' F /\ ext s s' /\ balanced s').
  Proof.
    induction l as [|u l IH]; intros s F H P Hp K B; cbn [each]; [apply wp_ret; split; [exact H|split; [apply ext_refl|exact B]]|].
    apply wp_bnd. unfold deferstack_push. pose proof (step_refl _ _ H) as St. pose proof (K u (or_introl eq_refl)) as Ku.
    run (get_S s F u); [held|kidlive|]. intros _ s1 X. assert (K1 : forall v, In v l -> kid s1 pp v) by (intros v Hv; eapply kid_ext; [exact (t_ext _ _ _ X)|apply K; now right]). adv X.
    run (get_S s1 (u :: F) pp); [held|live|]. intros _ s2 X. assert (K2 : forall v, In v l -> kid s2 pp v) by (intros v Hv; eapply kid_ext; [exact (t_ext _ _ _ X)|now apply K1]). adv X.
    eapply wp_mono; [apply (push_defer_S (Deferred u pp) s2 _ F (t_I _ _ _ St)); [cbn [d_refs app]; perm|]|].
    { split; [exact (proj1 (kid_np _ _ _ _ (t_I _ _ _ St) Ku))|exact (proj1 P)]. }
    cbv beta. intros _ s3 V. pose proof (step_moved _ _ _ _ _ _ _ St V) as W. destruct V as [V1 V2 V3 V4]. up s2 V2.
    last (IH s3 F V1 P Hp).
    - intros v Hv. eapply kid_ext; [exact V2|now apply K2].
    - unfold balanced in *. rewrite V3, V4, separators_deferred. destruct (t_same _ _ _ St) as [-> ->]. exact B.
    - intros _ s4 (X & Y & Z). split; [exact X|]. split; [|exact Z]. eapply ext_trans; [exact (v_ext _ _ _ _ _ W)|exact Y].
  Qed.
  Lemma each_object_S roa l pp : forall s F, I s F -> full s pp -> In pp F -> (forall u, In u l -> kid s pp u) ->
    wp (each (fun u => object_traverse answers roa u pp) l) s (fun _ s' => step s s' F).
  Proof.
    induction l as [|u l IH]; intros s F H P Hp K; cbn [each]; [now apply wp_ret, step_refl|].
    pose proof (step_refl _ _ H) as St. run (object_traverse_S answers roa u pp s F); auto. { apply K. now left. }
    intros _ s1 X. pose proof (t_ext _ _ _ X) as E1. adv X. last (IH s1 F (t_I _ _ _ St) P Hp). { intros v Hv. eapply kid_ext; [exact E1|apply K; now right]. }
    intros _ s2 X. now adv X.
  Qed.
  Lemma rpp_traverse_S pp s F : I s F -> full s pp -> In pp F -> balanced s -> wp (rpp_traverse answers pp) s (fun _ s' => I s' F /\ ext s s' /\ balanced s').
  Proof.
    intros H P Hp B. unfold rpp_traverse. pose proof (step_refl _ _ H) as St. run (get_kids_S s pp); [live|]. intros k s1 (-> & ->). clear St.
    run (each_defer_S (rev (of_kind KCert (kids s pp))) pp s F H P Hp); [intros u Hu; apply in_rev in Hu; now apply of_kind_kid in Hu|exact B|].
    intros _ s1 (H1 & E1 & B1). pose proof (full_ext _ _ _ E1 P) as P1. pose proof (step_refl _ _ H1) as St.
    run (each_object_S true (of_kind KRoa (kids s pp)) pp s1 F H1 P1 Hp). { intros u Hu. eapply kid_ext; [exact E1|]. now apply of_kind_kid in Hu. }
    intros _ s2 X. pose proof (t_ext _ _ _ X) as E2. adv X.
    last (each_object_S false (of_kind KGbr (kids s pp)) pp s2 F (t_I _ _ _ St) P1 Hp). { intros u Hu. eapply kid_ext; [exact E2|]. eapply kid_ext; [exact E1|]. now apply of_kind_kid in Hu. }
    intros _ s3 X. adv X. destruct St as [S1 S2 [S3 S4]]. split; [exact S1|]. split; [exact (ext_trans _ _ _ E1 S2)|]. unfold balanced in *. now rewrite S3, S4.
  Qed.

  Lemma certificate_traverse_S parent uri s F : I s F -> In uri F -> np s uri -> (forall pp, parent = Some pp -> full s pp) -> (forall pp, parent = Some pp -> In pp F) -> balanced s ->
    wp (certificate_traverse answers max_cert_depth parent uri) s (fun _ s' => I s' F /\ ext s s' /\ balanced s').
  Proof.
    intros H Hu Nu P Hp B. unfold certificate_traverse. pose proof (step_refl _ _ H) as St.
    assert (Fin : forall (e : Z) s', step s s' F -> wp (ret e) s' (fun _ s' => I s' F /\ ext s s' /\ balanced s')).
    { intros e s' [S1 S2 [S3 S4]]. apply wp_ret. split; [exact S1|]. split; [exact S2|]. unfold balanced in *. now rewrite S3, S4. }
    apply wp_bnd. unfold wp at 1, depth. destruct (Nat.leb max_cert_depth (length (metas s))); [now apply Fin|].
    run (use_S s uri); [live|]. intros _ s1 ->.
    run (rpp_crl_S answers parent s F H P Hp). intros [e1 crls] s1 (X & C). cbn [fst snd] in *. adv X.
    destruct (negb (e1 =? 0)); [now apply Fin|].
    run (ask_S answers s1 F); [held|]. intros e2 s2 X. apply (crls_ext _ _ _ _ (t_ext _ _ _ X)) in C. adv X. destruct (negb (e2 =? 0)); [now apply Fin|].
    run (create_S s2 F false); [held|]. intros x s3 (X & Nx). apply (crls_ext _ _ _ _ (t_ext _ _ _ X)) in C. adv X.
    run (chain_S answers x parent crls s3 (x :: F)); [held|inn|exact C|intros pp E; right; auto|]. intros e3 s4 X. adv X.
    destruct (negb (e3 =? 0)). { run (put_S F x); [held|exact Nx|]. intros _ s5 X. adv X. now apply Fin. }
    run (ask_S answers s4 (x :: F)); [held|]. intros e4 s5 X. adv X.
    destruct (negb (e4 =? 0)). { run (put_S F x); [held|exact Nx|]. intros _ s6 X. adv X. now apply Fin. }
    run (ask_S answers s5 (x :: F)); [held|]. intros n s6 X. adv X.
    run (handle_extensions_0 answers (match parent with None => false | Some _ => true end) false (Z.to_nat n) s6 (x :: F)); [held|].
    intros [e5 l] s7 (X & Nl & Ol & Gl). adv X. cbn [fst snd] in *. cbn [only] in Ol.
    assert (Z : wp (if negb (e5 =? 0) then ret e5 else refs_validate_ca answers l parent) s7 (fun e s' => step s7 s' (owned l ++ x :: F) /\ (e = 0 -> e5 = 0))).
    { destruct (negb (e5 =? 0)) eqn:E5; [apply wp_ret; split; [exact (step_refl _ _ (t_I _ _ _ St))|auto]|].
      apply Bool.negb_false_iff, Z.eqb_eq in E5. last (refs_validate_ca_S answers l parent s7 _ (t_I _ _ _ St)).
      - intros Hpa. destruct parent; [|contradiction]. now apply Gl.
      - exact Ol.
      - intros c Ec. unfold owned. rewrite Ec. now left.
      - exact P.
      - intros pp Epp. specialize (Hp pp Epp). inn.
      - intros e s' X. auto. }
    run Z. clear Z. intros e6 s8 (X & E65). adv X.
    run (refs_cleanup_S answers l s8 (rpps l ++ opt (mft l) ++ x :: F)); [unfold owned in St; held|exact Nl|]. intros _ s9 X. adv X.
    assert (Bad : forall (e : Z) s', step s s' (rpps l ++ opt (mft l) ++ x :: F) -> nps s' (owned l) -> np s' x -> wp (sia_uris_cleanup l;; put x;; ret e) s' (fun _ s' => I s' F /\ ext s s' /\ balanced s')).
    { intros e s' S' N' M'. clear St. rename S' into St. run (sia_uris_cleanup_S answers l s' (x :: F)); [held|exact N'|]. intros _ s10 X. adv X. run (put_S F x); [held|exact M'|]. intros _ s11 X. adv X. now apply Fin. }
    destruct (negb (e6 =? 0)) eqn:E6; [now apply Bad|]. apply Bool.negb_false_iff, Z.eqb_eq in E6. specialize (E65 E6). destruct (Gl E65) as [_ Gm].
    run (each_use_S (rpps l) s9). { intros u Hur. live. } intros _ s10 ->.
    run (ask_S answers s9 _ (t_I _ _ _ St)). intros d s10 X. adv X.
    destruct (nth_error (rpps l) (Z.to_nat d)) as [dl|] eqn:En; [|now apply Bad]. destruct (mft l) as [m|] eqn:Em; [|contradiction].
    assert (Idl : In dl (rpps l)) by (eapply nth_error_In; exact En).
    assert (Nm : np s10 m). { apply Nl. unfold owned. rewrite Em, !in_app_iff. cbn. auto 10. }
    run (x509stack_push_S uri x s10 (rpps l ++ m :: F)); [held|inn|exact Nu|exact Nx|]. intros e7 s11 X.
    destruct (e7 =? 0) eqn:E7; cbn [negb].
    2:{ adv X. apply Bad; [done_|exact Nl|exact Nx]. }
    destruct X as (mt & V). pose proof (v_ext _ _ _ _ _ V) as E11. up s10 E11. destruct (t_same _ _ _ St) as [Sd Sm].
    assert (E0 : ext s s11) by (eapply ext_trans; [exact (t_ext _ _ _ St)|exact E11]).
    destruct V as [V1 V2 V3 V4]. rewrite Sd in V3. rewrite Sm in V4. clear St. pose proof (step_refl _ _ V1) as St.
    run (ask_S answers s11 _ V1). intros hs s12 X. adv X.
    run (handle_manifest_S answers m (if hs =? 0 then None else Some dl) s12 (rpps l ++ m :: F)); [held|inn|exact Nm|intros q Eq; destruct (hs =? 0); [discriminate Eq|injection Eq as <-; inn]|].
    intros [pp|] s13 X.
    - destruct X as (X & Fp). adv X. destruct (t_same _ _ _ St) as [Td Tm].
      run (rpp_traverse_S pp s13 _ (t_I _ _ _ St) Fp); [inn|unfold balanced in *; rewrite Td, Tm, V3, V4; cbn; rewrite <- B; reflexivity|].
      intros _ s14 (I14 & E14 & B14). assert (E00 : ext s s14) by (eapply ext_trans; [exact E0|eapply ext_trans; [exact (t_ext _ _ _ St)|exact E14]]). up s13 E14. clear St. pose proof (step_refl _ _ I14) as St.
      run (rpp_refput_S (rpps l ++ m :: F) pp); [held|now apply full_pt|]. intros _ s15 X. adv X.
      run (sia_uris_cleanup_S answers l s15 F); [rewrite Em; held|exact Nl|]. intros _ s16 X. adv X. apply wp_ret. destruct St as [S1 S2 [S3 S4]]. split; [exact S1|]. split; [exact (ext_trans _ _ _ E00 S2)|].
      unfold balanced in *. now rewrite S3, S4.
    - adv X. destruct (t_same _ _ _ St) as [Td Tm].
      run (x509stack_cancel_S s13 _ mt (metas s) (defers s) (t_I _ _ _ St)); [congruence|congruence|]. intros _ s14 [W1 W2 W3 W4].
      assert (E00 : ext s s14) by (eapply ext_trans; [exact E0|eapply ext_trans; [exact (t_ext _ _ _ St)|exact W2]]). up s13 W2. clear St. pose proof (step_refl _ _ W1) as St.
      run (sia_uris_cleanup_S answers l s14 F); [rewrite Em; held|exact Nl|]. intros _ s16 X. adv X. apply wp_ret. destruct St as [S1 S2 [S3 S4]]. split; [exact S1|]. split; [exact (ext_trans _ _ _ E00 S2)|].
      unfold balanced in *. rewrite S3, S4, W3, W4. exact B.
  Qed.

  Lemma traverse_deferred_S n : forall s F, I s F -> balanced s -> wp (traverse_deferred answers max_cert_depth n) s (fun _ s' => I s' F /\ ext s s' /\ balanced s').
  Proof.
    induction n as [|n IH]; intros s F H B; cbn [traverse_deferred]; [exact Logic.I|].
    run (deferstack_pop_S s F H B). intros [[u p]|] s1 (E1 & B1 & X).
    2:{ destruct X as [X _]. apply wp_ret. auto. }
    destruct X as (H1 & Nu & Fp).
    run (certificate_traverse_S (Some p) u s1 _ H1); [inn|exact Nu|intros q E; injection E as <-; exact Fp|intros q E; injection E as <-; inn|exact B1|].
    intros _ s2 (H2 & E2 & B2). up s1 E2. pose proof (step_refl _ _ H2) as St.
    run (put_S (p :: F) u); [held|exact Nu|]. intros _ s3 X. adv X. run (rpp_refput_S F p); [held|now apply full_pt|]. intros _ s4 X. adv X.
    destruct St as [S1 S2 [S3 S4]]. last (IH s4 F S1). { unfold balanced in *. now rewrite S3, S4. }
    intros _ s5 (A & Bx & C). split; [exact A|]. split; [|exact C]. eapply ext_trans; [exact E1|]. eapply ext_trans; [exact E2|]. eapply ext_trans; eassumption.
  Qed.

  Lemma handle_tal_uri_S n uri s F : I s F -> In uri F -> np s uri -> balanced s ->
    wp (handle_tal_uri answers max_cert_depth n uri) s (fun _ s' => moved s s' F [] []).
  Proof.
    intros H Hu Nu B. unfold handle_tal_uri. pose proof (step_refl _ _ H) as St. run (use_S s uri); [live|]. intros _ s1 ->.
    run (ask_S answers s F H). intros c s1 X. adv X. destruct (t_same _ _ _ St) as [Sd Sm].
    assert (B1 : balanced s1) by (unfold balanced in *; congruence).
    assert (Z : wp (if negb (c =? 0) then ret 22 else e <- certificate_traverse answers max_cert_depth None uri;; if negb (e =? 0) then ret e else traverse_deferred answers max_cert_depth n;; ret 0) s1
      (fun _ s' => I s' F /\ ext s1 s')).
    { destruct (negb (c =? 0)); [apply wp_ret; split; [exact (t_I _ _ _ St)|apply ext_refl]|].
      run (certificate_traverse_S None uri s1 F (t_I _ _ _ St) Hu Nu); [intros ? E; discriminate E|intros ? E; discriminate E|exact B1|].
      intros e s2 (H2 & E2 & B2). destruct (negb (e =? 0)); [now apply wp_ret|]. run (traverse_deferred_S n s2 F H2 B2). intros _ s3 (H3 & E3 & _). apply wp_ret. split; [exact H3|eapply ext_trans; eassumption]. }
    run Z. clear Z. intros e s2 (H2 & E2). run (certstack_destroy_S s2 F H2). intros _ s3 [V1 V2 V3 V4]. apply wp_ret. split; auto.
    eapply ext_trans; [exact (t_ext _ _ _ St)|]. eapply ext_trans; eassumption.
  Qed.
End S.

(** Before: everything is somebody else's. *)
Fixpoint others (f : nat -> nat) (n : nat) : list nat := match n with O => [] | S n => repeat n (f n) ++ others f n end.
Lemma cnt_repeat i x k : cnt i (repeat x k) = if Nat.eqb i x then k else O.
Proof. induction k; cbn; [now destruct (i =? x)%nat|]. rewrite IHk. unfold one. now destruct (i =? x)%nat. Qed.
Lemma cnt_others f n i : cnt i (others f n) = if Nat.ltb i n then f i else O.
Proof.
  induction n as [|n IH]; cbn [others]; [reflexivity|]. rewrite cnt_app, cnt_repeat, IH.
  destruct (Nat.eqb_spec i n), (Nat.ltb_spec i n), (Nat.ltb_spec i (S n)); subst; lia.
Qed.
Lemma before_I s : before s -> I s (others (refs s) (next s)).
Proof.
  intros (A & B & C & D). assert (Z : forall i n, sum (mine s i) n = O).
  { intros i n. induction n; cbn; [reflexivity|]. rewrite IHn. unfold mine. destruct (C n) as [_ ->]. cbn. now destruct (_ =? _)%nat. }
  split.
  - intros i. rewrite Z. unfold stack. rewrite A, B. cbn [flat_map app]. rewrite cnt_others. destruct (Nat.ltb_spec i (next s)); [lia|]. rewrite D by assumption. reflexivity.
  - intros p Hp. split; [now apply D|apply C].
  - intros p k. destruct (C p) as [_ ->]. intros [].
  - rewrite A. constructor.
  - rewrite B. constructor.
Qed.
Lemma moved_after s s' f n : (forall i, (i < n)%nat -> f i = refs s i) -> next s = n -> moved s s' (others f n) [] [] -> (forall p, (p < n)%nat -> point s p = false) ->
  forall i, refs s' i = if Nat.ltb i n then refs s i else O.
Proof.
  intros Hf Hn [A B C D] P0 i.
  assert (P : forall p, refs s' p <> O -> point s' p = false).
  { intros p Hp. destruct (point s' p) eqn:Ep; [|reflexivity]. exfalso. apply Hp. rewrite (i_refs _ _ A). unfold stack. rewrite C, D. cbn [flat_map app]. rewrite cnt_others.
    assert (Z : forall m, sum (mine s' p) m = O).
    { intros m. induction m; cbn; [reflexivity|]. rewrite IHm. unfold mine. destruct (_ =? _)%nat; [reflexivity|]. cbn.
      assert (Y : forall k, In k (kids s' m) -> snd k <> p). { intros k Hk Ek. destruct (i_kids _ _ A m k Hk) as (_ & W & _). rewrite Ek in W. congruence. }
      induction (kids s' m) as [|k l IHl]; [reflexivity|]. cbn. rewrite one_other; [|intros Ek; apply (Y k); [now left|now symmetry]]. apply IHl. intros k' Hk'. apply Y. now right. }
    rewrite Z. destruct (Nat.ltb_spec p n); [|reflexivity]. rewrite (e_point _ _ B) in Ep by lia. rewrite P0 in Ep by assumption. discriminate Ep. }
  rewrite (i_refs _ _ A). unfold stack. rewrite C, D. cbn [flat_map app]. rewrite cnt_others.
  assert (Z : forall m, sum (mine s' i) m = O).
  { intros m. induction m; cbn; [reflexivity|]. rewrite IHm. unfold mine. destruct (Nat.eqb_spec (refs s' m) 0) as [_|Hm]; [reflexivity|].
    destruct (kids s' m) as [|k l] eqn:Ek; [reflexivity|]. destruct (i_kids _ _ A m k) as (Pm & _); [rewrite Ek; now left|]. rewrite (P m Hm) in Pm. discriminate Pm. }
  rewrite Z. destruct (Nat.ltb_spec i n); [|reflexivity]. rewrite Hf by assumption. lia.
Qed.
