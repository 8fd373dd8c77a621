From Verif Require Import Base Refs RefsSpec RefsProofs.
Notation length := List.length.

(** Facts that no step undoes. *)
Definition np (s : st) (i : nat) : Prop := point s i = false /\ (i < next s)%nat.
Definition pt (s : st) (p : nat) : Prop := point s p = true /\ (p < next s)%nat.
Definition nps (s : st) (l : list nat) : Prop := forall i, In i l -> np s i.
Definition full (s : st) (p : nat) : Prop := complete s p /\ (p < next s)%nat.
Definition kid (s : st) (p i : nat) : Prop := exists k, In (k, i) (kids s p).
Lemma np_ext s s' i : ext s s' -> np s i -> np s' i.
Proof. intros [A B C] [X Y]. split; [now rewrite B|lia]. Qed.
Lemma pt_ext s s' i : ext s s' -> pt s i -> pt s' i.
Proof. intros [A B C] [X Y]. split; [now rewrite B|lia]. Qed.
Lemma nps_ext s s' l : ext s s' -> nps s l -> nps s' l.
Proof. intros E H i Hi. eapply np_ext; [exact E|now apply H]. Qed.
Lemma full_ext s s' p : ext s s' -> full s p -> full s' p.
Proof.
  intros [A B C] [[X Z] Y]. split; [|lia]. split; [now rewrite B|]. destruct (C p) as (l & ->). unfold of_kind in *.
  rewrite filter_app, map_app. destruct (map snd _); [contradiction|discriminate].
Qed.
Lemma kid_ext s s' p i : ext s s' -> kid s p i -> kid s' p i.
Proof. intros [A B C] (k & H). exists k. destruct (C p) as (l & ->). apply in_or_app. now left. Qed.
Lemma kid_live s L p i : I s L -> In p L -> kid s p i -> refs s i <> O.
Proof. intros H Hp (k & Hk). eapply I_kid_live; [exact H|eapply I_live; eassumption|]. apply (in_map snd) in Hk. exact Hk. Qed.
Lemma kid_np s L p i : I s L -> kid s p i -> np s i.
Proof. intros H (k & Hk). destruct (i_kids _ _ H _ _ Hk) as (_ & X & Y). split; assumption. Qed.
Lemma nps_nil s : nps s [].
Proof. intros i []. Qed.
Lemma nps_cons s i l : np s i -> nps s l -> nps s (i :: l).
Proof. intros A B j [<-|Hj]; auto. Qed.
Lemma nps_app s a b : nps s a -> nps s b -> nps s (a ++ b).
Proof. intros A B j Hj. apply in_app_or in Hj. destruct Hj; auto. Qed.
Lemma nps_l s a b : nps s (a ++ b) -> nps s a.
Proof. intros A j Hj. apply A, in_or_app. now left. Qed.
Lemma nps_r s a b : nps s (a ++ b) -> nps s b.
Proof. intros A j Hj. apply A, in_or_app. now right. Qed.
Lemma of_kind_kid k l i : In i (of_kind k l) -> exists k', In (k', i) l.
Proof. unfold of_kind. rewrite in_map_iff. intros ((k' & j) & <- & H). apply filter_In in H. exists k'. exact (proj1 H). Qed.

Record step (s s' : st) (L : list nat) : Prop := { t_I : I s' L; t_ext : ext s s'; t_same : same s s' }.
Lemma step_refl s L : I s L -> step s s L.
Proof. intros H. split; [exact H|apply ext_refl|apply same_refl]. Qed.
Lemma step_trans s s1 s2 L1 L2 : step s s1 L1 -> step s1 s2 L2 -> step s s2 L2.
Proof. intros [A1 A2 A3] [B1 B2 B3]. split; [exact B1|eapply ext_trans; eassumption|eapply same_trans; eassumption]. Qed.
Lemma step_perm s s' L L' : step s s' L -> (forall i, cnt i L = cnt i L') -> step s s' L'.
Proof. intros [A B C] H. split; [eapply I_perm; eassumption|exact B|exact C]. Qed.
Lemma hold s s' L L' : step s s' L -> (forall i, cnt i L = cnt i L') -> I s' L'.
Proof. intros [A B C] H. eapply I_perm; eassumption. Qed.

Ltac up s E :=
  repeat match goal with
  | H : np s _ |- _ => apply (np_ext _ _ _ E) in H
  | H : pt s _ |- _ => apply (pt_ext _ _ _ E) in H
  | H : nps s _ |- _ => apply (nps_ext _ _ _ E) in H
  | H : full s _ |- _ => apply (full_ext _ _ _ E) in H
  | H : kid s _ _ |- _ => apply (kid_ext _ _ _ _ E) in H
  | H : forall c, _ = Some c -> kid s _ _ |- _ => let H' := fresh in pose proof (fun c X => kid_ext _ _ _ _ E (H c X)) as H'; clear H; cbv beta in H'; rename H' into H
  | H : forall u, _ = Some u -> np s _ |- _ => let H' := fresh in pose proof (fun c X => np_ext _ _ _ E (H c X)) as H'; clear H; cbv beta in H'; rename H' into H
  | H : forall u, _ = Some u -> full s _ |- _ => let H' := fresh in pose proof (fun c X => full_ext _ _ _ E (H c X)) as H'; clear H; cbv beta in H'; rename H' into H
  end.
(** [X]: step s1 s2 L2, after [St]: step s s1 L1. *)
Ltac adv X := cbv beta in X;
  match type of X with step ?s1 ?s2 _ =>
    match goal with St : step ?s0 s1 _ |- _ =>
      let E := fresh in pose proof (t_ext _ _ _ X) as E; up s1 E; clear E;
      let N := fresh in pose proof (step_trans _ _ _ _ _ St X) as N; clear X; clear St; rename N into St
    end
  end.
Tactic Notation "run" uconstr(t) := apply wp_bnd; eapply wp_mono; [apply t|cbv beta].
Tactic Notation "last" uconstr(t) := eapply wp_mono; [apply t|cbv beta].
Ltac inn := repeat (progress (cbn [In opt app]; rewrite ?in_app_iff)); tauto.
Ltac held := match goal with St : step _ ?s _ |- I ?s _ => first [exact (t_I _ _ _ St) | eapply hold; [exact St|perm]] end.
Ltac live := match goal with St : step _ ?s _ |- refs ?s _ <> O => eapply I_live; [exact (t_I _ _ _ St)|inn] end.
Ltac done_ := match goal with St : step _ ?s _ |- step _ ?s _ => eapply step_perm; [exact St|perm] end.

(** The operations again. *)
Lemma use_S s i : refs s i <> O -> wp (use i) s (fun _ s' => s' = s).
Proof. intros Hi. unfold wp, use. destruct (Nat.eqb_spec (refs s i) 0); [contradiction|reflexivity]. Qed.
Lemma get_S s L i : I s L -> refs s i <> O -> wp (get i) s (fun _ s' => step s s' (i :: L)).
Proof. intros H Hi. eapply wp_mono; [eapply get_ok; eassumption|]. intros _ s' (A & B & C). now split. Qed.
Lemma put_S L i s : I s (i :: L) -> np s i -> wp (put i) s (fun _ s' => step s s' L).
Proof. intros H [Hi _]. eapply wp_mono; [eapply put_ok; eassumption|]. intros _ s' (A & B & C). now split. Qed.
Lemma create_S s L p : I s L -> wp (create p) s (fun i s' => step s s' (i :: L) /\ (if p then pt s' i else np s' i)).
Proof.
  intros H. eapply wp_mono; [eapply create_ok; eassumption|]. intros i s' (A & B & C & D & _ & E). split; [now split|]. destruct p; now split.
Qed.
Lemma put_all_S L l s : I s (l ++ L) -> nps s l -> wp (put_all l) s (fun _ s' => step s s' L).
Proof. intros H P. eapply wp_mono; [eapply put_all_ok; [exact H|]|]. { intros i Hi. exact (proj1 (P i Hi)). } intros _ s' (A & B & C). now split. Qed.
Lemma get_kids_S s p : refs s p <> O -> wp (get_kids p) s (fun k s' => s' = s /\ k = kids s p).
Proof. intros Hp. unfold wp, get_kids. destruct (Nat.eqb_spec (refs s p) 0); [contradiction|auto]. Qed.
Lemma add_kid_S L p k u s : I s (u :: L) -> np s u -> pt s p -> In p L ->
  wp (add_kid p k u) s (fun _ s' => step s s' L /\ In (k, u) (kids s' p)).
Proof.
  intros H [Hu _] [Hp _] Hi. eapply wp_mono; [eapply (add_kid_ok s L); try eassumption; eapply I_live; [exact H|now right]|].
  intros _ s' (A & B & C & D & _). split; [now split|]. rewrite D. apply in_or_app. right. now left.
Qed.
Lemma rpp_refput_S L p s : I s (p :: L) -> pt s p -> wp (rpp_refput p) s (fun _ s' => step s s' L).
Proof. intros H [Hp _]. eapply wp_mono; [eapply rpp_refput_ok; eassumption|]. intros _ s' (A & B & C). now split. Qed.
Lemma full_pt s p : full s p -> pt s p.
Proof. intros [[A _] B]. now split. Qed.

Section S.
  Variable answers : nat -> Z.
  Notation ask := (ask answers).

  Lemma ask_S s L : I s L -> wp ask s (fun _ s' => step s s' L).
  Proof.
    intros [A B C D E]. unfold wp, Refs.ask. split.
    - split; auto.
    - split; auto. intros p. exists []. now rewrite app_nil_r.
    - split; reflexivity.
  Qed.

  Lemma handle_ad_S required n : forall found s F, I s (opt found ++ F) -> nps s (opt found) ->
    wp (handle_ad answers required n found) s (fun x s' => step s s' (opt (snd x) ++ F) /\ nps s' (opt (snd x)) /\ (fst x = 0 -> required = true -> snd x <> None)).
  Proof.
    induction n as [|n IH]; intros found s F H P; cbn [handle_ad]; pose proof (step_refl _ _ H) as St.
    - apply wp_ret. cbn [fst snd]. split; [done_|]. split; [exact P|]. intros E -> ->. discriminate E.
    - run (ask_S s _ ltac:(held)). intros k s1 X. adv X.
      destruct ((k =? 0) || (k =? 1)).
      { last (IH _ _ F); [held|exact P|]. intros x s2 (X & Y & Z). adv X. auto. }
      destruct (k =? 2). { apply wp_ret. cbn [fst snd]. split; [done_|]. split; [exact P|]. discriminate. }
      run (create_S s1 _ false ltac:(held)). intros u s2 (X & Nu). adv X.
      destruct found as [f|].
      + run (put_S (f :: F) u); [held|exact Nu|]. intros _ s3 X. adv X. apply wp_ret. cbn [fst snd]. split; [done_|]. split; [exact P|]. discriminate.
      + run (get_S s2 (u :: F)); [held|live|]. intros _ s3 X. adv X.
        run (put_S (u :: F) u); [held|exact Nu|]. intros _ s4 X. adv X.
        last (IH _ _ F); [held|apply nps_cons; [exact Nu|apply nps_nil]|]. intros x s5 (X & Y & Z). adv X. auto.
  Qed.

  Definition owned (l : slots) : list nat := opt (crldp l) ++ opt (caIssuers l) ++ opt (signedObject l) ++ rpps l ++ opt (mft l).
  Definition unset (l : slots) : Prop :=
    (f_cdp l = false -> crldp l = None) /\ (f_aia l = false -> caIssuers l = None) /\ (f_sia l = false -> signedObject l = None /\ rpps l = [] /\ mft l = None).
  Definition set (ee : bool) (l : slots) : Prop :=
    (f_cdp l = true -> crldp l <> None) /\ (f_aia l = true -> caIssuers l <> None) /\ (f_sia l = true -> if ee then signedObject l <> None else mft l <> None).
  Definition only (ee : bool) (l : slots) : Prop := if ee then rpps l = [] /\ mft l = None else signedObject l = None.

  Lemma handle_sia_ca_S l s F : I s (owned l ++ F) -> nps s (owned l) -> rpps l = [] -> mft l = None ->
    wp (handle_sia_ca answers l) s (fun x s' => step s s' (owned (snd x) ++ F) /\ nps s' (owned (snd x)) /\
      (crldp (snd x) = crldp l /\ caIssuers (snd x) = caIssuers l /\ signedObject (snd x) = signedObject l /\ f_cdp (snd x) = f_cdp l /\ f_aia (snd x) = f_aia l /\ f_sia (snd x) = true)
      /\ (fst x = 0 -> mft (snd x) <> None)).
  Proof.
    intros H P R0 M0. unfold handle_sia_ca. pose proof (step_refl _ _ H) as St.
    destruct l as [c a o r m fc fa fs]. cbn in R0, M0. subst r m. unfold owned in *. cbn [crldp caIssuers signedObject rpps mft opt] in *. rewrite !app_nil_r in *.
    set (B := opt c ++ opt a ++ opt o) in *.
    run (ask_S s (B ++ F)); [held|]. intros n1 s1 X. adv X.
    run (handle_ad_S false (Z.to_nat n1) None s1 (B ++ F)); [held|apply nps_nil|]. intros [e1 u1] s2 (X & Y1 & _). adv X. cbn [fst snd] in *.
    destruct (negb (e1 =? 0)) eqn:E1.
    { apply wp_ret. cbn [fst snd set_sia crldp caIssuers signedObject rpps mft f_cdp f_aia f_sia opt]. split; [eapply step_perm; [exact St|unfold B; perm]|].
      split; [rewrite app_nil_r; unfold B in P; pose proof (nps_app _ _ _ P Y1) as Q; rewrite <- !app_assoc in Q; exact Q|]. split; [auto 10|]. intros ->. discriminate E1. }
    run (ask_S s2 (opt u1 ++ B ++ F)); [held|]. intros n2 s3 X. adv X.
    run (handle_ad_S false (Z.to_nat n2) None s3 (opt u1 ++ B ++ F)); [held|apply nps_nil|]. intros [e2 u2] s4 (X & Y2 & _). adv X. cbn [fst snd] in *.
    destruct (negb (e2 =? 0)) eqn:E2.
    { apply wp_ret. cbn [fst snd set_sia crldp caIssuers signedObject rpps mft f_cdp f_aia f_sia opt]. split; [eapply step_perm; [exact St|unfold B; perm]|].
      split; [rewrite app_nil_r; unfold B in P; pose proof (nps_app _ _ _ P (nps_app _ _ _ Y1 Y2)) as Q; rewrite <- !app_assoc in Q; exact Q|]. split; [auto 10|]. intros ->. discriminate E2. }
    run (ask_S s4 (opt u2 ++ opt u1 ++ B ++ F)); [held|]. intros n3 s5 X. adv X.
    run (handle_ad_S true (Z.to_nat n3) None s5 (opt u2 ++ opt u1 ++ B ++ F)); [held|apply nps_nil|]. intros [e3 u3] s6 (X & Y3 & Y4). adv X. cbn [fst snd] in *.
    apply wp_ret. cbn [fst snd set_sia crldp caIssuers signedObject rpps mft f_cdp f_aia f_sia opt]. split; [eapply step_perm; [exact St|unfold B; perm]|].
    split; [unfold B in P; pose proof (nps_app _ _ _ P (nps_app _ _ _ (nps_app _ _ _ Y1 Y2) Y3)) as Q; rewrite <- !app_assoc in *; exact Q|]. split; [auto 10|]. intros E. now apply Y4.
  Qed.

  Lemma handle_extensions_S rt ee n : forall l s F, I s (owned l ++ F) -> nps s (owned l) -> unset l -> set ee l -> only ee l ->
    wp (handle_extensions answers rt ee n l) s (fun x s' => step s s' (owned (snd x) ++ F) /\ nps s' (owned (snd x)) /\ only ee (snd x) /\
      (fst x = 0 -> (rt = true -> crldp (snd x) <> None /\ caIssuers (snd x) <> None) /\ if ee then signedObject (snd x) <> None else mft (snd x) <> None)).
  Proof.
    induction n as [|n IH]; intros l s F H P U T O; cbn [handle_extensions]; pose proof (step_refl _ _ H) as St.
    - run (ask_S s (owned l ++ F)); [held|]. intros e s1 X. adv X. apply wp_ret. cbn [fst snd]. split; [done_|]. split; [exact P|]. split; [exact O|].
      destruct ((rt && negb (f_cdp l && f_aia l) || negb (f_sia l))%bool) eqn:E; [discriminate|]. intros _.
      destruct T as (T1 & T2 & T3). apply Bool.orb_false_iff in E. destruct E as [E1 E2]. apply Bool.negb_false_iff in E2. split; [|exact (T3 E2)].
      intros ->. cbn in E1. apply Bool.negb_false_iff, andb_prop in E1. destruct E1 as [Ea Eb]. split; [exact (T1 Ea)|exact (T2 Eb)].
    - run (ask_S s (owned l ++ F)); [held|]. intros k s1 X. adv X.
      assert (Bad : forall e, e <> 0 -> wp (ret (e, l)) s1 (fun x s' => step s s' (owned (snd x) ++ F) /\ nps s' (owned (snd x)) /\ only ee (snd x) /\
        (fst x = 0 -> (rt = true -> crldp (snd x) <> None /\ caIssuers (snd x) <> None) /\ if ee then signedObject (snd x) <> None else mft (snd x) <> None))).
      { intros e He. apply wp_ret. cbn [fst snd]. split; [done_|]. split; [exact P|]. split; [exact O|]. intros; contradiction. }
      destruct l as [c a o r m fc fa fs]. unfold unset, set, only in *. cbn [crldp caIssuers signedObject rpps mft f_cdp f_aia f_sia] in *.
      destruct U as (U1 & U2 & U3), T as (T1 & T2 & T3).
      destruct ((k =? 0) && rt)%bool.
      { destruct fc; [now apply Bad|]. rewrite (U1 eq_refl) in *. 
        run (ask_S s1 _ ltac:(held)). intros e s2 X. adv X. 
        destruct (negb (e =? 0)) eqn:Ee. { apply wp_ret. cbn [fst snd]. split; [done_|]. split; [exact P|]. split; [exact O|]. intros ->. discriminate Ee. }
        run (create_S s2 _ false ltac:(held)). intros x s3 (X & Nx). adv X.
        last (IH _ s3 F); unfold owned, set_cdp in *; cbn [crldp caIssuers signedObject rpps mft opt f_cdp f_aia f_sia app] in *.
        - held.
        - apply nps_cons; assumption.
        - unfold unset; cbn; repeat split; intros; try discriminate; try (now apply U2); now apply U3.
        - unfold set; cbn; repeat split; auto; try discriminate.
        - exact O.
        - intros y s4 (X & Y). adv X. auto. }
      destruct ((k =? 1) && rt)%bool.
      { destruct fa; [now apply Bad|]. rewrite (U2 eq_refl) in *. 
        run (ask_S s1 _ ltac:(held)). intros e s2 X. adv X. 
        run (handle_ad_S true (Z.to_nat e) None s2 (opt c ++ opt o ++ r ++ opt m ++ F)); [unfold owned in *; cbn [crldp caIssuers signedObject rpps mft opt app] in *; held|apply nps_nil|].
        intros [e1 x] s3 (X & Nx & Gx). adv X. cbn [fst snd] in *.
        assert (Q : nps s3 (opt c ++ opt x ++ opt o ++ r ++ opt m)).
        { unfold owned in P. cbn [crldp caIssuers signedObject rpps mft opt app] in P. pose proof (nps_l _ _ _ P). pose proof (nps_r _ _ _ P). apply nps_app; [assumption|]. now apply nps_app. }
        destruct (negb (e1 =? 0)) eqn:Ee.
        { apply wp_ret. unfold owned, set_aia. cbn [fst snd crldp caIssuers signedObject rpps mft opt f_cdp f_aia f_sia]. split; [done_|]. split; [exact Q|]. split; [exact O|]. intros ->. discriminate Ee. }
        apply Bool.negb_false_iff, Z.eqb_eq in Ee. specialize (Gx Ee eq_refl).
        last (IH _ s3 F); unfold owned, set_aia in *; cbn [crldp caIssuers signedObject rpps mft opt f_cdp f_aia f_sia app] in *.
        - held.
        - exact Q.
        - unfold unset; cbn; repeat split; intros; try discriminate; try (now apply U1); now apply U3.
        - unfold set; cbn; repeat split; auto; try discriminate.
        - exact O.
        - intros y s4 (X & Y). adv X. auto. }
      destruct (k =? 2).
      { destruct fs; [now apply Bad|]. destruct (U3 eq_refl) as (-> & -> & ->). destruct ee.
        - run (ask_S s1 _ ltac:(held)). intros e s2 X. adv X. 
          run (handle_ad_S true (Z.to_nat e) None s2 (opt c ++ opt a ++ F)); [unfold owned in *; cbn [crldp caIssuers signedObject rpps mft opt app] in *; rewrite ?app_nil_r in *; held|apply nps_nil|].
          intros [e1 x] s3 (X & Nx & Gx). adv X. cbn [fst snd] in *.
          assert (Q : nps s3 (opt c ++ opt a ++ opt x ++ [])).
          { unfold owned in P. cbn [crldp caIssuers signedObject rpps mft opt app] in P. rewrite app_nil_r in *. pose proof (nps_l _ _ _ P). pose proof (nps_r _ _ _ P). apply nps_app; [assumption|]. now apply nps_app. }
          destruct (negb (e1 =? 0)) eqn:Ee.
          { apply wp_ret. unfold owned, set_so. cbn [fst snd crldp caIssuers signedObject rpps mft opt f_cdp f_aia f_sia app]. split; [done_|]. split; [exact Q|]. split; [exact O|]. intros ->. discriminate Ee. }
          apply Bool.negb_false_iff, Z.eqb_eq in Ee. specialize (Gx Ee eq_refl).
          last (IH _ s3 F); unfold owned, set_so in *; cbn [crldp caIssuers signedObject rpps mft opt f_cdp f_aia f_sia app] in *.
          + held.
          + exact Q.
          + unfold unset; cbn; repeat split; intros; try discriminate; try (now apply U1); now apply U2.
          + unfold set; cbn; repeat split; auto; try discriminate.
          + exact O.
          + intros y s4 (X & Y). adv X. auto.
        - run (handle_sia_ca_S _ s1 F); [held|exact P|reflexivity|reflexivity|].
          intros [e1 x] s2 (X & Nx & (G1 & G2 & G3 & G4 & G5 & G6) & Gm). adv X. cbn [fst snd crldp caIssuers signedObject rpps mft opt f_cdp f_aia f_sia] in *.
          destruct (negb (e1 =? 0)) eqn:Ee. { apply wp_ret. cbn [fst snd]. split; [done_|]. split; [exact Nx|]. split; [congruence|]. intros ->. discriminate Ee. }
          apply Bool.negb_false_iff, Z.eqb_eq in Ee. specialize (Gm Ee).
          last (IH x s2 F); [held|exact Nx| | | |].
          + unfold unset. rewrite G1, G2, G4, G5, G6. repeat split; intros; try discriminate; try (now apply U1); now apply U2.
          + unfold set. rewrite G1, G2, G4, G5. repeat split; auto.
          + cbn. congruence.
          + intros y s4 (X & Y). adv X. auto. }
      run (ask_S s1 _ ltac:(held)). intros e s2 X. adv X.
      destruct (negb (e =? 0)) eqn:Ee. { apply wp_ret. cbn [fst snd]. split; [done_|]. split; [exact P|]. split; [exact O|]. intros ->. discriminate Ee. }
      last (IH _ s2 F); [held|exact P|unfold unset; cbn; auto|unfold set; cbn; auto|exact O|]. intros y s4 (X & Y). adv X. auto.
  Qed.
  Lemma handle_extensions_0 rt ee n s F : I s F ->
    wp (handle_extensions answers rt ee n no_slots) s (fun x s' => step s s' (owned (snd x) ++ F) /\ nps s' (owned (snd x)) /\ only ee (snd x) /\
      (fst x = 0 -> (rt = true -> crldp (snd x) <> None /\ caIssuers (snd x) <> None) /\ if ee then signedObject (snd x) <> None else mft (snd x) <> None)).
  Proof.
    intros H. apply handle_extensions_S; [exact H|apply nps_nil|unfold unset; cbn; auto|unfold set; cbn; repeat split; discriminate|].
    unfold only. destruct ee; cbn; auto.
  Qed.
End S.
