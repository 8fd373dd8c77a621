From Verif Require Import Base Refs RefsSpec RefsProofs RefsProofs2.
Notation length := List.length.

Ltac kidlive := match goal with St : step _ ?s _ |- refs ?s _ <> O => eapply kid_live; [exact (t_I _ _ _ St)| |eassumption]; inn end.

Section S.
  Variable answers : nat -> Z.
  Notation ask := (ask answers).

  Lemma refs_cleanup_S l s F : I s (opt (crldp l) ++ opt (caIssuers l) ++ opt (signedObject l) ++ F) -> nps s (owned l) -> wp (refs_cleanup l) s (fun _ s' => step s s' F).
  Proof.
    intros H P. unfold refs_cleanup. apply put_all_S; [eapply I_perm; [exact H|perm]|]. unfold owned in P.
    intros i Hi. apply P. rewrite !in_app_iff in *. tauto.
  Qed.
  Lemma sia_uris_cleanup_S l s F : I s (rpps l ++ opt (mft l) ++ F) -> nps s (owned l) -> wp (sia_uris_cleanup l) s (fun _ s' => step s s' F).
  Proof.
    intros H P. unfold sia_uris_cleanup. apply put_all_S; [eapply I_perm; [exact H|perm]|]. unfold owned in P.
    intros i Hi. apply P. rewrite !in_app_iff in *. tauto.
  Qed.

  Lemma crl_kid s p : full s p -> exists u r, of_kind KCrl (kids s p) = u :: r /\ kid s p u.
  Proof.
    intros [[_ H] _]. destruct (of_kind KCrl (kids s p)) as [|u r] eqn:E; [contradiction|]. exists u, r. split; [reflexivity|].
    apply of_kind_kid with (k := KCrl). rewrite E. now left.
  Qed.

  Lemma validate_cdp_S l pp s L : I s L -> crldp l <> None -> (forall c, crldp l = Some c -> In c L) -> full s pp -> In pp L ->
    wp (validate_cdp answers l pp) s (fun _ s' => step s s' L).
  Proof.
    intros H C Cl P Hp. unfold validate_cdp. destruct (crldp l) as [c|]; [|contradiction]. pose proof (step_refl _ _ H) as St. specialize (Cl c eq_refl).
    run (use_S s c); [live|]. intros _ s1 ->. run (get_kids_S s pp); [live|]. intros k s1 (-> & ->).
    destruct (crl_kid _ _ P) as (u & r & -> & K). run (use_S s u); [kidlive|]. intros _ s1 ->. last (ask_S answers s L); [held|]. auto.
  Qed.
  Lemma refs_validate_ee_S l pp uri s L : I s L -> crldp l <> None -> signedObject l <> None -> (forall c, crldp l = Some c -> In c L) ->
    (forall c, signedObject l = Some c -> In c L) -> full s pp -> In pp L -> (In uri L \/ kid s pp uri) ->
    wp (refs_validate_ee answers l pp uri) s (fun _ s' => step s s' L).
  Proof.
    intros H C O Cl Ol P Hp Hu. unfold refs_validate_ee. pose proof (step_refl _ _ H) as St.
    run (validate_cdp_S l pp s L); auto. intros e s1 X. 
    assert (Hu' : In uri L \/ kid s1 pp uri) by (destruct Hu; [now left|right; eapply kid_ext; [exact (t_ext _ _ _ X)|assumption]]). adv X.
    destruct (negb (e =? 0)); [apply wp_ret; exact St|].
    unfold validate_signedObject. destruct (signedObject l) as [o|]; [|contradiction]. specialize (Ol o eq_refl).
    run (use_S s1 o); [live|]. intros _ s2 ->. run (use_S s1 uri); [destruct Hu'; [live|kidlive]|]. intros _ s2 ->.
    last (ask_S answers s1 L); [held|]. intros x s2 X. now adv X.
  Qed.
  Lemma refs_validate_ca_S l parent s L : I s L -> (parent <> None -> crldp l <> None) -> signedObject l = None -> (forall c, crldp l = Some c -> In c L) ->
    (forall pp, parent = Some pp -> full s pp) -> (forall pp, parent = Some pp -> In pp L) ->
    wp (refs_validate_ca answers l parent) s (fun _ s' => step s s' L).
  Proof.
    intros H C O Cl P Hp. unfold refs_validate_ca. pose proof (step_refl _ _ H) as St. destruct parent as [pp|]; [|now apply wp_ret].
    run (validate_cdp_S l pp s L); auto. { apply C. discriminate. } intros e s1 X. adv X. rewrite O. destruct (negb (e =? 0)); now apply wp_ret.
  Qed.

  (** The CRLs can be used while the point is held. *)
  Definition crls_ok (s : st) (parent crls : option nat) : Prop := forall c, crls = Some c -> exists pp, parent = Some pp /\ kid s pp c.
  Lemma crls_ext s s' p c : ext s s' -> crls_ok s p c -> crls_ok s' p c.
  Proof. intros E H x Hx. destruct (H x Hx) as (pp & A & B). exists pp. split; [exact A|eapply kid_ext; eassumption]. Qed.

  Lemma rpp_crl_S parent s L : I s L -> (forall pp, parent = Some pp -> full s pp) -> (forall pp, parent = Some pp -> In pp L) ->
    wp (rpp_crl answers parent) s (fun x s' => step s s' L /\ crls_ok s' parent (snd x)).
  Proof.
    intros H P Hp. unfold rpp_crl. pose proof (step_refl _ _ H) as St. destruct parent as [pp|]; [|apply wp_ret; split; [exact St|intros c Hc; discriminate Hc]].
    specialize (P pp eq_refl). specialize (Hp pp eq_refl).
    run (get_kids_S s pp); [live|]. intros k s1 (-> & ->).
    destruct (crl_kid _ _ P) as (u & r & -> & K).
    destruct (of_kind KStack (kids s pp)) as [|x y] eqn:Ek.
    2:{ apply wp_ret. split; [exact St|]. intros c Hc. injection Hc as <-. exists pp. split; [reflexivity|]. apply of_kind_kid with (k := KStack). rewrite Ek. now left. }
    run (ask_S answers s L); [held|]. intros c s1 X. adv X.
    destruct (negb (c =? 0)); [apply wp_ret; split; [exact St|intros z Hz; discriminate Hz]|].
    run (create_S s1 L false); [held|]. intros sk s2 (X & Nk). adv X.
    run (use_S s2 u); [kidlive|]. intros _ s3 ->.
    run (ask_S answers s2 (sk :: L)); [held|]. intros ld s3 X. adv X.
    destruct (negb (ld =? 0)).
    { run (put_S L sk); [held|exact Nk|]. intros _ s4 X. adv X. apply wp_ret. split; [exact St|intros z Hz; discriminate Hz]. }
    run (create_S s3 (sk :: L) false); [held|]. intros crl s4 (X & Nc). adv X.
    run (ask_S answers s4 (crl :: sk :: L)); [held|]. intros a s5 X. adv X.
    run (ask_S answers s5 (crl :: sk :: L)); [held|]. intros b s6 X. adv X.
    destruct (negb (a =? 0) || negb (b =? 0))%bool.
    { run (put_S (sk :: L) crl); [held|exact Nc|]. intros _ s7 X. adv X. run (put_S L sk); [held|exact Nk|]. intros _ s8 X. adv X. apply wp_ret. split; [exact St|intros z Hz; discriminate Hz]. }
    run (add_kid_S (sk :: L) pp KX509Crl crl); [held|exact Nc|now apply full_pt|inn|]. intros _ s7 (X & _). adv X.
    run (add_kid_S L pp KStack sk); [held|exact Nk|now apply full_pt|inn|]. intros _ s8 (X & Y). adv X.
    apply wp_ret. split; [exact St|]. intros z Hz. injection Hz as <-. exists pp. split; [reflexivity|]. now exists KStack.
  Qed.

  Lemma each_use_S l s : (forall i, In i l -> refs s i <> O) -> wp (each use l) s (fun _ s' => s' = s).
  Proof.
    induction l as [|i l IH]; intros H; cbn [each]; [now apply wp_ret|]. run (use_S s i); [apply H; now left|]. intros _ s1 ->. apply IH. intros j Hj. apply H. now right.
  Qed.
  Lemma chain_S x509 parent crls s L : I s L -> In x509 L -> crls_ok s parent crls -> (forall pp, parent = Some pp -> In pp L) ->
    wp (certificate_validate_chain answers x509 crls) s (fun _ s' => step s s' L).
  Proof.
    intros H Hx C Hp. unfold certificate_validate_chain. pose proof (step_refl _ _ H) as St. destruct crls as [c|]; [|now apply wp_ret].
    destruct (C c eq_refl) as (pp & Ep & K). specialize (Hp pp Ep).
    run (use_S s c); [kidlive|]. intros _ s1 ->. run (use_S s x509); [live|]. intros _ s1 ->.
    apply wp_bnd. unfold wp at 1, trusted.
    run (each_use_S (map m_x509 (metas s)) s).
    - intros i Hi. eapply I_stack_live; [exact H|]. unfold stack. apply in_or_app. right. apply in_map_iff in Hi. destruct Hi as (m & <- & Hm).
      apply in_flat_map. exists m. split; [exact Hm|]. cbn. auto.
    - intros _ s1 ->. last (ask_S answers s L); [held|]. auto.
  Qed.

  Lemma signed_object_decode_S uri s F : I s F -> refs s uri <> O ->
    wp (signed_object_decode answers uri) s (fun r s' => match r with None => step s s' F | Some o => step s s' (fst o :: snd o :: F) /\ np s' (fst o) /\ np s' (snd o) end).
  Proof.
    intros H Hu. unfold signed_object_decode. pose proof (step_refl _ _ H) as St.
    run (use_S s uri Hu). intros _ s1 ->. run (ask_S answers s F); [held|]. intros e s1 X. adv X.
    destruct (negb (e =? 0)); [now apply wp_ret|].
    run (create_S s1 F false); [held|]. intros c s2 (X & Nc). adv X. run (ask_S answers s2 (c :: F)); [held|]. intros e2 s3 X. adv X.
    destruct (negb (e2 =? 0)). { run (put_S F c); [held|exact Nc|]. intros _ s4 X. adv X. now apply wp_ret. }
    run (create_S s3 (c :: F) false); [held|]. intros d s4 (X & Nd). adv X. apply wp_ret. cbn [fst snd]. split; [done_|]. auto.
  Qed.
  Lemma signed_object_cleanup_S o s F : I s (fst o :: snd o :: F) -> np s (fst o) -> np s (snd o) -> wp (signed_object_cleanup o) s (fun _ s' => step s s' F).
  Proof.
    intros H A B. unfold signed_object_cleanup. pose proof (step_refl _ _ H) as St.
    run (put_S (snd o :: F) (fst o)); [held|exact A|]. intros _ s1 X. adv X. last (put_S F (snd o)); [held|exact B|]. intros _ s2 X. now adv X.
  Qed.

  Lemma signed_object_validate_S o parent crls s L : I s L -> In (fst o) L -> In (snd o) L -> crls_ok s parent crls -> (forall pp, parent = Some pp -> In pp L) ->
    wp (signed_object_validate answers o crls) s (fun x s' => step s s' (opt (crldp (snd x)) ++ opt (caIssuers (snd x)) ++ opt (signedObject (snd x)) ++ L) /\ nps s' (owned (snd x)) /\
      (fst x = 0 -> crldp (snd x) <> None /\ signedObject (snd x) <> None)).
  Proof.
    intros H A B C Hp. unfold signed_object_validate. pose proof (step_refl _ _ H) as St.
    run (use_S s (fst o)); [live|]. intros _ s1 ->. run (use_S s (snd o)); [live|]. intros _ s1 ->.
    run (ask_S answers s L); [held|]. intros e s1 X. apply (crls_ext _ _ _ _ (t_ext _ _ _ X)) in C. adv X.
    assert (Bad : forall s2 e, step s s2 L -> e <> 0 -> wp (ret (e, no_slots)) s2 (fun x s' => step s s' (opt (crldp (snd x)) ++ opt (caIssuers (snd x)) ++ opt (signedObject (snd x)) ++ L) /\ nps s' (owned (snd x)) /\
      (fst x = 0 -> crldp (snd x) <> None /\ signedObject (snd x) <> None))).
    { intros s2 e' S2 He. apply wp_ret. cbn [fst snd no_slots crldp caIssuers signedObject opt app]. split; [exact S2|]. split; [apply nps_nil|]. intros; contradiction. }
    destruct (negb (e =? 0)) eqn:Ee. { apply Bad; [exact St|]. intros ->. discriminate Ee. }
    run (create_S s1 L false); [held|]. intros x s2 (X & Nx). apply (crls_ext _ _ _ _ (t_ext _ _ _ X)) in C. adv X.
    run (chain_S x parent crls s2 (x :: L)); [held|inn|exact C|intros pp E; right; auto|]. intros e2 s3 X. adv X.
    destruct (negb (e2 =? 0)) eqn:E2. { run (put_S L x); [held|exact Nx|]. intros _ s4 X. adv X. apply Bad; [exact St|]. intros ->. discriminate E2. }
    run (ask_S answers s3 (x :: L)); [held|]. intros e3 s4 X. adv X.
    destruct (negb (e3 =? 0)) eqn:E3. { run (put_S L x); [held|exact Nx|]. intros _ s5 X. adv X. apply Bad; [exact St|]. intros ->. discriminate E3. }
    run (ask_S answers s4 (x :: L)); [held|]. intros n s5 X. adv X.
    run (handle_extensions_0 answers true true (Z.to_nat n) s5 (x :: L)); [held|]. intros [e4 l] s6 (X & Nl & Ol & Gl). adv X. cbn [fst snd] in *. destruct Ol as [O1 O2].
    unfold owned in St. rewrite O1, O2 in St. cbn [opt app] in St. rewrite app_nil_r in St.
    destruct (negb (e4 =? 0)) eqn:E4.
    { run (put_S (opt (crldp l) ++ opt (caIssuers l) ++ opt (signedObject l) ++ L) x); [held|exact Nx|]. intros _ s7 X. adv X. apply wp_ret. cbn [fst snd]. split; [exact St|]. split; [exact Nl|]. intros ->. discriminate E4. }
    apply Bool.negb_false_iff, Z.eqb_eq in E4. destruct (Gl E4) as [Ga Gb]. specialize (Ga eq_refl). destruct Ga as [Ga _].
    run (ask_S answers s6 _ ltac:(held)). intros e5 s7 X. adv X.
    run (put_S (opt (crldp l) ++ opt (caIssuers l) ++ opt (signedObject l) ++ L) x); [held|exact Nx|]. intros _ s8 X. adv X. apply wp_ret. cbn [fst snd]. auto.
  Qed.
  Lemma eecert_cleanup_S r l s F : I s (opt (crldp l) ++ opt (caIssuers l) ++ opt (signedObject l) ++ r :: F) -> np s r -> nps s (owned l) -> wp (eecert_cleanup r l) s (fun _ s' => step s s' F).
  Proof.
    intros H A B. unfold eecert_cleanup. pose proof (step_refl _ _ H) as St.
    run (put_S (opt (crldp l) ++ opt (caIssuers l) ++ opt (signedObject l) ++ F) r); [held|exact A|]. intros _ s1 X. adv X.
    last (refs_cleanup_S l s1 F); [held|exact B|]. intros _ s2 X. now adv X.
  Qed.

  Lemma in_slot (f : slots -> option nat) l a b L c : f l = Some c -> In c (a ++ opt (f l) ++ b ++ L).
  Proof. intros ->. cbn. rewrite in_app_iff. cbn. auto. Qed.

  Lemma object_traverse_S roa uri pp s F : I s F -> full s pp -> In pp F -> kid s pp uri -> wp (object_traverse answers roa uri pp) s (fun _ s' => step s s' F).
  Proof.
    intros H P Hp K. unfold object_traverse. pose proof (step_refl _ _ H) as St.
    run (signed_object_decode_S uri s F); [held|kidlive|]. intros [so|] s1 X; [destruct X as (X & N1 & N2); adv X|adv X; now apply wp_ret].
    assert (Z : wp (if roa then ask else ret 0) s1 (fun _ s' => step s1 s' (fst so :: snd so :: F))).
    { destruct roa; [apply ask_S; held|apply wp_ret, step_refl; held]. }
    run Z. clear Z. intros e s2 X. adv X.
    destruct (negb (e =? 0)). { last (signed_object_cleanup_S so s2 F); [held|exact N1|exact N2|]. intros _ s3 X. now adv X. }
    assert (Z : wp (if roa then x <- create false;; ret [x] else ret []) s2 (fun d s' => step s2 s' (d ++ fst so :: snd so :: F) /\ nps s' d)).
    { destruct roa; [|apply wp_ret; split; [apply step_refl; held|apply nps_nil]].
      run (create_S s2 (fst so :: snd so :: F) false); [held|]. intros d s3 (X & N). apply wp_ret. split; [exact X|apply nps_cons; [exact N|apply nps_nil]]. }
    run Z. clear Z. intros d s3 (X & Nd). adv X.
    run (rpp_crl_S (Some pp) s3 _ (t_I _ _ _ St)); [intros q E; injection E as <-; exact P|intros q E; injection E as <-; inn|].
    intros [e1 crls] s4 (X & C). cbn [snd] in C. adv X. cbn [fst snd].
    assert (Fin : forall s5, step s s5 (d ++ fst so :: snd so :: F) -> np s5 (fst so) -> np s5 (snd so) -> nps s5 d -> wp (put_all d;; signed_object_cleanup so) s5 (fun _ s' => step s s' F)).
    { intros s5 St5 M1 M2 Md. clear St. rename St5 into St. run (put_all_S (fst so :: snd so :: F) d s5); [held|exact Md|]. intros _ s6 X. adv X.
      last (signed_object_cleanup_S so s6 F); [held|exact M1|exact M2|]. intros _ s7 X. now adv X. }
    destruct (negb (e1 =? 0)). { apply wp_bnd, wp_ret. now apply Fin. }
    apply wp_bnd. run (create_S s4 _ false (t_I _ _ _ St)). intros r s5 (X & Nr). apply (crls_ext _ _ _ _ (t_ext _ _ _ X)) in C. adv X.
    run (signed_object_validate_S so (Some pp) crls s5 _ (t_I _ _ _ St)); [inn|inn|exact C|intros q E; injection E as <-; inn|].
    intros [e2 l] s6 (X & Nl & Gl). adv X. cbn [fst snd] in *.
    assert (Z : wp (if negb (e2 =? 0) then ret tt else e <- ask;; if negb (e =? 0) then ret tt else refs_validate_ee answers l pp uri;; ret tt) s6
      (fun _ s' => step s6 s' (opt (crldp l) ++ opt (caIssuers l) ++ opt (signedObject l) ++ r :: d ++ fst so :: snd so :: F))).
    { pose proof (step_refl _ _ (t_I _ _ _ St)) as St6. clear St. rename St6 into St. destruct (negb (e2 =? 0)) eqn:E2; [now apply wp_ret|].
      apply Bool.negb_false_iff, Z.eqb_eq in E2. destruct (Gl E2) as [G1 G2].
      run (ask_S answers s6 _ (t_I _ _ _ St)). intros e3 s7 X. adv X. destruct (negb (e3 =? 0)); [now apply wp_ret|].
      run (refs_validate_ee_S l pp uri s7 _ (t_I _ _ _ St)); [exact G1|exact G2| | |exact P|inn|now right|].
      - intros c Ec. rewrite Ec. now left.
      - intros c Ec. rewrite Ec. rewrite !in_app_iff. cbn. auto.
      - intros _ s8 X. adv X. now apply wp_ret. }
    run Z. clear Z. intros _ s7 X. adv X.
    last (eecert_cleanup_S r l s7 (d ++ fst so :: snd so :: F)); [held|exact Nr|exact Nl|]. intros _ s8 X. adv X. now apply Fin.
  Qed.

  Lemma build_files_S n pp : forall s L, I s L -> pt s pp -> In pp L -> wp (build_files answers n pp) s (fun _ s' => step s s' L).
  Proof.
    induction n as [|n IH]; intros s L H P Hp; cbn [build_files]; pose proof (step_refl _ _ H) as St; [now apply wp_ret|].
    run (ask_S answers s L); [held|]. intros e s1 X. adv X. destruct (negb (e =? 0)); [now apply wp_ret|].
    run (create_S s1 L false); [held|]. intros u s2 (X & Nu). adv X.
    run (ask_S answers s2 (u :: L)); [held|]. intros h s3 X. adv X.
    assert (Rec : forall s4, step s s4 L -> pt s4 pp -> wp (build_files answers n pp) s4 (fun _ s' => step s s' L)).
    { intros s4 S4 P4. last (IH s4 L (t_I _ _ _ S4) P4 Hp). intros _ s5 X. exact (step_trans _ _ _ _ _ S4 X). }
    assert (Put : forall s4, step s s4 (u :: L) -> pt s4 pp -> np s4 u -> wp (put u;; build_files answers n pp) s4 (fun _ s' => step s s' L)).
    { intros s4 S4 P4 N4. clear St. rename S4 into St. run (put_S L u); [held|exact N4|]. intros _ s5 X. adv X. now apply Rec. }
    assert (Add : forall s4 k, step s s4 (u :: L) -> pt s4 pp -> np s4 u -> wp (add_kid pp k u;; build_files answers n pp) s4 (fun _ s' => step s s' L)).
    { intros s4 k S4 P4 N4. clear St. rename S4 into St. run (add_kid_S L pp k u); [held|exact N4|exact P4|exact Hp|]. intros _ s5 (X & _). adv X. now apply Rec. }
    destruct (h <? 0). { run (put_S L u); [held|exact Nu|]. intros _ s4 X. adv X. now apply wp_ret. }
    destruct (0 <? h); [now apply Put|].
    run (ask_S answers s3 (u :: L)); [held|]. intros k s4 X. adv X.
    destruct (k =? 0); [now apply Add|]. destruct (k =? 1); [now apply Add|].
    destruct (k =? 2).
    { run (get_kids_S s4 pp); [live|]. intros l s5 (-> & ->). destruct (of_kind KCrl (kids s4 pp)); [now apply Add|].
      run (put_S L u); [held|exact Nu|]. intros _ s5 X. adv X. now apply wp_ret. }
    destruct (k =? 3); [now apply Add|now apply Put].
  Qed.
  Lemma build_rpp_S s F : I s F -> wp (build_rpp answers) s (fun r s' => match r with None => step s s' F | Some pp => step s s' (pp :: F) /\ full s' pp end).
  Proof.
    intros H. unfold build_rpp. pose proof (step_refl _ _ H) as St. run (create_S s F true); [held|]. intros pp s1 (X & P). adv X.
    run (ask_S answers s1 (pp :: F)); [held|]. intros n s2 X. adv X.
    run (build_files_S (Z.to_nat n) pp s2 (pp :: F)); [held|exact P|inn|]. intros e s3 X. adv X.
    destruct (negb (e =? 0)). { run (rpp_refput_S F pp); [held|exact P|]. intros _ s4 X. adv X. now apply wp_ret. }
    run (get_kids_S s3 pp); [live|]. intros l s4 (-> & ->). destruct (of_kind KCrl (kids s3 pp)) eqn:E.
    { run (rpp_refput_S F pp); [held|exact P|]. intros _ s4 X. adv X. now apply wp_ret. }
    apply wp_ret. split; [exact St|]. destruct P as [P1 P2]. split; [split; [exact P1|]|exact P2]. rewrite E. discriminate.
  Qed.

  Lemma cage_S uri notif s F : I s F -> In uri F -> np s uri -> (forall n, notif = Some n -> In n F) ->
    wp (cage answers uri notif) s (fun r s' => match r with None => step s s' F | Some u => step s s' (u :: F) /\ np s' u end).
  Proof.
    intros H Hu Nu Hn. unfold cage. pose proof (step_refl _ _ H) as St. destruct notif as [n|].
    - specialize (Hn n eq_refl). run (use_S s uri); [live|]. intros _ s1 ->. run (use_S s n); [live|]. intros _ s1 ->.
      run (ask_S answers s F); [held|]. intros e s1 X. adv X. destruct (negb (e =? 0)); [now apply wp_ret|].
      run (create_S s1 F false); [held|]. intros u s2 (X & N). adv X. apply wp_ret. auto.
    - run (get_S s F uri); [held|live|]. intros _ s1 X. adv X. apply wp_ret. auto.
  Qed.

  Lemma handle_manifest_S mft notif s F : I s F -> In mft F -> np s mft -> (forall n, notif = Some n -> In n F) ->
    wp (handle_manifest answers mft notif) s (fun r s' => match r with None => step s s' F | Some pp => step s s' (pp :: F) /\ full s' pp end).
  Proof.
    intros H Hu Nu Hn. unfold handle_manifest. pose proof (step_refl _ _ H) as St.
    run (cage_S mft notif s F); auto. intros [uri|] s1 X; [destruct X as (X & Nr); adv X|adv X; now apply wp_ret].
    run (use_S s1 uri); [live|]. intros _ s2 ->.
    run (signed_object_decode_S uri s1 (uri :: F)); [held|live|]. intros [so|] s2 X; [destruct X as (X & N1 & N2); adv X|].
    2:{ adv X. run (put_S F uri); [held|exact Nr|]. intros _ s3 X. adv X. now apply wp_ret. }
    assert (C1 : forall (o : option nat) G s3, step s s3 (fst so :: snd so :: uri :: G) -> np s3 (fst so) -> np s3 (snd so) -> np s3 uri ->
      wp (signed_object_cleanup so;; put uri;; ret o) s3 (fun r s' => step s s' G /\ r = o /\ forall p, full s3 p -> full s' p)).
    { intros o G s3 S3 M1 M2 Mu. clear St. rename S3 into St. assert (Fu : forall p, full s3 p -> full s3 p) by auto.
      run (signed_object_cleanup_S so s3 (uri :: G)); [held|exact M1|exact M2|]. intros _ s4 X. pose proof (t_ext _ _ _ X) as E4. adv X.
      run (put_S G uri); [held|exact Mu|]. intros _ s5 X. pose proof (t_ext _ _ _ X) as E5. adv X. apply wp_ret. split; [exact St|]. split; [reflexivity|].
      intros p Hf. eapply full_ext; [exact E5|]. eapply full_ext; [exact E4|exact Hf]. }
    run (ask_S answers s2 _ (t_I _ _ _ St)). intros e s3 X. adv X.
    destruct (negb (e =? 0)). { last (C1 None F s3); [done_|exact N1|exact N2|exact Nr|]. intros r s4 (X & -> & _). exact X. }
    run (create_S s3 _ false (t_I _ _ _ St)). intros m s4 (X & Nm). adv X.
    run (build_rpp_S s4 _ (t_I _ _ _ St)). intros [pp|] s5 X; [destruct X as (X & P); adv X|].
    2:{ adv X. run (put_S (fst so :: snd so :: uri :: F) m); [held|exact Nm|]. intros _ s6 X. adv X. last (C1 None F s6); [done_|exact N1|exact N2|exact Nr|]. intros r s7 (Y & -> & _). exact Y. }
    assert (C2 : forall s6, step s s6 (pp :: m :: fst so :: snd so :: uri :: F) -> np s6 (fst so) -> np s6 (snd so) -> np s6 uri -> np s6 m -> full s6 pp ->
      wp (rpp_refput pp;; put m;; signed_object_cleanup so;; put uri;; ret None) s6 (fun r s' => match r with None => step s s' F | Some pp => step s s' (pp :: F) /\ full s' pp end)).
    { intros s6 S6 M1 M2 Mu Mm Mp. clear St. rename S6 into St. apply full_pt in Mp. run (rpp_refput_S (m :: fst so :: snd so :: uri :: F) pp); [held|exact Mp|]. intros _ s7 X. adv X.
      run (put_S (fst so :: snd so :: uri :: F) m); [held|exact Mm|]. intros _ s8 X. adv X. last (C1 None F s8); [done_|exact M1|exact M2|exact Mu|]. intros r s9 (Y & -> & _). exact Y. }
    run (rpp_crl_S (Some pp) s5 _ (t_I _ _ _ St)); [intros q E; injection E as <-; exact P|intros q E; injection E as <-; inn|].
    intros [e1 crls] s6 (X & C). cbn [snd] in C. adv X. cbn [fst snd].
    destruct (negb (e1 =? 0)). { apply C2; auto. }
    run (create_S s6 _ false (t_I _ _ _ St)). intros r s7 (X & Nres). apply (crls_ext _ _ _ _ (t_ext _ _ _ X)) in C. adv X.
    run (signed_object_validate_S so (Some pp) crls s7 _ (t_I _ _ _ St)); [inn|inn|exact C|intros q E; injection E as <-; inn|].
    intros [e2 l] s8 (X & Nl & Gl). adv X. cbn [fst snd] in *.
    assert (Z : wp (if negb (e2 =? 0) then ret e2 else e <- ask;; if negb (e =? 0) then ret e else refs_validate_ee answers l pp uri) s8
      (fun _ s' => step s8 s' (opt (crldp l) ++ opt (caIssuers l) ++ opt (signedObject l) ++ r :: pp :: m :: fst so :: snd so :: uri :: F))).
    { pose proof (step_refl _ _ (t_I _ _ _ St)) as St6. clear St. rename St6 into St. destruct (negb (e2 =? 0)) eqn:E2; [now apply wp_ret|].
      apply Bool.negb_false_iff, Z.eqb_eq in E2. destruct (Gl E2) as [G1 G2].
      run (ask_S answers s8 _ (t_I _ _ _ St)). intros e3 s9 X. adv X. destruct (negb (e3 =? 0)); [now apply wp_ret|].
      last (refs_validate_ee_S l pp uri s9 _ (t_I _ _ _ St)); [exact G1|exact G2| | |exact P|inn|left; inn|].
      - intros c Ec. rewrite Ec. now left.
      - intros c Ec. rewrite Ec. rewrite !in_app_iff. cbn. auto.
      - intros _ s10 X. now adv X. }
    run Z. clear Z. intros e4 s9 X. adv X.
    run (eecert_cleanup_S r l s9 (pp :: m :: fst so :: snd so :: uri :: F)); [held|exact Nres|exact Nl|]. intros _ s10 X. adv X.
    destruct (negb (e4 =? 0)). { apply C2; auto. }
    run (put_S (pp :: fst so :: snd so :: uri :: F) m); [held|exact Nm|]. intros _ s11 X. adv X.
    last (C1 (Some pp) (pp :: F) s11); [done_|exact N1|exact N2|exact Nr|]. intros y s12 (Y & -> & Z). split; [exact Y|now apply Z].
  Qed.
End S.
