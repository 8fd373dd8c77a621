From Coq Require Import Lia String.
From Verif Require Import Base BaseLemmas CString PathBuilder PathSpec PathProofs PathProofs2 PathProofs3 PathProps SignedData Extensions ExtensionsSpec.
Notation length := List.length.

(** ** Access descriptions *)
Section Access.
  Context (J : Z) (repository : list Z) (tal : option (list Z)).
  Local Notation located := (located repository tal).
  Local Notation short := (short repository tal).

  Lemma place_scheme t text comps : t <> UT_CAGED -> place t None text comps -> has_scheme t text.
  Proof. intros H P. unfold has_scheme, ExtensionsSpec.scheme. inversion P; subst; eauto; congruence. Qed.

  Lemma located_not_ignored t g u : t <> UT_CAGED -> located t g u -> ~ ignored t g.
  Proof.
    intros H (text & b & comps & -> & _ & P & _) [Q|(text' & b' & Q & _ & N)]; [discriminate|]. injection Q as <- <-.
    apply N. eapply place_scheme; eauto.
  Qed.
  Lemma located_fun t g u u' : located t g u -> located t g u' -> u = u'.
  Proof.
    intros (text & b & comps & -> & _ & P & ->) (text' & b' & comps' & Q & _ & P' & ->). injection Q as <- <-.
    rewrite (place_fun _ _ _ _ _ P P'). reflexivity.
  Qed.

  Definition skip_code (e : errcode) : bool := match e with ENOTRSYNC | EOTHER 1 | EOTHER 2 => true | _ => false end.

  Lemma uri_ad a t : conf_ok repository tal None -> t <> UT_CAGED ->
    (exists u, uri_create_ad J repository tal a t = Ok u /\ located t (ad_location a) u) \/
    (exists e, uri_create_ad J repository tal a t = Err e /\ skip_code e = true /\ ignored t (ad_location a)) \/
    (exists e, uri_create_ad J repository tal a t = Err e /\ skip_code e = false /\
       (short (ad_location a) -> ~ ignored t (ad_location a) /\ forall u, ~ located t (ad_location a) u)).
  Proof.
    intros C Ht. unfold uri_create_ad. destruct (ad_location a) as [text b|].
    2: { right. left. exists (EOTHER 2). split; [reflexivity|]. split; [reflexivity|]. left. reflexivity. }
    destruct (str2global text) as [g| |] eqn:G.
    2: { right. right. exists EINVAL. unfold uri_create. unfold str2global in *. destruct (forallb validate_url_character text) eqn:F; [discriminate|].
         cbn [bind]. split; [reflexivity|]. split; [reflexivity|]. intros _.
         assert (NP : ~ printable text).
         { intros P. enough (forallb validate_url_character text = true) by congruence. apply forallb_forall. intros c Hc. unfold printable in P. rewrite Forall_forall in P.
           apply P in Hc. unfold validate_url_character. lia. }
         split; [intros [Q|(text' & b' & Q & P & _)]; [discriminate|injection Q as <- <-; contradiction]|].
         intros u (text' & b' & comps & Q & P & _). injection Q as <- <-. contradiction. }
    2: { unfold str2global in G. destruct (forallb validate_url_character text); discriminate. }
    apply str2global_iff in G. destruct G as [-> P].
    destruct (uri_create J repository tal t None text) as [u|e|] eqn:E.
    - left. exists u. split; [reflexivity|]. destruct (C27_contained _ _ _ _ _ _ _ C E) as (G & _ & comps & PL & _ & L).
      apply uri_create_inv in E. destruct E as (_ & T & _). exists text, b, comps. split; [reflexivity|]. split; [exact P|]. split; [exact PL|].
      destruct u. cbn in *. subst. reflexivity.
    - right. unfold uri_create in E. assert (G : str2global text = Ok text) by (apply str2global_iff; auto). rewrite G in E. cbn [bind] in E.
      destruct C as (C1 & C2 & _). pose proof (printable_nul _ P) as N0.
      assert (Q : exists sch err, length sch = 5%nat /\ ~ In 0 sch /\ ExtensionsSpec.scheme t = sch ++ [58; 47; 47] /\ skip_code err = true /\
        autocomplete_local J repository text t tal None = map_simple J repository text tal (sch ++ [58; 47; 47]) err).
      { destruct t; [exists (cstr "rsync"), ENOTRSYNC|exists (cstr "https"), (EOTHER 1)|congruence]; (split; [reflexivity|]);
          (split; [cbn; intuition discriminate|]); split; auto. }
      destruct Q as (sch & err & LS & S0 & ES & SK & EA). rewrite EA in E.
      destruct (prefix_dec (sch ++ [58; 47; 47]) text) as [(txt & ->)|NP].
      + right. exists e. split; [reflexivity|].
        destruct (map_simple_spec J repository tal C1 C2 sch err txt LS S0) as [(d & p & Em & NM & PL)|[(Em & NN)|(Em & LL)]];
          [eapply nul_app; eauto|rewrite Em in E; discriminate|rewrite Em in E; injection E as <-..].
        * split; [reflexivity|]. intros _. split.
          -- intros [Q|(text' & b' & Q & _ & N)]; [discriminate|]. injection Q as <- <-. apply N. exists txt. rewrite ES. reflexivity.
          -- intros u (text' & b' & comps & Q & _ & PL & _). injection Q as <- <-.
             assert (K : exists d p, names txt d p).
             { clear - PL ES Ht. rewrite <- ES in PL. remember (ExtensionsSpec.scheme t ++ txt) as w eqn:W.
               destruct PL as [? x d p K|? x d p K|? d p K|? ? ? x d p K K']; try congruence;
                 cbn [ExtensionsSpec.scheme] in W; apply app_inv_head in W; subst x; eauto. }
             destruct K as (d & p & K). exact (NN d p K).
        * split; [reflexivity|]. intros Sh. cbn [short] in Sh. unfold room in Sh. exfalso.
          assert (BL : (length (join (base repository tal sch)) <= length (join (nonempty [repository; opt tal])) + 1 + 5)%nat).
          { destruct sch as [|c w]; [discriminate|]. rewrite <- LS. apply base_len. }
          rewrite !app_length, LS in Sh. cbn [length] in Sh. lia.
      + unfold map_simple in E. destruct (init_cache_cases J repository tal C1 C2 None) as [(pb & Ei & R)|[Ei LL]]; [cbn; auto| |]; rewrite Ei in E; cbn [bind] in E.
        * rewrite append_guri_wrong in E by exact NP. cbn [bind] in E. injection E as <-. left. exists err. split; [reflexivity|].
          split; [exact SK|]. right. exists text, b. split; [reflexivity|]. split; [exact P|]. intros (rest & Q). rewrite ES in Q. exact (NP _ Q).
        * injection E as <-. right. exists ENOSPC. split; [reflexivity|].
          split; [reflexivity|]. intros Sh. cbn [short] in Sh. unfold room in Sh.
          replace (nonempty [repository; opt tal; opt None]) with (nonempty [repository; opt tal]) in LL; [lia|]. symmetry. apply root_none.
    - destruct (C27_total J repository tal t None text C) as [(u & Q)|(e & Q)]; [congruence| |]; congruence.
  Qed.

  Lemma loop_skip n t a l cb found r e : ad_method a = n -> uri_create_ad J repository tal a t = Err e -> skip_code e = true ->
    ad_loop J repository tal n t (a :: l) cb found r = ad_loop J repository tal n t l cb found r.
  Proof.
    intros M E S. cbn [ad_loop]. rewrite M, Z.eqb_refl, E. destruct e as [| | | | | | | | | |k]; try discriminate; [reflexivity|].
    destruct k as [|[[]|[]|]|]; try discriminate; reflexivity.
  Qed.
  Lemma loop_fail n t a l cb found r e : ad_method a = n -> uri_create_ad J repository tal a t = Err e -> skip_code e = false ->
    ad_loop J repository tal n t (a :: l) cb found r = Err e.
  Proof.
    intros M E S. cbn [ad_loop]. rewrite M, Z.eqb_refl, E. destruct e as [| | | | | | | | | |k]; try discriminate; try reflexivity.
    destruct k as [|[[k|k|]|[k|k|]|]|k]; try discriminate; reflexivity.
  Qed.

  Definition all_ignored (n : Z) (t : uri_type) (l : list access) : Prop := forall a, In a l -> ad_method a = n -> ignored t (ad_location a).

  Lemma loop_sound n t cb : conf_ok repository tal None -> t <> UT_CAGED -> forall l found r b r',
    ad_loop J repository tal n t l cb found r = Ok (b, r') ->
    (b = found /\ r' = r /\ all_ignored n t l) \/
    (found = false /\ b = true /\ exists u, r' = cb u r /\ uris_of repository tal n t l (Some u)).
  Proof.
    intros C Ht. induction l as [|a l IH]; intros found r b r' E.
    { cbn [ad_loop] in E. injection E as <- <-. left. split; [reflexivity|]. split; [reflexivity|]. intros a []. }
    destruct (Z.eq_dec (ad_method a) n) as [M|M].
    - destruct (uri_ad a t C Ht) as [(u & U & L)|[(e & U & S & I)|(e & U & S & _)]].
      + cbn [ad_loop] in E. rewrite M, Z.eqb_refl, U in E. destruct found; [discriminate|]. apply IH in E.
        destruct E as [(-> & -> & Hi)|(Q & _)]; [|discriminate]. right. split; [reflexivity|]. split; [reflexivity|]. exists u. split; [reflexivity|].
        apply (one_uri _ _ n t [] a l u); auto.
      + rewrite (loop_skip n t a l cb found r e M U S) in E. apply IH in E. destruct E as [(-> & -> & Hi)|(-> & -> & u & -> & Hu)].
        * left. split; [reflexivity|]. split; [reflexivity|]. intros b' [<-|Hb] Mb; auto.
        * right. split; [reflexivity|]. split; [reflexivity|]. exists u. split; [reflexivity|]. inversion Hu as [|l1 a' l2 u' M' L' Hi]; subst.
          apply (one_uri _ _ _ t (a :: l1) a' l2 u); auto. intros b' [<-|Hb] Mb; auto.
      + rewrite (loop_fail n t a l cb found r e M U S) in E. discriminate.
    - cbn [ad_loop] in E. destruct (Z.eqb_spec (ad_method a) n); [contradiction|]. apply IH in E. destruct E as [(-> & -> & Hi)|(-> & -> & u & -> & Hu)].
      * left. split; [reflexivity|]. split; [reflexivity|]. intros b' [<-|Hb] Mb; [contradiction|auto].
      * right. split; [reflexivity|]. split; [reflexivity|]. exists u. split; [reflexivity|]. inversion Hu as [|l1 a' l2 u' M' L' Hi]; subst.
        apply (one_uri _ _ _ t (a :: l1) a' l2 u); auto. intros b' [<-|Hb] Mb; [contradiction|auto].
  Qed.

  Lemma loop_ignored n t cb : conf_ok repository tal None -> t <> UT_CAGED -> forall l found r,
    Forall (fun a => short (ad_location a)) l -> all_ignored n t l ->
    ad_loop J repository tal n t l cb found r = Ok (found, r).
  Proof.
    intros C Ht. induction l as [|a l IH]; intros found r Sh Hi; [reflexivity|]. inversion Sh as [|? ? S1 S2]; subst.
    assert (Hi' : all_ignored n t l) by (intros b Hb; apply Hi; right; assumption).
    destruct (Z.eq_dec (ad_method a) n) as [M|M].
    - pose proof (Hi a (or_introl eq_refl) M) as I. destruct (uri_ad a t C Ht) as [(u & U & L)|[(e & U & S & _)|(e & U & S & N)]].
      + exfalso. eapply located_not_ignored; eauto.
      + rewrite (loop_skip n t a l cb found r e M U S). auto.
      + exfalso. apply N; assumption.
    - cbn [ad_loop]. destruct (Z.eqb_spec (ad_method a) n); [contradiction|]. auto.
  Qed.

  Lemma loop_located n t cb : conf_ok repository tal None -> t <> UT_CAGED -> forall l1 a l2 u r,
    Forall (fun a => short (ad_location a)) (l1 ++ a :: l2) -> ad_method a = n -> located t (ad_location a) u ->
    all_ignored n t (l1 ++ l2) -> ad_loop J repository tal n t (l1 ++ a :: l2) cb false r = Ok (true, cb u r).
  Proof.
    intros C Ht. induction l1 as [|b l1 IH]; intros a l2 u r Sh M L Hi; cbn [app] in *; inversion Sh as [|? ? S1 S2]; subst.
    - destruct (uri_ad a t C Ht) as [(u' & U & L')|[(e & U & S & I)|(e & U & S & N)]].
      + cbn [ad_loop]. rewrite Z.eqb_refl, U. rewrite (located_fun _ _ _ _ L L'). apply loop_ignored; auto.
      + exfalso. eapply located_not_ignored; eauto.
      + exfalso. destruct (N S1) as (_ & N'). exact (N' u L).
    - assert (Hi' : all_ignored (ad_method a) t (l1 ++ l2)) by (intros c Hc; apply Hi; right; assumption).
      destruct (Z.eq_dec (ad_method b) (ad_method a)) as [M|M].
      + pose proof (Hi b (or_introl eq_refl) M) as I. destruct (uri_ad b t C Ht) as [(u' & U & L')|[(e & U & S & _)|(e & U & S & N)]].
        * exfalso. eapply located_not_ignored; eauto.
        * rewrite (loop_skip _ t b _ cb false r e M U S). apply IH; auto.
        * exfalso. apply N; assumption.
      + cbn [ad_loop]. destruct (Z.eqb_spec (ad_method b) (ad_method a)); [contradiction|]. apply IH; auto.
  Qed.

  Lemma handle_ad_sound n t required l cb r r' : conf_ok repository tal None -> t <> UT_CAGED ->
    handle_ad J repository tal n t required l cb r = Ok r' ->
    exists o, uris_of repository tal n t l o /\ r' = (match o with Some u => cb u r | None => r end) /\ (required = true -> o <> None).
  Proof.
    intros C Ht. unfold handle_ad. destruct (ad_loop J repository tal n t l cb false r) as [[b r1]| |] eqn:E; cbn [bind fst snd]; try discriminate.
    apply loop_sound in E; auto. destruct E as [(-> & -> & Hi)|(_ & -> & u & -> & Hu)].
    - destruct required; cbn [negb andb]; [discriminate|]. intros Q. injection Q as <-. exists None. split; [constructor; exact Hi|]. split; [reflexivity|discriminate].
    - rewrite Bool.andb_false_r. intros Q. injection Q as <-. exists (Some u). split; [exact Hu|]. split; [reflexivity|discriminate].
  Qed.
  Lemma handle_ad_complete n t (required : bool) l cb r o : conf_ok repository tal None -> t <> UT_CAGED -> Forall (fun a => short (ad_location a)) l ->
    uris_of repository tal n t l o -> (required = true -> o <> None) ->
    handle_ad J repository tal n t required l cb r = Ok (match o with Some u => cb u r | None => r end).
  Proof.
    intros C Ht Sh Hu Hr. unfold handle_ad. inversion Hu as [? Hi|l1 a l2 u M L Hi]; subst.
    - rewrite loop_ignored by auto. cbn [bind fst snd]. destruct required; [destruct (Hr eq_refl); reflexivity|]. reflexivity.
    - rewrite (loop_located (ad_method a) t cb C Ht l1 a l2 u r) by auto. cbn [bind fst snd negb]. rewrite Bool.andb_false_r. reflexivity.
  Qed.
  Lemma uris_fun n t l o o' : conf_ok repository tal None -> t <> UT_CAGED -> Forall (fun a => short (ad_location a)) l ->
    uris_of repository tal n t l o -> uris_of repository tal n t l o' -> o = o'.
  Proof.
    intros C Ht Sh H H'.
    pose (cb u (r : record) := {| r_crldp := None; r_caIssuers := Some u; r_signedObject := None; r_rpp := []; r_mft := None; r_policy := None |}).
    pose proof (handle_ad_complete n t false l cb empty_record o C Ht Sh H ltac:(discriminate)) as E.
    pose proof (handle_ad_complete n t false l cb empty_record o' C Ht Sh H' ltac:(discriminate)) as E'.
    rewrite E in E'. unfold cb, empty_record in E'. destruct o, o'; try discriminate; congruence.
  Qed.
End Access.
