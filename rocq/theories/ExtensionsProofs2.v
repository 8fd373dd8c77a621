From Coq Require Import Lia String.
From Verif Require Import Base BaseLemmas CString PathBuilder PathSpec PathProps SignedData Extensions ExtensionsSpec ExtensionsProofs.
Notation length := List.length.

(** ** The loops over the extensions and the handlers *)
Section Loop.
  Context (nid : ext_id -> Z) (inj : forall i j, nid i = nid j -> i = j).
  Context (hs0 : list handler) (ND : NoDup (map h_id hs0)) (fresh0 : forall h, In h hs0 -> h_found h = false).

  Definition mark (seen : list Z) (h : handler) : handler :=
    {| h_id := h_id h; h_mandatory := h_mandatory h; h_cb := h_cb h; h_found := existsb (Z.eqb (nid (h_id h))) seen |}.
  Definition step (h : handler) (e : x509_extension) (r r' : record) : Prop :=
    match h_cb h with None => r' = r | Some cb => exists v, e_value e = Some v /\ cb v r = Ok r' end.

  Lemma mark_nil : map (mark []) hs0 = hs0.
  Proof using fresh0.
    clear ND. induction hs0 as [|h hs IH]; [reflexivity|]. cbn [map]. rewrite IH by (intros; apply fresh0; right; assumption).
    f_equal. unfold mark. cbn. rewrite <- (fresh0 h (or_introl eq_refl)). destruct h. reflexivity.
  Qed.

  Lemma mark_other n seen h : nid (h_id h) <> n -> mark (n :: seen) h = mark seen h.
  Proof using. intros H. unfold mark. cbn [existsb]. destruct (Z.eqb_spec (nid (h_id h)) n); [contradiction|reflexivity]. Qed.
  Lemma mark_others n seen hs : (forall h, In h hs -> nid (h_id h) <> n) -> map (mark (n :: seen)) hs = map (mark seen) hs.
  Proof using. intros H. apply map_ext_in. intros h Hh. apply mark_other. auto. Qed.
  Lemma seen_in n seen : existsb (Z.eqb n) seen = true <-> In n seen.
  Proof using. rewrite existsb_exists. split; [intros (x & Hx & E); apply Z.eqb_eq in E; subst; assumption|intros H; exists n; rewrite Z.eqb_refl; auto]. Qed.

  Lemma step_ok hs e seen r hs' r' : NoDup (map h_id hs) ->
    handle_extension nid (map (mark seen) hs) e r = Ok (hs', r') ->
    hs' = map (mark (e_nid e :: seen)) hs /\
    (((forall h, In h hs -> nid (h_id h) <> e_nid e) /\ e_critical e = false /\ r' = r) \/
     (exists h, In h hs /\ nid (h_id h) = e_nid e /\ ~ In (e_nid e) seen /\ meta_critical (h_id h) = e_critical e /\ step h e r r')).
  Proof using inj.
    revert hs'. induction hs as [|h hs IH]; intros hs' N E; cbn [map handle_extension] in E.
    { destruct (e_critical e) eqn:C; [discriminate|]. injection E as <- <-. split; [reflexivity|]. left. split; [intros h []|]. auto. }
    cbn [map] in N. inversion N as [|? ? N1 N2]; subst.
    change (h_id (mark seen h)) with (h_id h) in E. destruct (Z.eqb_spec (nid (h_id h)) (e_nid e)) as [M|M].
    - change (h_found (mark seen h)) with (existsb (Z.eqb (nid (h_id h))) seen) in E.
      change (h_cb (mark seen h)) with (h_cb h) in E.
      destruct (existsb (Z.eqb (nid (h_id h))) seen) eqn:F; [discriminate|].
      assert (F' : ~ In (e_nid e) seen) by (rewrite <- seen_in, <- M; congruence).
      assert (HH : set_found (mark seen h) :: map (mark seen) hs = map (mark (e_nid e :: seen)) (h :: hs)).
      { cbn [map]. f_equal.
        - unfold set_found, mark. cbn [h_id h_mandatory h_cb existsb]. rewrite M, Z.eqb_refl. reflexivity.
        - symmetry. apply mark_others. intros h' Hh' Q. rewrite <- M in Q. apply inj in Q. apply N1. rewrite <- Q. apply in_map. exact Hh'. }
      destruct (Bool.eqb (meta_critical (h_id h)) (e_critical e)) eqn:C; cbn [negb] in E; [|discriminate]. apply Bool.eqb_prop in C.
      destruct (h_cb h) as [cb|] eqn:CB.
      + destruct (e_value e) as [v|] eqn:V; [|discriminate]. destruct (cb v r) as [r1| |] eqn:R; cbn [bind] in E; try discriminate.
        injection E as <- <-. split; [exact HH|]. right. exists h. split; [left; reflexivity|]. split; [exact M|]. split; [exact F'|]. split; [exact C|].
        unfold step. rewrite CB. exists v. auto.
      + injection E as <- <-. split; [exact HH|]. right. exists h. split; [left; reflexivity|]. split; [exact M|]. split; [exact F'|]. split; [exact C|].
        unfold step. rewrite CB. reflexivity.
    - destruct (handle_extension nid (map (mark seen) hs) e r) as [[hs1 r1]| |] eqn:E1; cbn [bind fst snd] in E; try discriminate.
      injection E as <- <-. destruct (IH hs1 N2 eq_refl) as (-> & D). split.
      { cbn [map]. rewrite mark_other by exact M. reflexivity. }
      destruct D as [(D & C & ->)|(h' & D1 & D2)]; [left|right].
      + split; [|auto]. intros h' [<-|Hh']; auto.
      + exists h'. split; [right; exact D1|exact D2].
  Qed.

  Lemma step_unknown hs e seen r : (forall h, In h hs -> nid (h_id h) <> e_nid e) -> e_critical e = false ->
    handle_extension nid (map (mark seen) hs) e r = Ok (map (mark (e_nid e :: seen)) hs, r).
  Proof using.
    intros H C. induction hs as [|h hs IH]; cbn [map handle_extension]; [rewrite C; reflexivity|].
    change (h_id (mark seen h)) with (h_id h). destruct (Z.eqb_spec (nid (h_id h)) (e_nid e)) as [M|M]; [destruct (H h (or_introl eq_refl) M)|].
    rewrite IH by (intros; apply H; right; assumption). cbn [bind fst snd]. rewrite mark_other by exact M. reflexivity.
  Qed.
  Lemma step_known hs e seen r r' h : NoDup (map h_id hs) -> In h hs -> nid (h_id h) = e_nid e -> ~ In (e_nid e) seen -> meta_critical (h_id h) = e_critical e ->
    step h e r r' -> handle_extension nid (map (mark seen) hs) e r = Ok (map (mark (e_nid e :: seen)) hs, r').
  Proof using inj.
    intros N H M F C S. induction hs as [|g hs IH]; [destruct H|]. cbn [map] in N. inversion N as [|? ? N1 N2]; subst. cbn [map handle_extension].
    change (h_id (mark seen g)) with (h_id g). destruct (Z.eqb_spec (nid (h_id g)) (e_nid e)) as [Mg|Mg].
    - assert (g = h).
      { destruct H as [H|H]; [exact H|]. exfalso. apply N1. rewrite <- M in Mg. apply inj in Mg. rewrite Mg. apply in_map. exact H. }
      subst g. change (h_found (mark seen h)) with (existsb (Z.eqb (nid (h_id h))) seen). change (h_cb (mark seen h)) with (h_cb h).
      destruct (existsb (Z.eqb (nid (h_id h))) seen) eqn:Q; [apply seen_in in Q; rewrite M in Q; contradiction|].
      rewrite C, Bool.eqb_reflx. cbn [negb].
      assert (HH : set_found (mark seen h) :: map (mark seen) hs = mark (e_nid e :: seen) h :: map (mark (e_nid e :: seen)) hs).
      { f_equal.
        - unfold set_found, mark. cbn [h_id h_mandatory h_cb existsb]. rewrite M, Z.eqb_refl. reflexivity.
        - symmetry. apply mark_others. intros h' Hh' Q'. rewrite <- M in Q'. apply inj in Q'. apply N1. rewrite <- Q'. apply in_map. exact Hh'. }
      unfold step in S. destruct (h_cb h) as [cb|].
      + destruct S as (v & -> & S). rewrite S. cbn [bind]. rewrite HH. reflexivity.
      + subst r'. rewrite HH. reflexivity.
    - destruct H as [->|H]; [contradiction|]. rewrite IH by auto. cbn [bind fst snd]. rewrite mark_other by exact Mg. reflexivity.
  Qed.

  (** A successful run. *)
  Inductive run : list Z -> list x509_extension -> record -> record -> Prop :=
  | run_nil seen r : run seen [] r r
  | run_unknown seen e es r r' : (forall h, In h hs0 -> nid (h_id h) <> e_nid e) -> e_critical e = false ->
      run (e_nid e :: seen) es r r' -> run seen (e :: es) r r'
  | run_known seen e es r r1 r' h : In h hs0 -> nid (h_id h) = e_nid e -> ~ In (e_nid e) seen -> meta_critical (h_id h) = e_critical e ->
      step h e r r1 -> run (e_nid e :: seen) es r1 r' -> run seen (e :: es) r r'.

  Lemma loop_run es : forall seen r hs' r', extensions_loop nid (map (mark seen) hs0) es r = Ok (hs', r') ->
    run seen es r r' /\ hs' = map (mark (rev (map e_nid es) ++ seen)) hs0.
  Proof using inj ND.
    induction es as [|e es IH]; intros seen r hs' r' E; cbn [extensions_loop] in E.
    { injection E as <- <-. split; [constructor|reflexivity]. }
    destruct (handle_extension nid (map (mark seen) hs0) e r) as [[h1 r1]| |] eqn:E1; cbn [bind fst snd] in E; try discriminate.
    destruct (step_ok _ _ _ _ _ _ ND E1) as (-> & D). destruct (IH _ _ _ _ E) as (R & ->). split.
    - destruct D as [(D & C & ->)|(h & D1 & D2 & D3 & D4 & D5)]; [apply run_unknown; assumption|eapply run_known; eassumption].
    - cbn [map rev]. rewrite <- app_assoc. reflexivity.
  Qed.
  Lemma run_loop es : forall seen r r', run seen es r r' -> extensions_loop nid (map (mark seen) hs0) es r = Ok (map (mark (rev (map e_nid es) ++ seen)) hs0, r').
  Proof using inj ND.
    induction es as [|e es IH]; intros seen r r' R; inversion R as [|? ? ? ? ? U C R'|? ? ? ? ? ? h H1 H2 H3 H4 H5 R']; subst; cbn [extensions_loop]; [reflexivity|..].
    - rewrite step_unknown by auto. cbn [bind fst snd]. rewrite (IH _ _ _ R'). cbn [map rev]. rewrite <- app_assoc. reflexivity.
    - rewrite (step_known hs0 e seen r r1 h) by auto. cbn [bind fst snd]. rewrite (IH _ _ _ R'). cbn [map rev]. rewrite <- app_assoc. reflexivity.
  Qed.

  Lemma missing_iff es : existsb (fun h => h_mandatory h && negb (h_found h)) (map (mark (rev (map e_nid es) ++ [])) hs0) = false <->
    forall h, In h hs0 -> h_mandatory h = true -> exists e, In e es /\ e_nid e = nid (h_id h).
  Proof using.
    rewrite app_nil_r. split.
    - intros E h H M. destruct (h_found (mark (rev (map e_nid es)) h)) eqn:F.
      + cbn [mark h_found] in F. apply seen_in in F. rewrite <- in_rev, in_map_iff in F. destruct F as (e & F1 & F2). eauto.
      + exfalso. enough (existsb (fun h => h_mandatory h && negb (h_found h)) (map (mark (rev (map e_nid es))) hs0) = true) by congruence.
        apply existsb_exists. exists (mark (rev (map e_nid es)) h). split; [apply in_map; exact H|].
        change (h_mandatory (mark (rev (map e_nid es)) h)) with (h_mandatory h). rewrite M, F. reflexivity.
    - intros H. destruct (existsb (fun h => h_mandatory h && negb (h_found h)) (map (mark (rev (map e_nid es))) hs0)) eqn:E; [|reflexivity]. exfalso.
      apply existsb_exists in E. destruct E as (h' & Hh' & E). apply in_map_iff in Hh'. destruct Hh' as (h & <- & Hh).
      apply Bool.andb_true_iff in E. destruct E as (M & F). cbn [mark h_mandatory] in M. destruct (H h Hh M) as (e & He & Q).
      apply Bool.negb_true_iff in F. cbn [mark h_found] in F. enough (existsb (Z.eqb (nid (h_id h))) (rev (map e_nid es)) = true) by congruence.
      apply seen_in. rewrite <- in_rev, <- Q. apply in_map. exact He.
  Qed.

  Lemma handle_iff es r r' : handle_extensions nid hs0 es r = Ok r' <->
    run [] es r r' /\ forall h, In h hs0 -> h_mandatory h = true -> exists e, In e es /\ e_nid e = nid (h_id h).
  Proof using inj ND fresh0.
    unfold handle_extensions. rewrite <- mark_nil at 1. split.
    - destruct (extensions_loop nid (map (mark []) hs0) es r) as [[hs' r1]| |] eqn:E; cbn [bind fst snd]; try discriminate.
      apply loop_run in E. destruct E as (R & ->). destruct (existsb _ _) eqn:X; [discriminate|]. intros Q. injection Q as <-. split; [exact R|].
      apply missing_iff. exact X.
    - intros (R & M). rewrite (run_loop _ _ _ _ R). cbn [bind fst snd]. apply missing_iff in M. rewrite M. reflexivity.
  Qed.

  Lemma handle_ub es r : handle_extensions nid hs0 es r = UB ->
    exists h cb e v r1, In h hs0 /\ In e es /\ nid (h_id h) = e_nid e /\ h_cb h = Some cb /\ e_value e = Some v /\ cb v r1 = UB.
  Proof using inj ND fresh0.
    unfold handle_extensions. rewrite <- mark_nil at 1.
    destruct (extensions_loop nid (map (mark []) hs0) es r) as [[hs' r1]| |] eqn:E; cbn [bind fst snd]; try discriminate.
    { destruct (existsb _ _); discriminate. }
    intros _. revert E. generalize (@nil Z). revert r. induction es as [|e es IH]; intros r seen E; cbn [extensions_loop] in E; [discriminate|].
    destruct (handle_extension nid (map (mark seen) hs0) e r) as [[h1 r1]| |] eqn:E1; cbn [bind fst snd] in E; try discriminate.
    - destruct (step_ok _ _ _ _ _ _ ND E1) as (-> & _). destruct (IH _ _ E) as (h & cb & e' & v & r2 & H1 & H2 & H3). exists h, cb, e', v, r2. split; [exact H1|].
      split; [right; exact H2|exact H3].
    - clear - E1. enough (exists h cb v, In h hs0 /\ nid (h_id h) = e_nid e /\ h_cb h = Some cb /\ e_value e = Some v /\ cb v r = UB) as (h & cb & v & H1 & H2 & H3 & H4 & H5).
      { exists h, cb, e, v, r. split; [exact H1|]. split; [left; reflexivity|]. auto. }
      revert E1. induction hs0 as [|h hs IH]; intros E; cbn [map handle_extension] in E; [destruct (e_critical e); discriminate|].
      change (h_id (mark seen h)) with (h_id h) in E. change (h_cb (mark seen h)) with (h_cb h) in E.
      destruct (Z.eqb_spec (nid (h_id h)) (e_nid e)) as [M|M].
      + destruct (h_found (mark seen h)); [discriminate|]. destruct (negb _); [discriminate|]. destruct (h_cb h) as [cb|] eqn:CB; [|discriminate].
        destruct (e_value e) as [v|] eqn:V; [|discriminate]. destruct (cb v r) eqn:R; cbn [bind] in E; try discriminate.
        exists h, cb, v. split; [left; reflexivity|]. auto.
      + destruct (handle_extension nid (map (mark seen) hs) e r) as [[? ?]| |] eqn:E1; cbn [bind] in E; try discriminate.
        destruct (IH eq_refl) as (g & cb & v & G1 & G2). exists g, cb, v. split; [right; exact G1|exact G2].
  Qed.

  Lemma run_once seen es r r' : run seen es r r' -> forall h, In h hs0 ->
    (In (nid (h_id h)) seen -> forall e, In e es -> e_nid e <> nid (h_id h)) /\
    (forall n1 n2 e1 e2, nth_error es n1 = Some e1 -> nth_error es n2 = Some e2 -> e_nid e1 = nid (h_id h) -> e_nid e2 = nid (h_id h) -> n1 = n2).
  Proof using.
    induction 1 as [seen r|seen e es r r' U C R IH|seen e es r r1 r' h' H1 H2 H3 H4 H5 R IH]; intros h Hh.
    - split; [intros _ e []|]. intros [|n1] n2 e1 e2 Q; discriminate.
    - destruct (IH h Hh) as (A & B). split.
      + intros I e' [<-|He']; [intros Q; symmetry in Q; exact (U h Hh Q)|]. apply A; [right; exact I|exact He'].
      + intros n1 n2 e1 e2 Q1 Q2 M1 M2. destruct n1 as [|n1], n2 as [|n2]; cbn [nth_error] in *; [reflexivity|..].
        * injection Q1 as <-. symmetry in M1. destruct (U h Hh M1).
        * injection Q2 as <-. symmetry in M2. destruct (U h Hh M2).
        * f_equal. eapply B; eauto.
    - destruct (IH h Hh) as (A & B). split.
      + intros I e' [<-|He']; [intros Q; rewrite Q in H3; contradiction|]. apply A; [right; exact I|exact He'].
      + intros n1 n2 e1 e2 Q1 Q2 M1 M2. destruct n1 as [|n1], n2 as [|n2]; cbn [nth_error] in *; [reflexivity|..].
        * injection Q1 as <-. exfalso. apply (A ltac:(left; exact M1) e2); [eapply nth_error_In; eassumption|exact M2].
        * injection Q2 as <-. exfalso. apply (A ltac:(left; exact M2) e1); [eapply nth_error_In; eassumption|exact M1].
        * f_equal. eapply B; eauto.
  Qed.
  Lemma run_critical seen es r r' : run seen es r r' -> forall e, In e es ->
    (exists h, In h hs0 /\ nid (h_id h) = e_nid e /\ meta_critical (h_id h) = e_critical e) \/
    ((forall h, In h hs0 -> nid (h_id h) <> e_nid e) /\ e_critical e = false).
  Proof using.
    induction 1 as [seen r|seen e es r r' U C R IH|seen e es r r1 r' h' H1 H2 H3 H4 H5 R IH]; intros e' He'; [destruct He'|..].
    - destruct He' as [<-|He']; [right; auto|auto].
    - destruct He' as [<-|He']; [left; eauto|auto].
  Qed.

  (** A run exists if every step is possible. *)
  Lemma run_exists es : forall seen r,
    (forall h, In h hs0 -> In (nid (h_id h)) seen -> forall e, In e es -> e_nid e <> nid (h_id h)) ->
    (forall h n1 n2 e1 e2, In h hs0 -> nth_error es n1 = Some e1 -> nth_error es n2 = Some e2 -> e_nid e1 = nid (h_id h) -> e_nid e2 = nid (h_id h) -> n1 = n2) ->
    (forall e, In e es -> (forall h, In h hs0 -> nid (h_id h) <> e_nid e) -> e_critical e = false) ->
    (forall h e, In h hs0 -> In e es -> nid (h_id h) = e_nid e -> meta_critical (h_id h) = e_critical e /\ forall r, exists r', step h e r r') ->
    exists r', run seen es r r'.
  Proof using.
    clear fresh0 ND inj. induction es as [|e es IH]; intros seen r HS HO HU HK; [exists r; constructor|].
    assert (D : (exists h, In h hs0 /\ nid (h_id h) = e_nid e) \/ forall h, In h hs0 -> nid (h_id h) <> e_nid e).
    { clear. induction hs0 as [|h hs IH]; [right; intros h []|]. destruct IH as [(g & G1 & G2)|N]; [left; exists g; split; [right|]; assumption|].
      destruct (Z.eq_dec (nid (h_id h)) (e_nid e)) as [M|M]; [left; exists h; split; [left; reflexivity|exact M]|]. right. intros g [<-|G]; auto. }
    assert (O' : forall h n1 n2 e1 e2, In h hs0 -> nth_error es n1 = Some e1 -> nth_error es n2 = Some e2 -> e_nid e1 = nid (h_id h) -> e_nid e2 = nid (h_id h) -> n1 = n2).
    { intros h n1 n2 e1 e2 Hh Q1 Q2 M1 M2. enough (S n1 = S n2) by lia. apply (HO h (S n1) (S n2) e1 e2); auto. }
    assert (S' : forall h, In h hs0 -> In (nid (h_id h)) (e_nid e :: seen) -> forall e', In e' es -> e_nid e' <> nid (h_id h)).
    { intros h Hh [Q|I] e' He' M; [|apply (HS h Hh I e' ltac:(right; exact He') M)].
      apply In_nth_error in He'. destruct He' as (n & Hn). discriminate (HO h 0%nat (S n) e e' Hh eq_refl Hn Q M). }
    destruct D as [(h & H1 & H2)|N].
    - destruct (HK h e H1 (or_introl eq_refl) H2) as (C & K). destruct (K r) as (r1 & S1).
      destruct (IH (e_nid e :: seen) r1 S' O') as (r' & R); [intros; apply HU; [right|]; assumption|intros; apply HK; [|right|]; assumption|].
      exists r'. apply (run_known seen e es r r1 r' h); auto. intros I. rewrite <- H2 in I. exact (HS h H1 I e (or_introl eq_refl) (eq_sym H2)).
    - destruct (IH (e_nid e :: seen) r S' O') as (r' & R); [intros; apply HU; [right|]; assumption|intros; apply HK; [|right|]; assumption|].
      exists r'. apply run_unknown; auto. apply HU; [left; reflexivity|exact N].
  Qed.
End Loop.
