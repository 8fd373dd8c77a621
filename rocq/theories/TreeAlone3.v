(** C77, continued: the loop. *)
From Coq Require Import String Permutation.
From Verif Require Import Base BaseLemmas CString Types DbTable Vrps VrpsSpec PathBuilder Manifest ManifestSpec ManifestProofs
  Resources ResourcesSpec ResourcesProofs2 ResourcesProofs4 ResourcesSim CertProfile Tree TreeSpec TreeProofs TreeTotal TreeAloneSpec TreeAlone TreeAlone2.
Notation length := List.length.

Section Loop.
  Context (W : world) (S : sane W) (Q : still W) (rnd1 rnd2 : nat -> nat -> Z) (root : rpki_uri).
  Let W1 := with_rnd W rnd1.
  Let W2 := with_rnd W rnd2.

  Definition strip (a : state) : state := {| s_defers := []; s_stack := s_stack a; s_heap := s_heap a; s_db := db_table_create; s_clock := s_clock a |}.
  Definition own (a : state) : Prop := reachable (s_heap a, map me_resources (s_stack a)).

  (** *** Everything that is found comes from a path *)
  Inductive layers (h : heap) : list defer -> list meta -> Prop :=
  | layers_nil : layers h [] []
  | layers_sep d m st : layers h d st -> layers h (Separator :: d) (m :: st)
  | layers_item p u d st a p2 : layers h d st -> alone W2 root a -> own a -> stacks h (s_heap a) st (s_stack a) -> In (Deferred p2 u) (s_defers a) -> pps p p2 ->
      layers h (Deferred p u :: d) st.
  Lemma layers_ext h h' d st : ext_of h h' -> Forall (res_ok h) (map me_resources st) -> layers h d st -> layers h' d st.
  Proof.
    intros X F L. induction L as [|d m st L IH|p u d st a p2 L IH Ha Ho Hs Hi Hp]; [constructor| |].
    - constructor. apply IH. inversion F; assumption.
    - econstructor; try eassumption; [apply IH; exact F|]. eapply stacks_ext; [exact X|apply ext_refl|exact F|apply reach_ok; exact Ho|exact Hs].
  Qed.
  Lemma pop_layers h : forall d st st' p u d', layers h d st -> reachable (h, map me_resources st) -> pop_loop d st = Ok (st', Some (p, u, d')) ->
    layers h (Deferred p u :: d') st' /\ reachable (h, map me_resources st').
  Proof.
    induction d as [|[|q w] d IH]; intros st st' p u d' L R H; cbn [pop_loop] in H; [discriminate H| |].
    - destruct st as [|m st]; [discriminate H|]. inversion L; subst. eapply IH; [eassumption| |exact H]. eapply (reach_step _ OpPop); [exact R|exact I|reflexivity].
    - injection H as <- <- <- <-. auto.
  Qed.
  Lemma stage (s1 s2 s1' s2' : state) d b : changed s1 s2 s1' s2' b -> (s_defers s1) = d -> layers (s_heap s1) d (s_stack s1) -> Forall (res_ok (s_heap s1)) (map me_resources (s_stack s1)) ->
    (b = true -> alone W2 root s2') -> s_defers s2 = [] -> s_db s2 = db_table_create ->
    layers (s_heap s1') (s_defers s1') (s_stack s1') /\ forall v, roas_of (s_db s1') v -> roas_of (s_db s1) v \/ (alone W2 root s2' /\ roas_of (s_db s2') v).
  Proof.
    intros [[R1 R2 L] X1 X2 Ad St] Ed Hl Fr Ha E2 Edb. destruct St as [(D1 & S1 & _ & _ & D)|(-> & p1 & p2 & m1 & m2 & S1 & S2 & P & D1 & D2)].
    - rewrite D1, S1, D, Ed. split; [|auto]. eapply layers_ext; eassumption.
    - specialize (Ha eq_refl). split.
      + rewrite D1, S1, Ed.
        assert (Inc : forall l, (forall u, In u l -> In u (pp_certs (pp_files p1))) -> layers (s_heap s1') (map (Deferred p1) l ++ Separator :: d) (m1 :: s_stack s1)).
        { induction l as [|u l IH]; intros Hin; cbn [map app].
          - constructor. eapply layers_ext; eassumption.
          - eapply (layers_item _ p1 u _ _ s2' p2); [apply IH; intros w Hw; apply Hin; right; exact Hw|exact Ha|exact R2|rewrite <- S1; exact L| |exact P].
            rewrite D2. apply in_or_app. left. apply in_map. destruct P as (_ & Pc & _). eapply Permutation_in; [exact Pc|]. apply Hin. left. reflexivity. }
        apply Inc. auto.
      + intros v Hv. destruct Ad as (A & A1 & A2). apply A1 in Hv. destruct Hv as [Hv|Hv]; [auto|]. right. split; [exact Ha|]. apply A2. auto.
  Qed.
  Lemma loop_alone : forall f s db', layers (s_heap s) (s_defers s) (s_stack s) -> own s -> tal_loop W1 f s = Some (Ok db') ->
    forall v, roas_of db' v -> roas_of (s_db s) v \/ exists a, alone W2 root a /\ roas_of (s_db a) v.
  Proof.
    induction f as [|f IH]; intros s db' Hl R H v Hv; cbn [tal_loop] in H; [discriminate H|].
    destruct (pop_loop (s_defers s) (s_stack s)) as [[st [[[p u] d]|]]| |] eqn:P; try discriminate H; [|injection H as <-; auto].
    destruct (pop_layers _ _ _ _ _ _ _ Hl R P) as (L' & R').
    inversion L' as [| |p' u' d' st' a p2 L0 Ha Ho Hs Hi Hp]; subst.
    set (s0 := {| s_defers := d; s_stack := st; s_heap := s_heap s; s_db := s_db s; s_clock := s_clock s |}) in *.
    destruct (certificate_traverse W1 (Some p) u s0) as [[s1 b]| |] eqn:T; try discriminate H.
    destruct (traverse_sim W S Q rnd1 rnd2 (Some p) (Some p2) u s0 (strip a) s1 b) as (s2 & T2 & Ch); [constructor; assumption|exact Hp|exact T|].
    destruct (stage s0 (strip a) s1 s2 d b Ch eq_refl L0) as (L1 & K); [apply reach_ok; exact R'| |reflexivity|reflexivity|].
    { intros ->. eapply alone_next; [exact Ha|exact Hi|exact T2]. }
    destruct (IH s1 db' L1 (al_reach1 _ _ (ch_alike _ _ _ _ _ Ch)) H v Hv) as [K'|K']; [|right; exact K']. apply K in K'. destruct K' as [K'|K']; [left; exact K'|right; eauto].
  Qed.

  (** *** Every path is followed *)
  Inductive pending (p : pp) (u : rpki_uri) (st' : list meta) : list defer -> list meta -> Prop :=
  | pend_here d : pending p u st' (Deferred p u :: d) st'
  | pend_item q w d st : pending p u st' d st -> pending p u st' (Deferred q w :: d) st
  | pend_sep d m st : pending p u st' d st -> pending p u st' (Separator :: d) (m :: st).
  Inductive from : pp -> rpki_uri -> state -> state -> Prop :=
  | from_here p u a b : certificate_traverse W2 (Some p) u (strip a) = Ok (b, true) -> from p u a b
  | from_under p u a c q w b : certificate_traverse W2 (Some p) u (strip a) = Ok (c, true) -> In (Deferred q w) (s_defers c) -> from q w c b -> from p u a b.
  Lemma from_next p u a c q w b : from p u a c -> In (Deferred q w) (s_defers c) -> certificate_traverse W2 (Some q) w (strip c) = Ok (b, true) -> from p u a b.
  Proof.
    intros F. revert q w b. induction F as [p u a c T|p u a c' q' w' c T I F IH]; intros q w b Hi Tb.
    - eapply from_under; [exact T|exact Hi|]. apply from_here. exact Tb.
    - eapply from_under; [exact T|exact I|]. eapply IH; eassumption.
  Qed.
  Lemma alone_from s : alone W2 root s -> exists r, ends_with (u_global root) (cstr ".cer") /\
    certificate_traverse W2 None root (create 0 db_table_create) = Ok (r, true) /\ (s = r \/ exists p u, In (Deferred p u) (s_defers r) /\ from p u r s).
  Proof.
    intros H. induction H as [s E T|a p u s Ha IH Hi T].
    - exists s. split; [exact E|]. split; [exact T|auto].
    - destruct IH as (r & E & Tr & Hr). exists r. split; [exact E|]. split; [exact Tr|]. right. destruct Hr as [->|(q & w & Hq & F)].
      + exists p, u. split; [exact Hi|]. apply from_here. exact T.
      + exists q, w. split; [exact Hq|]. eapply from_next; [exact F|exact Hi|exact T].
  Qed.
  Lemma pop_pending p u st' d st : pending p u st' d st -> forall st0 p0 u0 d0, pop_loop d st = Ok (st0, Some (p0, u0, d0)) ->
    (p = p0 /\ u = u0 /\ st' = st0) \/ pending p u st' d0 st0.
  Proof.
    intros H. induction H as [d|q w d st H IH|d m st H IH]; intros st0 p0 u0 d0 E; cbn [pop_loop] in E.
    - injection E as <- <- <- <-. auto.
    - injection E as <- <- <- <-. auto.
    - apply IH. exact E.
  Qed.
  Lemma pop_some p u st' d st : pending p u st' d st -> exists st0 x, pop_loop d st = Ok (st0, Some x).
  Proof. intros H. induction H as [d|q w d st H IH|d m st H IH]; cbn [pop_loop]; eauto. Qed.
  Lemma pop_reach h : forall d st st' o, reachable (h, map me_resources st) -> pop_loop d st = Ok (st', o) -> reachable (h, map me_resources st').
  Proof.
    induction d as [|[|q w] d IH]; intros st st' o R H; cbn [pop_loop] in H; [injection H as <- _; exact R| |injection H as <- _; exact R].
    destruct st as [|m st]; [discriminate H|]. eapply IH; [|exact H]. eapply (reach_step _ OpPop); [exact R|exact I|reflexivity].
  Qed.
  Lemma pending_app p u st' l q d st : pending p u st' d st -> pending p u st' (map (Deferred q) l ++ d) st.
  Proof. intros H. induction l; cbn; [exact H|]. constructor. exact IHl. Qed.
  Lemma pending_in p u l d st : In u l -> pending p u st (map (Deferred p) l ++ d) st.
  Proof. intros H. induction l as [|a l IH]; [contradiction|]. destruct H as [->|H]; cbn; constructor. apply IH. exact H. Qed.
  Lemma pending_suffix p u st' d st : pending p u st' d st -> exists k, st = k ++ st'.
  Proof.
    intros H. induction H as [d|q w d st H IH|d m st H IH]; [exists []; reflexivity|exact IH|]. destruct IH as (k & ->). exists (m :: k). reflexivity.
  Qed.

  Lemma roas_create v : ~ roas_of db_table_create v.
  Proof. intros []. Qed.

  Lemma loop_complete : forall f s db', layers (s_heap s) (s_defers s) (s_stack s) -> own s -> tal_loop W1 f s = Some (Ok db') ->
    (forall v, roas_of (s_db s) v -> roas_of db' v) /\
    forall p u st', pending p u st' (s_defers s) (s_stack s) -> forall a p2, own a -> stacks (s_heap s) (s_heap a) st' (s_stack a) -> pps p p2 ->
      forall b, from p2 u a b -> forall v, roas_of (s_db b) v -> roas_of db' v.
  Proof.
    induction f as [|f IH]; intros s db' Hl R H; cbn [tal_loop] in H; [discriminate H|].
    destruct (pop_loop (s_defers s) (s_stack s)) as [[st [[[p0 u0] d]|]]| |] eqn:P; try discriminate H.
    2:{ injection H as <-. split; [auto|]. intros p u st' Hp. apply pop_some in Hp. destruct Hp as (st0 & x & E). congruence. }
    destruct (pop_layers _ _ _ _ _ _ _ Hl R P) as (L' & R0).
    inversion L' as [| |p' u' d' st' a0 p02 L0 Ha0 Ho0 Hs0 Hi0 Hp0]; subst.
    set (s0 := {| s_defers := d; s_stack := st; s_heap := s_heap s; s_db := s_db s; s_clock := s_clock s |}) in *.
    destruct (certificate_traverse W1 (Some p0) u0 s0) as [[s1 b0]| |] eqn:T; try discriminate H.
    (** what this does to the state, seen from any equal one *)
    assert (Sim : forall a p2, own a -> stacks (s_heap s) (s_heap a) st (s_stack a) -> pps p0 p2 -> exists s2, certificate_traverse W2 (Some p2) u0 (strip a) = Ok (s2, b0) /\ changed s0 (strip a) s1 s2 b0).
    { intros a p2 Ho Hs Hp. eapply (traverse_sim W S Q rnd1 rnd2 (Some p0) (Some p2)); [constructor; assumption|exact Hp|exact T]. }
    destruct (Sim a0 p02 Ho0 Hs0 Hp0) as (s20 & T20 & Ch0).
    destruct (stage s0 (strip a0) s1 s20 d b0 Ch0 eq_refl L0) as (L1 & _); [apply reach_ok; exact R0| |reflexivity|reflexivity|].
    { intros ->. eapply alone_next; [exact Ha0|exact Hi0|exact T20]. }
    destruct (IH s1 db' L1 (al_reach1 _ _ (ch_alike _ _ _ _ _ Ch0)) H) as (Mono & Pend).
    assert (Mono0 : forall v, roas_of (s_db s) v -> roas_of db' v).
    { intros v Hv. apply Mono. destruct (ch_db _ _ _ _ _ Ch0) as (A & A1 & _). apply A1. left. exact Hv. }
    split; [exact Mono0|]. intros p u st' Hp a p2 Ho Hs Hpp b F v Hv.
    destruct (pop_pending _ _ _ _ _ Hp _ _ _ _ P) as [(-> & -> & ->)|Hp'].
    - destruct (Sim a p2 Ho Hs Hpp) as (s2 & T2 & Ch).
      inversion F as [p' u' a' b' Tb|p' u' a' c q w b' Tc Hq F']; subst.
      + assert (Es : b = s2) by congruence. subst b. apply Mono. destruct (ch_db _ _ _ _ _ Ch) as (A & A1 & A2). apply A1. right.
        apply A2 in Hv. destruct Hv as [Hv|Hv]; [elim (roas_create v Hv)|exact Hv].
      + assert (Es : c = s2) by congruence. subst c. destruct Ch as [[Q1 Q2 Q3] X1 X2 _ St].
        destruct St as [(_ & _ & D2 & _)|(_ & p1 & q2 & m1 & m2 & S1 & S2 & Pq & D1 & D2)].
        * rewrite D2 in Hq. elim Hq.
        * rewrite D2 in Hq. apply in_app_or in Hq. destruct Hq as [Hq|[Hq|[]]]; [|discriminate Hq].
          apply in_map_iff in Hq. destruct Hq as (w' & Ew & Hw). injection Ew as <- <-.
          eapply (Pend p1 w' (s_stack s1)); [|exact Q2|exact Q3|exact Pq|exact F'|exact Hv].
          rewrite D1. apply pending_in. destruct Pq as (_ & Pc & _). eapply Permutation_in; [symmetry; exact Pc|exact Hw].
    - assert (Hp1 : pending p u st' (s_defers s1) (s_stack s1)).
      { destruct (ch_stacks _ _ _ _ _ Ch0) as [(D1 & S1 & _)|(_ & p1 & q2 & m1 & m2 & S1 & _ & _ & D1 & _)]; rewrite D1, S1; cbn [s_defers s_stack s0]; [exact Hp'|].
        apply pending_app. constructor. exact Hp'. }
      eapply (Pend p u st' Hp1 a p2 Ho); [|exact Hpp|exact F|exact Hv].
      destruct (pending_suffix _ _ _ _ _ Hp') as (k & Ek).
      eapply stacks_ext; [exact (ch_ext1 _ _ _ _ _ Ch0)|apply ext_refl| |apply reach_ok; exact Ho|exact Hs].
      pose proof (reach_ok _ _ R0) as Fo. rewrite Ek, map_app in Fo. apply Forall_app in Fo. apply Fo.
  Qed.
End Loop.
