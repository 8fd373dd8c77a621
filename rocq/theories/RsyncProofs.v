(** Proofs for C85. *)
From Verif Require Import Base BaseLemmas Rsync RsyncSpec.
Notation length := List.length.

Lemma fds_app o l o1 l' o2 : fds o l o1 -> fds o1 l' o2 -> fds o (l ++ l') o2.
Proof. induction 1; intros K; cbn [app]; try (constructor; auto; fail). exact K. Qed.
Lemma children_app o l o1 l' o2 : children o l o1 -> children o1 l' o2 -> children o (l ++ l') o2.
Proof. induction 1; intros K; cbn [app]; try (constructor; auto; fail). exact K. Qed.
(** Only closes. *)
Definition only_closes (l : list action) : Prop := Forall (fun a => exists n, a = AClose n) l.
Lemma closes_children o l : only_closes l -> children o l o.
Proof. induction 1 as [|a l (n & ->) _ IH]; constructor. exact IH. Qed.
Definition opt (fd : option Z) : list Z := match fd with Some n => [n] | None => [] end.

Lemma close_fds a b : fds (opt a ++ opt b) (close_fd a ++ close_fd b) [].
Proof.
  destruct a as [x|], b as [y|]; cbn [opt app close_fd].
  - apply (fds_close [] x [y]). apply (fds_close [] y []). constructor.
  - apply (fds_close [] x []). constructor.
  - apply (fds_close [] y []). constructor.
  - constructor.
Qed.
Lemma handle0 fd ev err fd' err' l rest : ev <> EvNval -> handle_fd fd ev err = (fd', err', l) -> fds (opt fd ++ rest) l (opt fd' ++ rest).
Proof.
  unfold handle_fd. intros N E. destruct fd as [n|]; [|injection E as <- <- <-; constructor].
  destruct ev as [| | |[e| |]]; try (injection E as <- <- <-; cbn [opt app]; constructor; fail); try (injection E as <- <- <-; cbn [opt app]; apply (fds_close [] n rest); constructor; fail); [congruence|].
  destruct (e =? E_INTR); injection E as <- <- <-; cbn [opt app]; [constructor|apply (fds_close [] n rest); constructor].
Qed.
Lemma handle1 fd ev err fd' err' l pre : ev <> EvNval -> handle_fd fd ev err = (fd', err', l) -> fds (pre ++ opt fd) l (pre ++ opt fd').
Proof.
  unfold handle_fd. intros N E. destruct fd as [n|]; [|injection E as <- <- <-; constructor].
  destruct ev as [| | |[e| |]]; try (injection E as <- <- <-; cbn [opt app]; constructor; fail); try (injection E as <- <- <-; cbn [opt app]; apply (fds_close pre n []); rewrite app_nil_r; constructor; fail); [congruence|].
  destruct (e =? E_INTR); injection E as <- <- <-; cbn [opt app]; [constructor|apply (fds_close pre n []); rewrite app_nil_r; constructor].
Qed.
Lemma handle_closes fd ev err fd' err' l : handle_fd fd ev err = (fd', err', l) -> only_closes l.
Proof.
  unfold handle_fd, only_closes. intros E. destruct fd as [n|]; [|injection E as <- <- <-; constructor].
  destruct ev as [| | |[e| |]]; try (injection E as <- <- <-; repeat constructor; eexists; reflexivity).
  destruct (e =? E_INTR); injection E as <- <- <-; repeat constructor; eexists; reflexivity.
Qed.
Lemma close_fd_closes fd : only_closes (close_fd fd).
Proof. destruct fd; repeat constructor. eexists; reflexivity. Qed.
Lemma exhaust_closes timeout : forall evs a b err r l, exhaust_read_fds timeout a b err evs = (r, l) -> only_closes l.
Proof.
  unfold only_closes.
  induction evs as [|[|e|ev0 ev1 d] evs IH]; intros a b err r l E; cbn [exhaust_read_fds] in E.
  - injection E as <- <-. constructor.
  - injection E as <- <-. apply Forall_app. split; apply close_fd_closes.
  - destruct (e =? E_INTR); [eapply IH; exact E|]. injection E as <- <-. apply Forall_app. split; apply close_fd_closes.
  - destruct (handle_fd a ev0 err) as ((a', err1), l0) eqn:E0. destruct (handle_fd b ev1 err1) as ((b', err2), l1) eqn:E1. pose proof (handle_closes _ _ _ _ _ _ E0) as C0. pose proof (handle_closes _ _ _ _ _ _ E1) as C1.
    assert (G : forall x, (if d <? 0 then (Some 1, (l0 ++ l1) ++ close_fd a' ++ close_fd b') else if timeout <=? d then (Some 2, (l0 ++ l1) ++ close_fd a' ++ close_fd b') else let '(r, log') := exhaust_read_fds timeout a' b' err2 evs in (r, (l0 ++ l1) ++ log')) = (x, l) -> only_closes l).
    { intros x X. destruct (d <? 0); [injection X as <- <-; repeat (apply Forall_app; split); try assumption; apply close_fd_closes|].
      destruct (timeout <=? d); [injection X as <- <-; repeat (apply Forall_app; split); try assumption; apply close_fd_closes|].
      destruct (exhaust_read_fds timeout a' b' err2 evs) as (r', l') eqn:X'. injection X as <- <-. repeat (apply Forall_app; split); try assumption. eapply IH. exact X'. }
    destruct a' as [a'|]; [exact (G _ E)|]. destruct b' as [b'|]; [exact (G _ E)|]. injection E as <- <-. apply Forall_app. auto.
Qed.
Lemma exhaust_fds timeout : forall evs a b err r l, Forall valid_event evs -> exhaust_read_fds timeout a b err evs = (r, l) ->
  exists o, fds (opt a ++ opt b) l o /\ (r <> None -> o = []).
Proof.
  induction evs as [|[|e|ev0 ev1 d] evs IH]; intros a b err r l V E; cbn [exhaust_read_fds] in E.
  - injection E as <- <-. eexists. split; [constructor|congruence].
  - injection E as <- <-. eexists. split; [apply close_fds|reflexivity].
  - inversion V; subst. destruct (e =? E_INTR); [eapply IH; eassumption|]. injection E as <- <-. eexists. split; [apply close_fds|reflexivity].
  - inversion V as [|? ? Ve V']; subst. cbn [valid_event] in Ve. destruct Ve as (V0 & V1 & _).
    destruct (handle_fd a ev0 err) as ((a', err1), l0) eqn:E0. destruct (handle_fd b ev1 err1) as ((b', err2), l1) eqn:E1.
    pose proof (handle0 _ _ _ _ _ _ (opt b) V0 E0) as C0. pose proof (handle1 _ _ _ _ _ _ (opt a') V1 E1) as C1. pose proof (fds_app _ _ _ _ _ C0 C1) as C.
    assert (G : (if d <? 0 then (Some 1, (l0 ++ l1) ++ close_fd a' ++ close_fd b') else if timeout <=? d then (Some 2, (l0 ++ l1) ++ close_fd a' ++ close_fd b') else let '(r, log') := exhaust_read_fds timeout a' b' err2 evs in (r, (l0 ++ l1) ++ log')) = (r, l) -> exists o, fds (opt a ++ opt b) l o /\ (r <> None -> o = [])).
    { intros X. destruct (d <? 0); [injection X as <- <-; eexists; split; [eapply fds_app; [exact C|apply close_fds]|reflexivity]|].
      destruct (timeout <=? d); [injection X as <- <-; eexists; split; [eapply fds_app; [exact C|apply close_fds]|reflexivity]|].
      destruct (exhaust_read_fds timeout a' b' err2 evs) as (r', l') eqn:X'. injection X as <- <-. destruct (IH _ _ _ _ _ V' X') as (o & Ho & Hr). exists o. split; [eapply fds_app; eassumption|exact Hr]. }
    destruct a' as [a'|]; [exact (G E)|]. destruct b' as [b'|]; [exact (G E)|]. injection E as <- <-. exists []. split; [exact C|reflexivity].
Qed.

(** *** What exhaust_read_fds() returns *)
Lemma handle_error fd ev err fd' err' l : handle_fd fd ev err = (fd', err', l) -> 0 <= err -> (forall e, ev = EvIn (RdError e) -> 0 < e) -> 0 <= err' /\ (err' = 0 -> err = 0 /\ (fd <> None -> fd' = None -> ev = EvIn RdEnd)).
Proof.
  unfold handle_fd. intros E He Hv. destruct fd as [n|]; [|injection E as <- <- <-; split; [exact He|intros K; split; [exact K|congruence]]].
  assert (L : forall x, 0 <= x -> 0 <= Z.lor x 1 /\ Z.lor x 1 <> 0).
  { intros x Hx. split; [apply Z.lor_nonneg; lia|]. intros K. apply Z.lor_eq_0_iff in K. lia. }
  destruct ev as [| | |[e| |]]; cbn in E.
  - injection E as <- <- <-. split; [exact He|]. intros K. split; [exact K|discriminate].
  - injection E as <- <- <-. destruct (L err He) as (A & B). split; [exact A|intros K; contradiction].
  - injection E as <- <- <-. destruct (L err He) as (A & B). split; [exact A|intros K; contradiction].
  - specialize (Hv e eq_refl). destruct (e =? E_INTR); injection E as <- <- <-; [split; [lia|intros K; exfalso; lia]|]. destruct (L e ltac:(lia)) as (A & B). split; [exact A|intros K; contradiction].
  - injection E as <- <- <-. split; [exact He|]. intros K. split; [exact K|discriminate].
  - injection E as <- <- <-. rewrite Z.lor_0_r. split; [exact He|]. intros K. split; [exact K|reflexivity].
Qed.
Lemma exhaust_zero timeout : forall evs a b err l, Forall valid_event evs -> 0 <= err -> exhaust_read_fds timeout a b err evs = (Some 0, l) ->
  err = 0 /\ (a <> None -> ended0 evs) /\ (b <> None -> ended1 evs).
Proof.
  assert (W0 : forall e evs, ended0 evs -> ended0 (e :: evs)) by (intros e evs (x & y & K); exists x, y; right; exact K).
  assert (W1 : forall e evs, ended1 evs -> ended1 (e :: evs)) by (intros e evs (x & y & K); exists x, y; right; exact K).
  induction evs as [|[|e|ev0 ev1 d] evs IH]; intros a b err l V He E; cbn [exhaust_read_fds] in E; try discriminate E.
  - inversion V as [|? ? Ve V']; subst. cbn in Ve. destruct (e =? E_INTR); [|discriminate E]. destruct (fun u => IH _ _ _ _ V' u E) as (K & _); [lia|exfalso; lia].
  - inversion V as [|? ? Ve V']; subst. cbn [valid_event] in Ve. destruct Ve as (V0 & V1 & V2 & V3).
    destruct (handle_fd a ev0 err) as ((a', err1), l0) eqn:E0. destruct (handle_fd b ev1 err1) as ((b', err2), l1) eqn:E1.
    destruct (handle_error _ _ _ _ _ _ E0 He V2) as (P0 & Q0). destruct (handle_error _ _ _ _ _ _ E1 P0 V3) as (P1 & Q1).
    assert (X : err2 = 0 -> (a' <> None -> ended0 evs) -> (b' <> None -> ended1 evs) -> err = 0 /\ (a <> None -> ended0 (PReady ev0 ev1 d :: evs)) /\ (b <> None -> ended1 (PReady ev0 ev1 d :: evs))).
    { intros K A B. destruct (Q1 K) as (K1 & R1). destruct (Q0 K1) as (K0 & R0). split; [exact K0|]. split.
      - intros N. destruct a' as [x|]; [apply W0; apply A; discriminate|]. rewrite (R0 N eq_refl). exists ev1, d. left. reflexivity.
      - intros N. destruct b' as [x|]; [apply W1; apply B; discriminate|]. rewrite (R1 N eq_refl). exists ev0, d. left. reflexivity. }
    assert (G : (if d <? 0 then (Some 1, (l0 ++ l1) ++ close_fd a' ++ close_fd b') else if timeout <=? d then (Some 2, (l0 ++ l1) ++ close_fd a' ++ close_fd b') else let '(r, log') := exhaust_read_fds timeout a' b' err2 evs in (r, (l0 ++ l1) ++ log')) = (Some 0, l) -> err = 0 /\ (a <> None -> ended0 (PReady ev0 ev1 d :: evs)) /\ (b <> None -> ended1 (PReady ev0 ev1 d :: evs))).
    { intros Y. destruct (d <? 0); [discriminate Y|]. destruct (timeout <=? d); [discriminate Y|]. destruct (exhaust_read_fds timeout a' b' err2 evs) as (r', l') eqn:Y'. injection Y as -> <-. destruct (IH _ _ _ _ V' P1 Y') as (K & A & B). apply X; assumption. }
    destruct a' as [a'|]; [exact (G E)|]. destruct b' as [b'|]; [exact (G E)|]. injection E as E <-. apply X; [exact E|congruence|congruence].
Qed.
(** It's still reading: the time isn't over. *)
Lemma exhaust_time timeout : forall evs a b err l, exhaust_read_fds timeout a b err evs = (None, l) ->
  forall x y d, In (PReady x y d) evs -> 0 <= d < timeout.
Proof.
  induction evs as [|[|e|ev0 ev1 d0] evs IH]; intros a b err l E x y d H; cbn [exhaust_read_fds] in E; try discriminate E.
  - destruct H.
  - destruct H as [H|H]; [discriminate H|]. destruct (e =? E_INTR); [|discriminate E]. eapply IH; eassumption.
  - destruct (handle_fd a ev0 err) as ((a', err1), l0). destruct (handle_fd b ev1 err1) as ((b', err2), l1).
    assert (G : (if d0 <? 0 then (Some 1, (l0 ++ l1) ++ close_fd a' ++ close_fd b') else if timeout <=? d0 then (Some 2, (l0 ++ l1) ++ close_fd a' ++ close_fd b') else let '(r, log') := exhaust_read_fds timeout a' b' err2 evs in (r, (l0 ++ l1) ++ log')) = (None, l) -> 0 <= d < timeout).
    { intros Y. destruct (Z.ltb_spec d0 0) as [L|L]; [discriminate Y|]. destruct (Z.leb_spec timeout d0) as [M|M]; [discriminate Y|]. destruct (exhaust_read_fds timeout a' b' err2 evs) as (r', l') eqn:Y'. injection Y as -> <-.
      destruct H as [H|H]; [injection H as <- <- <-; lia|]. eapply IH; eassumption. }
    destruct a' as [a'|]; [exact (G E)|]. destruct b' as [b'|]; [exact (G E)|]. discriminate E.
Qed.
Lemma exhaust_returns timeout : forall evs a b err, In PTimeout evs -> exists r l, exhaust_read_fds timeout a b err evs = (Some r, l).
Proof.
  induction evs as [|[|e|ev0 ev1 d0] evs IH]; intros a b err H; cbn [exhaust_read_fds]; [destruct H|eauto| |].
  - destruct H as [H|H]; [discriminate H|]. destruct (e =? E_INTR); [apply IH; exact H|eauto].
  - destruct H as [H|H]; [discriminate H|]. destruct (handle_fd a ev0 err) as ((a', err1), l0). destruct (handle_fd b ev1 err1) as ((b', err2), l1).
    assert (G : exists r l, (if d0 <? 0 then (Some 1, (l0 ++ l1) ++ close_fd a' ++ close_fd b') else if timeout <=? d0 then (Some 2, (l0 ++ l1) ++ close_fd a' ++ close_fd b') else let '(r, log') := exhaust_read_fds timeout a' b' err2 evs in (r, (l0 ++ l1) ++ log')) = (Some r, l)).
    { destruct (d0 <? 0); [eauto|]. destruct (timeout <=? d0); [eauto|]. destruct (IH a' b' err2 H) as (r & l & ->). eauto. }
    destruct a'; [exact G|]. destruct b'; [exact G|]. eauto.
Qed.
(** Two streams that end, without interruptions or errors. *)
Lemma exhaust_happy timeout : forall evs a b, a <> None \/ b <> None ->
  Forall (fun e => match e with PReady x y d => In x [EvNone; EvIn RdData; EvIn RdEnd] /\ In y [EvNone; EvIn RdData; EvIn RdEnd] /\ 0 <= d < timeout | _ => False end) evs ->
  (a <> None -> ended0 evs) -> (b <> None -> ended1 evs) -> exists l, exhaust_read_fds timeout a b 0 evs = (Some 0, l).
Proof.
  induction evs as [|[|e|x y d] evs IH]; intros a b N F A B.
  - destruct N as [N|N]; [destruct (A N) as (? & ? & [])|destruct (B N) as (? & ? & [])].
  - inversion F; contradiction.
  - inversion F; contradiction.
  - inversion F as [|? ? Ff F']; subst. cbn in Ff. destruct Ff as (Fx & Fy & Fd). cbn [exhaust_read_fds].
    assert (H0 : exists a' l0, handle_fd a x 0 = (a', 0, l0) /\ (a' <> None -> a <> None /\ x <> EvIn RdEnd)).
    { unfold handle_fd. destruct a as [n|]; [|exists None, []; split; [reflexivity|congruence]]. destruct Fx as [<-|[<-|[<-|[]]]]; eexists _, _; (split; [reflexivity|]); intros K; split; try discriminate; try congruence. }
    assert (H1 : exists b' l1, handle_fd b y 0 = (b', 0, l1) /\ (b' <> None -> b <> None /\ y <> EvIn RdEnd)).
    { unfold handle_fd. destruct b as [n|]; [|exists None, []; split; [reflexivity|congruence]]. destruct Fy as [<-|[<-|[<-|[]]]]; eexists _, _; (split; [reflexivity|]); intros K; split; try discriminate; try congruence. }
    destruct H0 as (a' & l0 & -> & Ha). destruct H1 as (b' & l1 & -> & Hb).
    assert (G : a' <> None \/ b' <> None -> exists l, (if d <? 0 then (Some 1, (l0 ++ l1) ++ close_fd a' ++ close_fd b') else if timeout <=? d then (Some 2, (l0 ++ l1) ++ close_fd a' ++ close_fd b') else let '(r, log') := exhaust_read_fds timeout a' b' 0 evs in (r, (l0 ++ l1) ++ log')) = (Some 0, l)).
    { intros N'. destruct (Z.ltb_spec d 0) as [L|L]; [lia|]. destruct (Z.leb_spec timeout d) as [M|M]; [lia|].
      destruct (IH a' b' N' F') as (l & ->); [| |eauto].
      - intros K. destruct (Ha K) as (K1 & K2). destruct (A K1) as (b0 & d0 & [J|J]); [injection J as -> _ _; congruence|exists b0, d0; exact J].
      - intros K. destruct (Hb K) as (K1 & K2). destruct (B K1) as (a0 & d0 & [J|J]); [injection J as _ -> _; congruence|exists a0, d0; exact J]. }
    destruct a' as [a'|]; [apply G; left; discriminate|]. destruct b' as [b'|]; [apply G; right; discriminate|]. eauto.
Qed.

(** *** The attempts *)
Lemma pipes_fds r : valid_run r ->
  match create_pipes r with
  | inr e => fds [] (create_pipes_log r) [] /\ e <> 0
  | inl ((a, b), (c, d)) => fds [] (create_pipes_log r) [d; c; b; a] /\ NoDup [a; b; c; d]
  end.
Proof.
  intros (V1 & V2 & V3 & V4 & _). unfold create_pipes, create_pipes_log. destruct (ru_pipe1 r) as [(a, b)|e] eqn:E1; [|split; [constructor|specialize (V3 e eq_refl); lia]].
  specialize (V1 a b eq_refl). destruct (ru_pipe2 r) as [(c, d)|e] eqn:E2.
  - specialize (V2 a b c d eq_refl eq_refl). split; [|exact V2]. inversion V2 as [|? ? N1 V2']; subst. inversion V2' as [|? ? N2 V2'']; subst. inversion V2'' as [|? ? N3 _]; subst. cbn in N1, N2, N3.
    cbn [app]. apply fds_open; [cbn; tauto|]. apply fds_open; [cbn; intuition congruence|]. apply fds_open; [cbn; intuition congruence|]. apply fds_open; [cbn; intuition congruence|]. constructor.
  - split; [|specialize (V4 e eq_refl); lia]. cbn [app]. apply fds_open; [cbn; tauto|]. apply fds_open; [cbn; intuition congruence|].
    apply (fds_close [b] a []). apply (fds_close [] b []). constructor.
Qed.
Lemma pipes_children r o : children o (create_pipes_log r) o.
Proof.
  unfold create_pipes_log. destruct (ru_pipe1 r) as [(a, b)|e]; [|constructor]. destruct (ru_pipe2 r) as [(c, d)|e]; cbn [app]; repeat constructor.
Qed.
(** One attempt: what its log does. *)
Definition log_of (r : run) (pid : Z) (ew ow : Z) (log1 : list action) : list action := create_pipes_log r ++ [AFork pid; AClose ew; AClose ow] ++ log1.
Lemma attempt_fds timeout r er ew orr ow pid x log1 : valid_run r -> create_pipes r = inl ((er, ew), (orr, ow)) -> exhaust_read_fds timeout (Some er) (Some orr) 0 (ru_polls r) = (x, log1) ->
  exists o, fds [] (log_of r pid ew ow log1) o /\ (x <> None -> o = []).
Proof.
  intros V E X. pose proof (pipes_fds r V) as P. rewrite E in P. destruct P as (P & _). destruct V as (_ & _ & _ & _ & _ & _ & V).
  destruct (exhaust_fds _ _ _ _ _ _ _ V X) as (o & Ho & Hr). cbn [opt app] in Ho.
  assert (Sw : exists o', fds [orr; er] log1 o' /\ (o = [] -> o' = [])).
  { pose proof (exhaust_closes _ _ _ _ _ _ _ X) as C. clear -Ho C.
    assert (G : forall l p q o, only_closes l -> (forall z, count_occ Z.eq_dec p z = count_occ Z.eq_dec q z) -> fds p l o -> exists o', fds q l o' /\ (forall z, count_occ Z.eq_dec o z = count_occ Z.eq_dec o' z)).
    { intros l p q o2 C' Hpq F. revert q Hpq C'. induction F as [o3|o3 n l o' N F IH|o1 n o3 l o' F IH|o3 p l o' F IH|o3 p l o' F IH|o3 p l o' F IH|o3 l o' F IH]; intros q Hpq C'.
      - exists q. split; [constructor|exact Hpq].
      - inversion C' as [|? ? (m & K) _]; discriminate K.
      - inversion C' as [|? ? _ C'']; subst. assert (I : In n q).
        { apply (count_occ_In Z.eq_dec). rewrite <- Hpq, count_occ_app. cbn [count_occ]. destruct (Z.eq_dec n n); [lia|congruence]. }
        apply in_split in I. destruct I as (q1 & q2 & ->). destruct (IH (q1 ++ q2)) as (o'' & F' & Hc); [|exact C''|exists o''; split; [apply fds_close; exact F'|exact Hc]].
        intros z. specialize (Hpq z). rewrite !count_occ_app in *. cbn [count_occ] in Hpq. destruct (Z.eq_dec n z); lia.
      - inversion C' as [|? ? (m & K) _]; discriminate K.
      - inversion C' as [|? ? (m & K) _]; discriminate K.
      - inversion C' as [|? ? (m & K) _]; discriminate K.
      - inversion C' as [|? ? (m & K) _]; discriminate K. }
    destruct (G log1 [er; orr] [orr; er] o C) as (o' & F & Hc); [intros z; cbn; destruct (Z.eq_dec er z), (Z.eq_dec orr z); reflexivity|exact Ho|].
    exists o'. split; [exact F|]. intros ->. destruct o' as [|z o']; [reflexivity|]. specialize (Hc z). cbn in Hc. destruct (Z.eq_dec z z); congruence. }
  destruct Sw as (o' & F & K). exists o'. split; [|intros N; apply K; apply Hr; exact N].
  unfold log_of. eapply fds_app; [exact P|]. cbn [app]. apply fds_fork. apply (fds_close [ow; orr] ew [er]). cbn [app]. apply (fds_close [] ow [orr; er]). exact F.
Qed.
Lemma attempt_children r pid ew ow log1 o : only_closes log1 -> children o (log_of r pid ew ow log1) (pid :: o).
Proof.
  intros C. unfold log_of. eapply children_app; [apply pipes_children|]. cbn [app]. apply ch_fork. apply ch_close. apply ch_close. apply closes_children. exact C.
Qed.

Theorem attempts_fds timeout runs : (forall i, valid_run (runs i)) -> forall more i r l, attempts timeout runs more i = (r, l) ->
  exists o, fds [] l o /\ (r <> Waits -> o = []).
Proof.
  intros V. induction more as [|more IH]; intros i r l E; cbn [attempts] in E; cbv zeta in E; pose proof (pipes_fds (runs i) (V i)) as P;
    (destruct (create_pipes (runs i)) as [((er, ew), (orr, ow))|e] eqn:Ep; [|injection E as <- <-; exists []; split; [apply P|reflexivity]]);
    (destruct (ru_fork (runs i)) as [pid|e] eqn:Ef;
      [|injection E as <- <-; exists []; split; [|reflexivity]; destruct P as (P & _); eapply fds_app; [exact P|];
        apply (fds_close [ow; orr; ew] er []); apply (fds_close [ow] orr [ew]); apply (fds_close [ow] ew []); apply (fds_close [] ow []); constructor]);
    (destruct (exhaust_read_fds timeout (Some er) (Some orr) 0 (ru_polls (runs i))) as (x, log1) eqn:X);
    (destruct (attempt_fds timeout (runs i) er ew orr ow pid x log1 (V i) Ep X) as (o & F & K)); unfold log_of in F;
    (destruct x as [err|]; [|injection E as <- <-; exists o; split; [exact F|congruence]]); (rewrite (K ltac:(discriminate)) in F; clear K);
    (assert (F2 : fds [] ((create_pipes_log (runs i) ++ [AFork pid; AClose ew; AClose ow] ++ log1) ++ (if err =? 0 then [] else [AKill pid])) []) by (eapply fds_app; [exact F|]; destruct (err =? 0); repeat constructor));
    destruct (ru_wait (runs i)) as [e|code|sig| |].
  all: try (injection E as <- <-; eexists; split; [exact F2|reflexivity]).
  all: try (injection E as <- <-; eexists; split; [eapply fds_app; [exact F2|repeat constructor]|reflexivity]).
  all: destruct (code =? 0); [injection E as <- <-; eexists; split; [eapply fds_app; [exact F2|repeat constructor]|reflexivity]|].
  - injection E as <- <-. eexists. split; [eapply fds_app; [exact F2|repeat constructor]|reflexivity].
  - destruct (attempts timeout runs more (S i)) as (r', l') eqn:E'. injection E as <- <-. destruct (IH _ _ _ E') as (o' & F' & K'). exists o'. split; [|exact K'].
    eapply fds_app; [eapply fds_app; [exact F2|apply fds_reap; constructor]|]. cbn [app]. apply fds_sleep. exact F'.
Qed.

Theorem attempts_children timeout runs : forall more i r l, attempts timeout runs more i = (r, l) ->
  exists o, children [] l o /\ (r <> Waits -> (forall j e, ru_wait (runs j) <> WError e) -> o = []).
Proof.
  induction more as [|more IH]; intros i r l E; cbn [attempts] in E; cbv zeta in E;
    (destruct (create_pipes (runs i)) as [((er, ew), (orr, ow))|e] eqn:Ep; [|injection E as <- <-; exists []; split; [apply pipes_children|reflexivity]]);
    (destruct (ru_fork (runs i)) as [pid|e] eqn:Ef;
      [|injection E as <- <-; exists []; split; [|reflexivity]; eapply children_app; [apply pipes_children|repeat constructor]]);
    (destruct (exhaust_read_fds timeout (Some er) (Some orr) 0 (ru_polls (runs i))) as (x, log1) eqn:X);
    (pose proof (attempt_children (runs i) pid ew ow log1 [] (exhaust_closes _ _ _ _ _ _ _ X)) as F; unfold log_of in F);
    (destruct x as [err|]; [|injection E as <- <-; eexists; split; [exact F|congruence]]);
    (assert (F2 : children [] ((create_pipes_log (runs i) ++ [AFork pid; AClose ew; AClose ow] ++ log1) ++ (if err =? 0 then [] else [AKill pid])) [pid]) by (eapply children_app; [exact F|]; destruct (err =? 0); [constructor|apply ch_kill; [left; reflexivity|constructor]]));
    destruct (ru_wait (runs i)) as [e|code|sig| |] eqn:Ew.
  all: try (injection E as <- <-; eexists; split; [exact F2|]; try congruence; intros _ K; exfalso; apply (K i e); exact Ew).
  all: assert (F3 : children [] (((create_pipes_log (runs i) ++ [AFork pid; AClose ew; AClose ow] ++ log1) ++ (if err =? 0 then [] else [AKill pid])) ++ [AReap pid]) []) by (eapply children_app; [exact F2|apply (ch_reap [] pid []); constructor]).
  all: try (injection E as <- <-; eexists; split; [exact F3|reflexivity]).
  all: destruct (code =? 0); [injection E as <- <-; eexists; split; [exact F3|reflexivity]|].
  - injection E as <- <-. eexists. split; [exact F3|reflexivity].
  - destruct (attempts timeout runs more (S i)) as (r', l') eqn:E'. injection E as <- <-. destruct (IH _ _ _ E') as (o' & F' & K'). exists o'. split; [|exact K'].
    eapply children_app; [exact F3|]. cbn [app]. apply ch_sleep. exact F'.
Qed.

Theorem attempts_result timeout runs : (forall i, valid_run (runs i)) -> forall more i l, attempts timeout runs more i = (Returns 0, l) ->
  exists k, (i <= k <= i + more)%nat /\ ru_wait (runs k) = WExited 0 /\ started (runs k) /\ forall j, (i <= j < k)%nat -> started (runs j) /\ exists c, c <> 0 /\ ru_wait (runs j) = WExited c.
Proof.
  intros V. induction more as [|more IH]; intros i l E; cbn [attempts] in E; cbv zeta in E; pose proof (V i) as Vi; pose proof (pipes_fds (runs i) Vi) as P; destruct Vi as (_ & _ & _ & _ & V5 & V6 & _);
    (destruct (create_pipes (runs i)) as [((er, ew), (orr, ow))|e] eqn:Ep; [|injection E as -> _; destruct P; contradiction]);
    (destruct (ru_fork (runs i)) as [pid|e] eqn:Ef; [|injection E as -> _; specialize (V5 0 eq_refl); lia]);
    (assert (St : started (runs i)) by (unfold create_pipes in Ep; destruct (ru_pipe1 (runs i)) as [a|] eqn:E1; [|discriminate Ep]; destruct (ru_pipe2 (runs i)) as [b|] eqn:E2; [|discriminate Ep]; exists a, b, pid; auto));
    (destruct (exhaust_read_fds timeout (Some er) (Some orr) 0 (ru_polls (runs i))) as (x, log1) eqn:X);
    (destruct x as [err|]; [|discriminate E]);
    destruct (ru_wait (runs i)) as [e|code|sig| |] eqn:Ew; try discriminate E.
  all: try (injection E as -> _; specialize (V6 0 eq_refl); lia).
  all: destruct (Z.eqb_spec code 0) as [C|C]; [exists i; split; [lia|]; split; [congruence|]; split; [exact St|]; intros j Hj; lia|].
  - discriminate E.
  - destruct (attempts timeout runs more (S i)) as (r', l') eqn:E'. injection E as -> <-. destruct (IH _ _ E') as (k & Hk & W & S0 & J). exists k. split; [lia|]. split; [exact W|]. split; [exact S0|].
    intros j Hj. destruct (Nat.eq_dec j i) as [->|N]; [split; [exact St|]; exists code; auto|apply J; lia].
Qed.
Lemma started_pipes r : started r -> exists er ew orr ow pid, create_pipes r = inl ((er, ew), (orr, ow)) /\ ru_fork r = inl pid.
Proof. intros ((a, b) & (c, d) & p & E1 & E2 & E3). exists a, b, c, d, p. unfold create_pipes. rewrite E1, E2. auto. Qed.
Theorem attempts_success timeout runs : forall more i k, (i <= k <= i + more)%nat -> exits (runs k) 0 -> (forall j, (i <= j < k)%nat -> exists c, c <> 0 /\ exits (runs j) c) ->
  exists l, attempts timeout runs more i = (Returns 0, l).
Proof.
  induction more as [|more IH]; intros i k Hk (S0 & T0 & W0) J; cbn [attempts]; cbv zeta.
  - assert (k = i) by lia. subst k. destruct (started_pipes _ S0) as (er & ew & orr & ow & pid & -> & ->). destruct (exhaust_returns timeout (ru_polls (runs i)) (Some er) (Some orr) 0 T0) as (x & l & ->). rewrite W0. cbn. eauto.
  - destruct (Nat.eq_dec i k) as [->|N].
    + destruct (started_pipes _ S0) as (er & ew & orr & ow & pid & -> & ->). destruct (exhaust_returns timeout (ru_polls (runs k)) (Some er) (Some orr) 0 T0) as (x & l & ->). rewrite W0. cbn. eauto.
    + destruct (J i ltac:(lia)) as (c & Nc & S1 & T1 & W1). destruct (started_pipes _ S1) as (er & ew & orr & ow & pid & -> & ->). destruct (exhaust_returns timeout (ru_polls (runs i)) (Some er) (Some orr) 0 T1) as (x & l & ->). rewrite W1.
      apply Z.eqb_neq in Nc. rewrite Nc. destruct (IH (S i) k) as (l' & ->); [lia|split; auto|intros j Hj; apply J; lia|eauto].
Qed.
Theorem attempts_exhausted timeout runs : forall more i, (forall j, (i <= j <= i + more)%nat -> exists c, c <> 0 /\ exits (runs j) c) ->
  exists l, attempts timeout runs more i = (Returns 5, l).
Proof.
  induction more as [|more IH]; intros i J; cbn [attempts]; cbv zeta; destruct (J i ltac:(lia)) as (c & Nc & S1 & T1 & W1);
    destruct (started_pipes _ S1) as (er & ew & orr & ow & pid & -> & ->); destruct (exhaust_returns timeout (ru_polls (runs i)) (Some er) (Some orr) 0 T1) as (x & l & ->); rewrite W1; apply Z.eqb_neq in Nc; rewrite Nc; [eauto|].
  destruct (IH (S i)) as (l' & ->); [intros j Hj; apply J; lia|eauto].
Qed.
Lemma forks_app a b : forks (a ++ b) = (forks a + forks b)%nat.
Proof. unfold forks. rewrite filter_app, app_length. reflexivity. Qed.
Lemma forks_closes l : only_closes l -> forks l = 0%nat.
Proof. induction 1 as [|a l (n & ->) _ IH]; [reflexivity|exact IH]. Qed.
Lemma forks_pipes r : forks (create_pipes_log r) = 0%nat.
Proof. unfold create_pipes_log. destruct (ru_pipe1 r) as [(a, b)|e]; [|reflexivity]. destruct (ru_pipe2 r) as [(c, d)|e]; reflexivity. Qed.
Theorem attempts_forks timeout runs : forall more i r l, attempts timeout runs more i = (r, l) -> (forks l <= S more)%nat.
Proof.
  induction more as [|more IH]; intros i r l E; cbn [attempts] in E; cbv zeta in E;
    (destruct (create_pipes (runs i)) as [((er, ew), (orr, ow))|e] eqn:Ep; [|injection E as <- <-; rewrite forks_pipes; lia]);
    (destruct (ru_fork (runs i)) as [pid|e] eqn:Ef; [|injection E as <- <-; rewrite forks_app, forks_pipes; cbn; lia]);
    (destruct (exhaust_read_fds timeout (Some er) (Some orr) 0 (ru_polls (runs i))) as (x, log1) eqn:X);
    (pose proof (forks_closes _ (exhaust_closes _ _ _ _ _ _ _ X)) as F);
    (destruct x as [err|]; [|injection E as <- <-; rewrite !forks_app, forks_pipes; change (forks (AFork pid :: AClose ew :: AClose ow :: log1)) with (S (forks log1)); rewrite F; lia]);
    (assert (F2 : forks ((create_pipes_log (runs i) ++ [AFork pid; AClose ew; AClose ow] ++ log1) ++ (if err =? 0 then [] else [AKill pid])) = 1%nat) by (rewrite !forks_app, forks_pipes; change (forks (AFork pid :: AClose ew :: AClose ow :: log1)) with (S (forks log1)); rewrite F; destruct (err =? 0); reflexivity)); cbn [app] in F2, E;
    destruct (ru_wait (runs i)) as [e|code|sig| |] eqn:Ew.
  all: try (injection E as <- <-; rewrite F2; lia).
  all: try (injection E as <- <-; rewrite (forks_app _ [AReap pid]), F2; cbn; lia).
  all: destruct (code =? 0); [injection E as <- <-; rewrite (forks_app _ [AReap pid]), F2; cbn; lia|].
  - injection E as <- <-; rewrite (forks_app _ [AReap pid]), F2; cbn; lia.
  - destruct (attempts timeout runs more (S i)) as (r', l') eqn:E'. injection E as <- <-. specialize (IH _ _ _ E'). rewrite (forks_app (_ ++ [AReap pid])), (forks_app _ [AReap pid]), F2. cbn [app]. change (forks [AReap pid]) with 0%nat. change (forks (ASleep :: l')) with (forks l'). lia.
Qed.
(** A child that finished is killed only if something went wrong with the streams. *)
Lemma in_closes p l : only_closes l -> ~ In (AKill p) l.
Proof. unfold only_closes. rewrite Forall_forall. intros H K. destruct (H _ K) as (n & E). discriminate E. Qed.
