(** C78, C79: proofs. *)
From Coq Require Import Permutation.
From Verif Require Import Base BaseLemmas Types PduHandler PduStream Rtr RtrSpec.
Notation length := List.length.

Lemma open_after_app o a b : open_after o (a ++ b) = open_after (open_after o a) b.
Proof. unfold open_after. apply fold_left_app. Qed.
Lemma kernel_app o a b : kernel o (a ++ b) <-> kernel o a /\ kernel (open_after o a) b.
Proof. revert o. induction a as [|x a IH]; intros o; cbn [app kernel]; [cbn; tauto|]. rewrite IH. change (open_after o (x :: a)) with (open_after (open_step o x) a). tauto. Qed.
Lemma tidy_app o a b : tidy o (a ++ b) <-> tidy o a /\ tidy (open_after o a) b.
Proof. revert o. induction a as [|x a IH]; intros o; cbn [app tidy]; [cbn; tauto|]. rewrite IH. change (open_after o (x :: a)) with (open_after (open_step o x) a). tauto. Qed.

(** *** Accepting *)
Definition fds (cs : list client) := map cl_fd cs.
Lemma server_loop_spec : forall sfds evs cs pfds cs' acts, server_loop sfds evs cs = (pfds, cs', acts) ->
  forall o, kernel o acts -> (forall c, In c cs -> In (cl_fd c) o) ->
  exists new, cs' = cs ++ new /\ tidy o acts /\ (forall x, In x (open_after o acts) <-> In x o \/ In x (fds new)) /\
    NoDup (fds new) /\ (forall x, In x (fds new) -> ~ In x o /\ 0 <= x).
Proof.
  induction sfds as [|fd sfds IH]; intros evs cs pfds cs' acts H o K Ho; cbn [server_loop] in H.
  { injection H as <- <- <-. exists []. rewrite app_nil_r. cbn. repeat split; auto; try tauto. constructor. }
  destruct evs as [|e evs]; [injection H as <- <- <-; exists []; rewrite app_nil_r; cbn; repeat split; auto; try tauto; constructor|].
  assert (Skip : forall pfd, (let '(pfds0, cs0, acts') := server_loop sfds evs cs in (pfd :: pfds0, cs0, [] ++ acts')) = (pfds, cs', acts) ->
    exists new, cs' = cs ++ new /\ tidy o acts /\ (forall x, In x (open_after o acts) <-> In x o \/ In x (fds new)) /\ NoDup (fds new) /\ (forall x, In x (fds new) -> ~ In x o /\ 0 <= x)).
  { intros pfd E. destruct (server_loop sfds evs cs) as [[l c] a] eqn:L. injection E as _ <- <-. eapply IH; [exact L|exact K|exact Ho]. }
  destruct (fd =? -1); [eapply Skip; exact H|]. destruct (ev_bad (se_revents e)); [eapply Skip; exact H|]. destruct (ev_in (se_revents e)); [|eapply Skip; exact H].
  destruct (se_accept e) as [nfd [|]|err]; cbn [accept_new_client] in H; [| |eapply Skip; exact H].
  - destruct (server_loop sfds evs (cs ++ [{| cl_fd := nfd; cl_stream := pdustream_create |}])) as [[l c] a] eqn:L. injection H as _ <- <-.
    cbn [app] in K. cbn [kernel open_step] in K. destruct K as ((Kn & Kf) & K).
    destruct (IH _ _ _ _ _ L (nfd :: o) K) as (new & -> & T & A & N & B).
    { intros x Hx. apply in_app_or in Hx. destruct Hx as [Hx|[<-|[]]]; [right; auto|left; reflexivity]. }
    exists ({| cl_fd := nfd; cl_stream := pdustream_create |} :: new). split; [rewrite <- app_assoc; reflexivity|]. cbn [fds map cl_fd app tidy open_step].
    split; [auto|]. split; [|split].
    + intros x. change (open_after o (Opened nfd :: a)) with (open_after (nfd :: o) a). rewrite A. cbn [In fds map]. tauto.
    + constructor; [|exact N]. intros K'. destruct (B _ K') as (B' & _). apply B'. left. reflexivity.
    + intros x [<-|Hx]; [auto|]. destruct (B _ Hx) as (B' & B''). split; [|exact B'']. intros K'. apply B'. right. exact K'.
  - destruct (server_loop sfds evs cs) as [[l c] a] eqn:L. injection H as _ <- <-.
    cbn [app] in K. cbn [kernel open_step] in K. destruct K as ((Kn & Kf) & _ & K).
    assert (Eo : remove Z.eq_dec nfd (nfd :: o) = o) by (cbn; destruct (Z.eq_dec nfd nfd) as [_|]; [apply notin_remove; exact Kf|contradiction]).
    rewrite Eo in K. destruct (IH _ _ _ _ _ L o K Ho) as (new & -> & T & A & N & B). exists new. split; [reflexivity|]. cbn [app tidy open_step].
    rewrite Eo. split; [split; [exact I|split; [left; reflexivity|exact T]]|]. split; [|auto].
    intros x. change (open_after o (Opened nfd :: Closed nfd :: a)) with (open_after (remove Z.eq_dec nfd (nfd :: o)) a). rewrite Eo. apply A.
Qed.
Lemma server_loop_new : forall sfds evs cs pfds cs' acts, server_loop sfds evs cs = (pfds, cs', acts) ->
  cs' = cs ++ newcomers {| sv_servers := sfds; sv_clients := cs |} {| pe_polled := PollSome; pe_servers := evs; pe_clients := [] |} /\ requests acts = [] /\
  length pfds = Nat.min (length sfds) (length evs).
Proof.
  unfold newcomers. cbn [sv_servers pe_servers]. induction sfds as [|fd sfds IH]; intros evs cs pfds cs' acts H; cbn [server_loop] in H.
  { injection H as <- <- <-. cbn. rewrite app_nil_r. auto. }
  destruct evs as [|e evs]; [injection H as <- <- <-; cbn; rewrite app_nil_r; auto|]. cbn [combine flat_map fst snd length Nat.min].
  destruct (fd =? -1); cbn [negb andb]; [|destruct (ev_bad (se_revents e)); cbn [negb andb]; [|destruct (ev_in (se_revents e)); [destruct (se_accept e) as [nfd [|]|err]; cbn [accept_new_client] in H|]]].
  3: { destruct (server_loop sfds evs _) as [[l c] a] eqn:L. injection H as <- <- <-. destruct (IH _ _ _ _ _ L) as (-> & R & Ln). rewrite <- app_assoc. cbn [app length]. rewrite Ln. auto. }
  all: destruct (server_loop sfds evs cs) as [[l c] a] eqn:L; injection H as <- <- <-; destruct (IH _ _ _ _ _ L) as (-> & R & Ln); cbn [length app]; rewrite Ln; auto.
Qed.

(** *** Clients *)
Lemma handle_client_spec c e c' b acts : handle_client c e = Ok (c', b, acts) -> cl_fd c' = cl_fd c /\
  Forall (fun a => match a with Pushed fd _ | Wrote fd _ => fd = cl_fd c | _ => False end) acts.
Proof.
  intros H. unfold handle_client in H. destruct (pdustream_next _ _ _) as [o| |]; cbn [bind] in H; try discriminate H.
  assert (Fw : Forall (fun a => match a with Pushed fd _ | Wrote fd _ => fd = cl_fd c | _ => False end) (match sk_wire (no_socket o) with [] => [] | b => [Wrote (cl_fd c) b] end)).
  { destruct (sk_wire (no_socket o)); repeat constructor. }
  destruct (no_result o) as [[r|]|]; injection H as <- <- <-; cbn [cl_fd]; split; auto. apply Forall_app. split; [exact Fw|repeat constructor].
Qed.
Lemma client_loop_spec : forall cs evs l acts, client_loop cs evs = Ok (l, acts) -> length evs = length cs ->
  fds (map fst l) = fds cs /\ Forall (fun a => match a with Pushed fd _ | Wrote fd _ => In fd (fds cs) | _ => False end) acts /\
  outcomes cs evs (map fst (filter snd l)) (requests acts).
Proof.
  induction cs as [|c cs IH]; intros [|e evs] l acts H Ln; try discriminate Ln; cbn [client_loop] in H; [injection H as <- <-; cbn; repeat constructor|].
  match type of H with bind ?m _ = _ => destruct m as [[[c' b] a]| |] eqn:M; cbn [bind] in H; try discriminate H end.
  destruct (client_loop cs evs) as [[l' a']| |] eqn:L; cbn [bind] in H; try discriminate H. injection H as <- <-.
  destruct (IH _ _ _ L) as (I1 & I2 & I3); [injection Ln as Ln; exact Ln|].
  assert (G : cl_fd c' = cl_fd c /\ Forall (fun a => match a with Pushed fd _ | Wrote fd _ => fd = cl_fd c | _ => False end) a /\ exists r, requests a = map (pair (cl_fd c)) r /\ outcome c e (if b then Some c' else None) r).
  { destruct (ev_bad (ce_revents e)) eqn:B; [injection M as <- <- <-; split; [reflexivity|]; split; [constructor|]; exists []; split; [reflexivity|]; apply out_bad; exact B|].
    destruct (ev_in (ce_revents e)) eqn:N; [|injection M as <- <- <-; split; [reflexivity|]; split; [constructor|]; exists []; split; [reflexivity|]; apply out_idle; assumption].
    pose proof (handle_client_spec _ _ _ _ _ M) as (E1 & E2). split; [exact E1|]. split; [exact E2|].
    unfold handle_client in M. destruct (pdustream_next _ _ _) as [o| |] eqn:Nx; cbn [bind] in M; try discriminate M. pose proof (out_read c e o B N Nx) as Out.
    assert (Rw : forall l, requests ((match sk_wire (no_socket o) with [] => [] | b => [Wrote (cl_fd c) b] end) ++ l) = requests l) by (intros; destruct (sk_wire (no_socket o)); reflexivity).
    pose proof (Rw []) as Rw0. rewrite app_nil_r in Rw0.
    destruct (no_result o) as [[r|]|]; injection M as <- <- <-; eexists; (split; [|exact Out]); [rewrite Rw; reflexivity|rewrite Rw0; reflexivity..]. }
  destruct G as (G1 & G2 & r & G3 & G4). cbn [map fst]. split; [unfold fds in *; cbn [map]; congruence|]. split.
  - apply Forall_app. split; [|eapply Forall_impl; [|exact I2]; intros [| | |] K; cbn [fds map] in *; try contradiction; right; exact K].
    eapply Forall_impl; [|exact G2]. intros [| | |] K; try contradiction; cbn [fds map]; left; auto.
  - unfold requests in *. rewrite flat_map_app, G3. pose proof (outs_cons _ _ _ _ _ _ _ _ G4 I3) as O. cbn [filter snd map fst]. destruct b; exact O.
Qed.

(** *** Closing *)
Lemma closings : forall l o, NoDup l -> (forall x, In x l -> In x o) -> tidy o (map Closed l) /\ forall x, In x (open_after o (map Closed l)) <-> In x o /\ ~ In x l.
Proof.
  induction l as [|fd l IH]; intros o N Ho; cbn [map tidy open_step].
  - split; [exact I|]. intros x. cbn. tauto.
  - inversion N as [|? ? Nin N']; subst. destruct (IH (remove Z.eq_dec fd o) N') as (T & A).
    { intros x Hx. apply in_in_remove; [intros ->; contradiction|]. apply Ho. right. exact Hx. }
    split; [split; [apply Ho; left; reflexivity|exact T]|]. intros x. change (open_after o (Closed fd :: map Closed l)) with (open_after (remove Z.eq_dec fd o) (map Closed l)).
    rewrite A. cbn [In]. split.
    + intros (K & K'). apply in_remove in K. intuition congruence.
    + intros (K & K'). split; [apply in_in_remove; [intros ->; apply K'; auto|exact K]|tauto].
Qed.
Definition live (l : list Z) : list Z := filter (fun fd => negb (fd =? -1)) l.
Lemma apply_servers_spec : forall sfds pfds l acts, apply_servers sfds pfds = (l, acts) -> Forall2 (fun fd pfd => pfd = fd \/ pfd = -1) sfds pfds ->
  exists closed, acts = map Closed closed /\ Permutation (live sfds) (closed ++ live l) /\ length l = length sfds /\
    (Forall2 (fun fd pfd => pfd = fd) sfds pfds -> l = sfds /\ closed = []).
Proof.
  unfold live. induction sfds as [|fd sfds IH]; intros pfds l acts H F; inversion F as [|? pfd ? pfds' F1 F2]; subst; cbn [apply_servers] in H.
  { injection H as <- <-. exists []. cbn. auto. }
  destruct (apply_servers sfds pfds') as [l' a'] eqn:E. destruct (IH _ _ _ E F2) as (cl & -> & P & Ln & U).
  destruct (Z.eqb_spec pfd (-1)) as [Ep|Np]; destruct (Z.eqb_spec fd (-1)) as [Ef|Nf]; cbn [andb negb] in H; injection H as <- <-.
  - exists cl. split; [reflexivity|]. subst fd. cbn [filter]. cbn. split; [exact P|]. split; [congruence|]. intros K. inversion K as [|? ? ? ? _ K']; subst. destruct (U K') as (-> & ->). auto.
  - exists (fd :: cl). split; [reflexivity|]. cbn [filter]. destruct (Z.eqb_spec fd (-1)); [contradiction|]. cbn. split; [constructor; exact P|]. split; [congruence|]. intros K. inversion K; congruence.
  - exists cl. split; [reflexivity|]. subst fd. cbn [filter]. cbn. split; [exact P|]. split; [congruence|]. intros K. inversion K as [|? ? ? ? _ K']; subst. destruct (U K') as (-> & ->). auto.
  - exists cl. split; [reflexivity|]. cbn [filter]. destruct (Z.eqb_spec fd (-1)); [contradiction|]. cbn [negb length]. split; [|split; [congruence|intros K; inversion K as [|? ? ? ? _ K']; subst; destruct (U K') as (-> & ->); auto]].
    eapply Permutation_trans; [constructor; exact P|]. apply Permutation_middle.
Qed.
Lemma retried_spec errno : retried errno = true <-> try_again errno.
Proof.
  unfold retried, try_again. rewrite existsb_exists. split.
  - intros (x & I & E). apply Z.eqb_eq in E. subst x. cbn in *. intuition.
  - intros I. exists errno. split; [|apply Z.eqb_refl]. cbn in *. intuition.
Qed.
(** Which of them are given up. *)
Lemma server_loop_broken : forall sfds evs cs pfds cs' acts, server_loop sfds evs cs = (pfds, cs', acts) -> length evs = length sfds ->
  forall i fd se pfd, nth_error sfds i = Some fd -> nth_error evs i = Some se -> nth_error pfds i = Some pfd ->
  (broken se -> pfd = -1) /\ (~ broken se -> pfd = fd).
Proof.
  induction sfds as [|fd0 sfds IH]; intros [|e evs] cs pfds cs' acts H Ln; try discriminate Ln; cbn [server_loop] in H.
  { intros [|i]; discriminate. }
  injection Ln as Ln.
  assert (Go : forall q c a, (let '(pfds0, cs0, acts') := server_loop sfds evs c in (q :: pfds0, cs0, a ++ acts')) = (pfds, cs', acts) ->
    (broken e -> q = -1) -> (~ broken e -> q = fd0) ->
    forall i fd se pfd, nth_error (fd0 :: sfds) i = Some fd -> nth_error (e :: evs) i = Some se -> nth_error pfds i = Some pfd -> (broken se -> pfd = -1) /\ (~ broken se -> pfd = fd)).
  { intros q c a E P Q i fd se pfd A B C. destruct (server_loop sfds evs c) as [[l c'] a'] eqn:L. injection E as <- <- <-.
    destruct i as [|i]; cbn in A, B, C; [injection A as <-; injection B as <-; injection C as <-; auto|]. exact (IH _ _ _ _ _ L Ln i fd se pfd A B C). }
  destruct (Z.eqb_spec fd0 (-1)) as [Ef|Nf]; [eapply Go; [exact H|auto|auto]|].
  destruct (ev_bad (se_revents e)) eqn:B.
  { eapply Go; [exact H|auto|]. intros K. destruct K. left. exact B. }
  destruct (ev_in (se_revents e)) eqn:N.
  2:{ eapply Go; [exact H| |auto]. intros [K|(K & _)]; congruence. }
  destruct (accept_new_client (se_accept e) cs) as [[c1 v] a1] eqn:A. eapply Go; [exact H| |].
  - intros [K|(_ & err & K & T)]; [congruence|]. rewrite K in A. cbn [accept_new_client] in A. destruct (retried err) eqn:R; [destruct (T (proj1 (retried_spec err) R))|]. injection A as <- <- <-. reflexivity.
  - intros K. destruct (se_accept e) as [? []|err] eqn:S; cbn [accept_new_client] in A; injection A as <- <- <-; try reflexivity. destruct (retried err) eqn:R; [reflexivity|].
    destruct K. right. split; [exact N|]. exists err. split; [exact S|]. intros T. apply retried_spec in T. congruence.
Qed.
Lemma apply_servers_nth : forall sfds pfds l acts, apply_servers sfds pfds = (l, acts) -> length pfds = length sfds ->
  (forall i fd pfd, nth_error sfds i = Some fd -> nth_error pfds i = Some pfd -> (pfd = -1 -> nth_error l i = Some (-1)) /\ (pfd <> -1 -> nth_error l i = Some fd)).
Proof.
  induction sfds as [|fd sfds IH]; intros [|pfd pfds] l acts H Ln; try discriminate Ln; cbn [apply_servers] in H.
  { intros [|i]; discriminate. }
  injection Ln as Ln. destruct (apply_servers sfds pfds) as [l' a'] eqn:E. intros i fd1 pfd1 A B.
  assert (exists x, l = x :: l' /\ (pfd = -1 -> x = -1) /\ (pfd <> -1 -> x = fd)) as (x & -> & X1 & X2).
  { destruct (Z.eqb_spec pfd (-1)), (Z.eqb_spec fd (-1)); cbn [andb negb] in H; injection H as <- <-; eexists; (split; [reflexivity|]); split; congruence. }
  destruct i as [|i]; cbn in A, B |- *; [injection A as <-; injection B as <-; split; intros K; [rewrite X1|rewrite X2]; auto|exact (IH _ _ _ E Ln i fd1 pfd1 A B)].
Qed.
Lemma server_loop_pfds : forall sfds evs cs pfds cs' acts, server_loop sfds evs cs = (pfds, cs', acts) -> length evs = length sfds ->
  Forall2 (fun fd pfd => pfd = fd \/ pfd = -1) sfds pfds /\
  (Forall (fun se => ev_bad (se_revents se) = false /\ (ev_in (se_revents se) = true -> forall errno, se_accept se = NotAccepted errno -> try_again errno)) evs -> Forall2 (fun fd pfd => pfd = fd) sfds pfds).
Proof.
  induction sfds as [|fd sfds IH]; intros [|e evs] cs pfds cs' acts H Ln; try discriminate Ln; cbn [server_loop] in H.
  { injection H as <- <- <-. split; constructor. }
  assert (Go : forall pfd c a, (let '(pfds0, cs0, acts') := server_loop sfds evs c in (pfd :: pfds0, cs0, a ++ acts')) = (pfds, cs', acts) ->
    (pfd = fd \/ pfd = -1) -> ((ev_bad (se_revents e) = false /\ (ev_in (se_revents e) = true -> forall errno, se_accept e = NotAccepted errno -> try_again errno)) -> pfd = fd) ->
    Forall2 (fun fd pfd => pfd = fd \/ pfd = -1) (fd :: sfds) pfds /\
    (Forall (fun se => ev_bad (se_revents se) = false /\ (ev_in (se_revents se) = true -> forall errno, se_accept se = NotAccepted errno -> try_again errno)) (e :: evs) -> Forall2 (fun fd pfd => pfd = fd) (fd :: sfds) pfds)).
  { intros pfd c a E P Q. destruct (server_loop sfds evs c) as [[l c'] a'] eqn:L. injection E as <- <- <-. destruct (IH _ _ _ _ _ L) as (I1 & I2); [injection Ln as Ln; exact Ln|].
    split; [constructor; assumption|]. intros F. inversion F; subst. constructor; auto. }
  destruct (Z.eqb_spec fd (-1)) as [Ef|Nf]; [eapply Go; [exact H|auto|auto]|].
  destruct (ev_bad (se_revents e)) eqn:B; [eapply Go; [exact H|auto|intros (K & _); discriminate K]|].
  destruct (ev_in (se_revents e)) eqn:N; [|eapply Go; [exact H|auto|auto]].
  destruct (accept_new_client (se_accept e) cs) as [[c1 v] a1] eqn:A. eapply Go; [exact H|destruct v; auto|].
  intros (_ & K). destruct (se_accept e) as [? []|err]; cbn [accept_new_client] in A; injection A as <- <- <-; try reflexivity. rewrite (proj2 (retried_spec err) (K eq_refl err eq_refl)). reflexivity.
Qed.

(** *** The array *)
Fixpoint somes (l : list (option client)) : list client := match l with [] => [] | Some c :: l => c :: somes l | None :: l => somes l end.
Lemma somes_app a b : somes (a ++ b) = somes a ++ somes b.
Proof. induction a as [|[c|] a IH]; cbn; congruence. Qed.
Lemma compact_spec : forall rest pre junk,
  compact (length rest) (length pre + length junk) (length pre) (map Some pre ++ junk ++ rest) =
  (map Some (pre ++ somes rest) ++ skipn (length (somes rest)) (junk ++ rest), length (pre ++ somes rest)).
Proof.
  induction rest as [|x rest IH]; intros pre junk; cbn [length compact somes skipn].
  - rewrite !app_nil_r. reflexivity.
  - assert (Nx : nth_error (map Some pre ++ junk ++ x :: rest) (length pre + length junk) = Some x).
    { rewrite app_assoc, nth_error_app2 by (rewrite app_length, map_length; lia). rewrite app_length, map_length, Nat.sub_diag. reflexivity. }
    rewrite Nx. destruct x as [c|].
    + assert (U : exists junk', upd (map Some pre ++ junk ++ Some c :: rest) (length pre) (Some c) = map Some (pre ++ [c]) ++ junk' ++ rest /\ length junk' = length junk /\ junk' ++ rest = tl (junk ++ Some c :: rest)).
      { assert (G : forall (p : list client) j, upd (map Some p ++ j) (length p) (Some c) = map Some p ++ match j with [] => [] | _ :: j => Some c :: j end).
        { induction p as [|y p IHp]; intros j; cbn; [destruct j; reflexivity|]. f_equal. apply IHp. }
        rewrite G, map_app. destruct junk as [|j junk]; cbn [app].
        - exists []. cbn. rewrite <- app_assoc. auto.
        - exists (junk ++ [Some c]). rewrite <- !app_assoc. cbn. rewrite app_length. cbn. repeat split; lia. }
      destruct U as (junk' & -> & Lj & Ej). replace (S (length pre + length junk)) with (length (pre ++ [c]) + length junk')%nat by (rewrite app_length; cbn; lia).
      replace (S (length pre)) with (length (pre ++ [c])) by (rewrite app_length; cbn; lia). rewrite IH. rewrite Ej, <- app_assoc. cbn [app length].
      f_equal. f_equal. destruct (junk ++ Some c :: rest) as [|y t] eqn:Ey; [destruct junk; discriminate Ey|reflexivity].
    + specialize (IH pre (junk ++ [None])). rewrite app_length in IH. cbn [length] in IH. rewrite <- app_assoc in IH. cbn [app] in IH.
      replace (S (length pre + length junk)) with (length pre + (length junk + 1))%nat by lia. exact IH.
Qed.
Lemma elements_somes l : elements (map Some l) = Ok l.
Proof. induction l as [|c l IH]; cbn; [reflexivity|]. rewrite IH. reflexivity. Qed.
Lemma delete_dead a : delete_dead_clients a = Ok (somes a).
Proof.
  unfold delete_dead_clients. pose proof (compact_spec a [] []) as C. cbn [length Nat.add map app] in C. rewrite C.
  assert (G : forall l t, firstn (length l) (map (@Some client) l ++ t) = map Some l) by (induction l as [|c l IH]; intros t; cbn; [reflexivity|f_equal; apply IH]).
  rewrite G. apply elements_somes.
Qed.
Lemma apply_clients_spec : forall l a acts, apply_clients l = (a, acts) -> Forall (fun x => x <> -1) (fds (map fst l)) ->
  somes a = map fst (filter snd l) /\ exists closed, acts = map Closed closed /\ Permutation (fds (map fst l)) (closed ++ fds (somes a)).
Proof.
  induction l as [|[c b] l IH]; intros a acts H F; cbn [apply_clients] in H; [injection H as <- <-; split; [reflexivity|]; exists []; auto|].
  destruct (apply_clients l) as [a' ac'] eqn:E. inversion F as [|? ? F1 F2]; subst. destruct (IH _ _ eq_refl F2) as (I1 & cl & -> & P).
  destruct (Z.eqb_spec (cl_fd c) (-1)) as [K|_]; [contradiction|]. destruct b; cbn [negb andb] in H; injection H as <- <-; cbn [somes filter snd map fst].
  - split; [congruence|]. exists cl. split; [reflexivity|]. unfold fds in *. cbn [map]. eapply Permutation_trans; [constructor; exact P|]. apply Permutation_middle.
  - split; [exact I1|]. exists (cl_fd c :: cl). split; [reflexivity|]. cbn. constructor. exact P.
Qed.
Lemma somes_map l : somes (map Some l) = l.
Proof. induction l; cbn; congruence. Qed.

(** *** A poll *)
Lemma kernel_closes o l : Forall (fun a => match a with Opened _ => False | _ => True end) l -> kernel o l.
Proof. revert o. induction l as [|a l IH]; intros o F; cbn; [exact I|]. inversion F; subst. split; [destruct a; auto; contradiction|auto]. Qed.
Lemma newcomers_fields s e e' : pe_servers e = pe_servers e' -> forall s', sv_servers s = sv_servers s' -> newcomers s e = newcomers s' e'.
Proof. intros H s' H'. unfold newcomers. rewrite H, H'. reflexivity. Qed.
(** What there is when poll() has said what happened. *)
Definition worked (s : server) (e : poll_event) (s' : server) (acts : list action) : Prop :=
  exists pfds acts1 l acts2 acts3 a acts4,
    server_loop (sv_servers s) (pe_servers e) (sv_clients s) = (pfds, sv_clients s ++ newcomers s e, acts1) /\
    client_loop (sv_clients s) (pe_clients e) = Ok (l, acts2) /\
    apply_servers (sv_servers s) pfds = (sv_servers s', acts3) /\
    apply_clients l = (a, acts4) /\
    sv_clients s' = somes a ++ newcomers s e /\
    acts = acts1 ++ acts2 ++ acts3 ++ acts4.
Definition works (e : poll_event) : bool :=
  match pe_polled e with PollSome => true | PollError n => negb ((n =? 4) || (n =? 12) || (n =? 11) || (n =? 14) || (n =? 22)) | _ => false end.
Lemma poll_work s e s' v acts : fddb_poll s e = Ok (s', v, acts) ->
  if works e then v = PV_CONTINUE /\ worked s e s' acts else s' = s /\ acts = [].
Proof.
  intros H. unfold fddb_poll in H. set (w := let '(pfds, cs, acts1) := server_loop (sv_servers s) (pe_servers e) (sv_clients s) in _) in H.
  assert (W : w = Ok (s', v, acts) -> v = PV_CONTINUE /\ worked s e s' acts).
  { clear H. subst w. intros H. destruct (server_loop (sv_servers s) (pe_servers e) (sv_clients s)) as [[pfds cs] acts1] eqn:L.
    pose proof (server_loop_new _ _ _ _ _ _ L) as (Ec & _ & _).
    change (cs = sv_clients s ++ newcomers s e) in Ec. subst cs.
    rewrite firstn_app, Nat.sub_diag, firstn_all in H. cbn [firstn] in H. rewrite app_nil_r in H.
    rewrite skipn_app, Nat.sub_diag, skipn_all in H. cbn [skipn app] in H.
    destruct (client_loop (sv_clients s) (pe_clients e)) as [[l acts2]| |] eqn:C; cbn [bind] in H; try discriminate H.
    destruct (apply_servers (sv_servers s) pfds) as [sf acts3] eqn:A. destruct (apply_clients l) as [a acts4] eqn:B. rewrite delete_dead in H. cbn [bind] in H.
    injection H as <- <- <-. split; [reflexivity|]. exists pfds, acts1, l, acts2, acts3, a, acts4. cbn [sv_clients sv_servers]. rewrite somes_app, somes_map. repeat split; auto. }
  clearbody w. unfold works. destruct (pe_polled e) as [| |n|]; [injection H as <- <- <-; auto..| |exact (W H)].
  destruct (n =? 4); [injection H as <- <- <-; cbn; auto|]. destruct (n =? 12); [discriminate H|]. destruct (n =? 11); [injection H as <- <- <-; cbn; auto|].
  destruct (n =? 14); [discriminate H|]. destruct (n =? 22); [discriminate H|]. cbn. exact (W H).
Qed.

Lemma tidy_uses : forall acts o, Forall (fun a => match a with Pushed fd _ | Wrote fd _ => In fd o | _ => False end) acts -> tidy o acts /\ open_after o acts = o.
Proof.
  induction acts as [|a acts IH]; intros o F; cbn [tidy]; [split; [exact I|reflexivity]|]. inversion F as [|? ? F1 F2]; subst.
  destruct a; try contradiction; cbn [open_step]; destruct (IH _ F2) as (T & E); (split; [split; assumption|exact E]).
Qed.
Lemma requests_app a b : requests (a ++ b) = requests a ++ requests b.
Proof. apply flat_map_app. Qed.
Lemma requests_closed l : requests (map Closed l) = [].
Proof. induction l; cbn; auto. Qed.

Lemma worked_clients s e s' acts : worked s e s' acts -> well_formed s -> answers s e ->
  exists ks, outcomes (sv_clients s) (pe_clients e) ks (requests acts) /\ sv_clients s' = ks ++ newcomers s e.
Proof.
  intros (pfds & acts1 & l & acts2 & acts3 & a & acts4 & L & C & A & B & E & ->) (N & P) (An1 & An2).
  destruct (server_loop_new _ _ _ _ _ _ L) as (_ & R1 & _). destruct (client_loop_spec _ _ _ _ C An2) as (C1 & C2 & C3).
  destruct (server_loop_pfds _ _ _ _ _ _ L An1) as (F1 & _). destruct (apply_servers_spec _ _ _ _ A F1) as (cl1 & -> & _).
  assert (Nm : Forall (fun x => x <> -1) (fds (map fst l))).
  { rewrite C1. apply Forall_forall. intros x Hx. rewrite Forall_forall in P. assert (K : 0 <= x) by (apply P; unfold owned; apply in_or_app; right; exact Hx). lia. }
  destruct (apply_clients_spec _ _ _ B Nm) as (S1 & cl2 & -> & _).
  exists (somes a). split; [|exact E]. rewrite !requests_app, R1, !requests_closed, app_nil_r. cbn [app]. rewrite S1. exact C3.
Qed.
Lemma NoDup_perm (l l' : list Z) : Permutation l l' -> NoDup l -> NoDup l'.
Proof. apply Permutation_NoDup. Qed.

Lemma worked_fds s e s' acts o : worked s e s' acts -> well_formed s -> answers s e -> (forall x, In x o <-> In x (owned s)) -> kernel o acts ->
  well_formed s' /\ tidy o acts /\ (forall x, In x (open_after o acts) <-> In x (owned s')).
Proof.
  intros (pfds & acts1 & l & acts2 & acts3 & a & acts4 & L & C & A & B & E & ->) (N & P) (An1 & An2) Ho K.
  apply kernel_app in K. destruct K as (K1 & _).
  destruct (server_loop_spec _ _ _ _ _ _ L o K1) as (new & En & T1 & O1 & N1 & B1).
  { intros c Hc. apply Ho. unfold owned. apply in_or_app. right. apply in_map. exact Hc. }
  apply app_inv_head in En. rewrite En in E. clear En.
  destruct (client_loop_spec _ _ _ _ C An2) as (C1 & C2 & C3).
  destruct (server_loop_pfds _ _ _ _ _ _ L An1) as (F1 & _). destruct (apply_servers_spec _ _ _ _ A F1) as (cl1 & -> & P1 & _ & _).
  assert (Nm : Forall (fun x => x <> -1) (fds (map fst l))).
  { rewrite C1. apply Forall_forall. intros x Hx. rewrite Forall_forall in P. assert (K : 0 <= x) by (apply P; unfold owned; apply in_or_app; right; exact Hx). lia. }
  destruct (apply_clients_spec _ _ _ B Nm) as (S1 & cl2 & -> & P2). rewrite C1 in P2.
  assert (Po : Permutation (owned s) ((cl1 ++ cl2) ++ live (sv_servers s') ++ fds (somes a))).
  { unfold owned, listening. fold (live (sv_servers s)). fold (fds (sv_clients s)). eapply Permutation_trans; [apply Permutation_app; [exact P1|exact P2]|].
    rewrite <- !app_assoc. apply Permutation_app_head. rewrite !app_assoc. apply Permutation_app_tail. apply Permutation_app_comm. }
  assert (Eo : owned s' = live (sv_servers s') ++ fds (somes a) ++ fds new).
  { unfold owned, listening. fold (live (sv_servers s')). rewrite E. rewrite map_app. reflexivity. }
  pose proof (NoDup_perm _ _ Po N) as Nd.
  assert (Nd' : NoDup (cl1 ++ cl2) /\ NoDup (live (sv_servers s') ++ fds (somes a)) /\ forall x, In x (cl1 ++ cl2) -> ~ In x (live (sv_servers s') ++ fds (somes a))).
  { clear -Nd. remember (cl1 ++ cl2) as u. remember (live (sv_servers s') ++ fds (somes a)) as w. clear Hequ Heqw. induction u as [|x u IH]; cbn [app] in Nd.
    - split; [constructor|]. split; [exact Nd|]. intros ? [].
    - inversion Nd as [|? ? N1 N2]; subst. destruct (IH N2) as (I1 & I2 & I3). split; [constructor; [|exact I1]; intros K; apply N1; apply in_or_app; auto|]. split; [exact I2|].
      intros y [<-|Hy]; [intros K; apply N1; apply in_or_app; auto|apply I3; exact Hy]. }
  destruct Nd' as (Nc & Nk & Dj).
  assert (Inp : forall x, In x (owned s) <-> In x (cl1 ++ cl2) \/ In x (live (sv_servers s') ++ fds (somes a))).
  { intros x. rewrite <- in_app_iff. split; intros Hx; [eapply Permutation_in; [exact Po|exact Hx]|eapply Permutation_in; [apply Permutation_sym; exact Po|exact Hx]]. }
  assert (O2 : Forall (fun a => match a with Pushed fd _ | Wrote fd _ => In fd (open_after o acts1) | _ => False end) acts2).
  { eapply Forall_impl; [|exact C2]. intros [| |fd r|fd b] K; try contradiction; apply O1; left; apply Ho; unfold owned; apply in_or_app; right; exact K. }
  destruct (tidy_uses _ _ O2) as (T2 & E2).
  destruct (closings (cl1 ++ cl2) (open_after o acts1) Nc) as (T3 & O3).
  { intros x Hx. apply O1. left. apply Ho. apply Inp. left. exact Hx. }
  rewrite map_app in T3, O3.
  split; [|split].
  - split.
    + rewrite Eo, app_assoc. revert Nk Inp. generalize (live (sv_servers s') ++ fds (somes a)). intros w Nk Inp. clear -Nk Inp N1 B1 Ho.
      assert (D : forall x, In x w -> ~ In x (fds new)) by (intros x Hx K; destruct (B1 _ K) as (B1' & _); apply B1'; apply Ho; apply Inp; right; exact Hx).
      clear Inp. induction w as [|x w IH]; cbn [app]; [exact N1|]. inversion Nk; subst. constructor; [|apply IH; [assumption|intros y Hy; apply D; right; exact Hy]].
      intros K. apply in_app_or in K. destruct K as [K|K]; [contradiction|]. apply (D x); [left; reflexivity|exact K].
    + apply Forall_forall. intros x Hx. rewrite Eo, app_assoc in Hx. apply in_app_or in Hx. destruct Hx as [Hx|Hx]; [|apply B1; exact Hx]. rewrite Forall_forall in P. apply P. apply Inp. auto.
  - apply tidy_app. split; [exact T1|]. apply tidy_app. split; [exact T2|]. rewrite E2. exact T3.
  - intros x. rewrite (open_after_app o acts1), (open_after_app _ acts2), E2, O3, O1, Eo, app_assoc, (in_app_iff (live (sv_servers s') ++ fds (somes a))), Ho, Inp. split.
    + intros ([[K|K]|K] & K'); [contradiction|auto|auto].
    + intros [K|K]; [split; [auto|]; intros K'; exact (Dj _ K' K)|]. split; [auto|]. intros K'. destruct (B1 _ K) as (B1' & _). apply B1'. apply Ho. apply Inp. auto.
Qed.

(** *** A history *)
Lemma history : forall es s s' b acts o, server_cb s es = Ok (s', b, acts) -> well_formed s -> answered s es -> (forall x, In x o <-> In x (owned s)) -> kernel o acts ->
  well_formed s' /\ tidy o acts /\ (forall x, In x (open_after o acts) <-> In x (owned s')).
Proof.
  induction es as [|e es IH]; intros s s' b acts o H W An Ho K; cbn [server_cb] in H; [injection H as <- <- <-; cbn; auto|].
  cbn [answered] in An. destruct An as (An & Ans). destruct (fddb_poll s e) as [[[s1 v] acts1]| |] eqn:F; cbn [bind] in H; try discriminate H.
  assert (G : exists acts2, acts = acts1 ++ acts2 /\ ((s' = s1 /\ acts2 = []) \/ server_cb s1 es = Ok (s', b, acts2))).
  { destruct v; try (injection H as <- <- <-; exists []; rewrite app_nil_r; auto; fail);
    destruct (server_cb s1 es) as [[[s2 b2] acts2]| |]; cbn [bind] in H; try discriminate H; injection H as <- <- <-; eauto. }
  destruct G as (acts2 & -> & G). apply kernel_app in K. destruct K as (K1 & K2).
  assert (P : well_formed s1 /\ tidy o acts1 /\ (forall x, In x (open_after o acts1) <-> In x (owned s1))).
  { pose proof (poll_work _ _ _ _ _ F) as P. destruct (works e); [destruct P as (_ & P); eapply worked_fds; eauto|]. destruct P as (-> & ->). cbn. auto. }
  destruct P as (P1 & P2 & P3). destruct G as [(-> & ->)|G].
  - rewrite app_nil_r. auto.
  - destruct (IH _ _ _ _ _ G P1 Ans P3 K2) as (I1 & I2 & I3). split; [exact I1|]. rewrite tidy_app, open_after_app. auto.
Qed.

(** *** Listening *)
Lemma same_servers : forall (a b : list Z), Forall2 (fun fd pfd => pfd = fd) a b -> a = b.
Proof. induction 1; congruence. Qed.
Lemma poll_uneventful s e s' v acts : fddb_poll s e = Ok (s', v, acts) -> answers s e -> uneventful e -> sv_servers s' = sv_servers s /\ v <> PV_STOP.
Proof.
  intros H An (U1 & U2). pose proof (poll_work _ _ _ _ _ H) as P. destruct (works e) eqn:Wk.
  - destruct P as (-> & pfds & acts1 & l & acts2 & acts3 & a & acts4 & L & C & A & _). split; [|discriminate].
    destruct An as (An & _). destruct (server_loop_pfds _ _ _ _ _ _ L An) as (F1 & F2). destruct (apply_servers_spec _ _ _ _ A F1) as (cl & _ & _ & _ & G). apply G. apply F2. exact U2.
  - destruct P as (-> & _). split; [reflexivity|]. unfold fddb_poll in H. unfold works in Wk. destruct (pe_polled e) as [| |n|]; try contradiction; try discriminate Wk; [injection H as <- <-; discriminate|].
    destruct (Z.eqb_spec n 4); [contradiction|]. destruct (n =? 12); [discriminate H|]. destruct (n =? 11); [injection H as <- <-; discriminate|]. destruct (n =? 14); [discriminate H|]. destruct (n =? 22); [discriminate H|]. discriminate Wk.
Qed.
Lemma cb_uneventful : forall es s s' b acts, server_cb s es = Ok (s', b, acts) -> answered s es -> Forall uneventful es -> sv_servers s' = sv_servers s /\ b = true.
Proof.
  induction es as [|e es IH]; intros s s' b acts H An U; cbn [server_cb] in H; [injection H as <- <- <-; auto|].
  cbn [answered] in An. destruct An as (An & Ans). inversion U as [|? ? U1 U2]; subst. destruct (fddb_poll s e) as [[[s1 v] acts1]| |] eqn:F; cbn [bind] in H; try discriminate H.
  destruct (poll_uneventful _ _ _ _ _ F An U1) as (E & Nv). destruct v; try contradiction;
  destruct (server_cb s1 es) as [[[s2 b2] acts2]| |] eqn:C; cbn [bind] in H; try discriminate H; injection H as <- <- <-; destruct (IH _ _ _ _ C Ans U2) as (E' & B); split; congruence.
Qed.
(** A server whose sockets are closed doesn't accept anyone. *)
Lemma deaf_loop : forall sfds evs cs pfds cs' acts, Forall (fun fd => fd = -1) sfds -> server_loop sfds evs cs = (pfds, cs', acts) -> cs' = cs /\ acts = [] /\ Forall (fun fd => fd = -1) pfds.
Proof.
  induction sfds as [|fd sfds IH]; intros evs cs pfds cs' acts F H; cbn [server_loop] in H; [injection H as <- <- <-; auto|].
  destruct evs as [|e evs]; [injection H as <- <- <-; auto|]. inversion F as [|? ? F1 F2]; subst. change (-1 =? -1) with true in H. cbv beta iota in H.
  destruct (server_loop sfds evs cs) as [[l c] a] eqn:L. injection H as <- <- <-. destruct (IH _ _ _ _ _ F2 L) as (-> & -> & G). cbn. auto.
Qed.
Lemma deaf_apply : forall sfds pfds l acts, Forall (fun fd => fd = -1) sfds -> apply_servers sfds pfds = (l, acts) -> Forall (fun fd => fd = -1) l /\ acts = [].
Proof.
  induction sfds as [|fd sfds IH]; intros pfds l acts F H; cbn [apply_servers] in H; [injection H as <- <-; auto|].
  destruct pfds as [|p pfds]; [injection H as <- <-; auto|]. inversion F as [|? ? F1 F2]; subst. destruct (apply_servers sfds pfds) as [l' a'] eqn:E. destruct (IH _ _ _ F2 E) as (G & ->).
  change (-1 =? -1) with true in H. rewrite andb_false_r in H. injection H as <- <-. auto.
Qed.
Lemma no_open_closed l : Forall (fun a => match a with Opened _ => False | _ => True end) (map Closed l).
Proof. induction l; constructor; auto. Qed.
Lemma client_loop_opens : forall cs evs l acts, client_loop cs evs = Ok (l, acts) -> Forall (fun a => match a with Opened _ => False | _ => True end) acts.
Proof.
  induction cs as [|c cs IH]; intros [|e evs] l acts H; cbn [client_loop] in H; try (injection H as <- <-; constructor).
  match type of H with bind ?m _ = _ => destruct m as [[[c' b] a]| |] eqn:M; cbn [bind] in H; try discriminate H end.
  destruct (client_loop cs evs) as [[l' a']| |] eqn:L; cbn [bind] in H; try discriminate H. injection H as <- <-. apply Forall_app. split; [|eapply IH; exact L].
  destruct (ev_bad (ce_revents e)); [injection M as <- <- <-; constructor|]. destruct (ev_in (ce_revents e)); [|injection M as <- <- <-; constructor].
  destruct (handle_client_spec _ _ _ _ _ M) as (_ & F). eapply Forall_impl; [|exact F]. intros []; auto.
Qed.
Lemma apply_clients_opens : forall l a acts, apply_clients l = (a, acts) -> Forall (fun a => match a with Opened _ => False | _ => True end) acts.
Proof.
  induction l as [|[c b] l IH]; intros a acts H; cbn [apply_clients] in H; [injection H as <- <-; constructor|].
  destruct (apply_clients l) as [a' ac'] eqn:E. destruct (negb b && negb (cl_fd c =? -1)); injection H as <- <-; [constructor; [exact I|]|]; eapply IH; reflexivity.
Qed.
Lemma deaf_poll s e s' v acts : Forall (fun fd => fd = -1) (sv_servers s) -> fddb_poll s e = Ok (s', v, acts) ->
  Forall (fun fd => fd = -1) (sv_servers s') /\ Forall (fun a => match a with Opened _ => False | _ => True end) acts.
Proof.
  intros F H. pose proof (poll_work _ _ _ _ _ H) as P. destruct (works e); [|destruct P as (-> & ->); auto].
  destruct P as (_ & pfds & acts1 & l & acts2 & acts3 & a & acts4 & L & C & A & B & _ & ->). destruct (deaf_loop _ _ _ _ _ _ F L) as (_ & -> & _). destruct (deaf_apply _ _ _ _ F A) as (G & ->).
  split; [exact G|]. cbn [app]. apply Forall_app. split; [eapply client_loop_opens; exact C|eapply apply_clients_opens; exact B].
Qed.
Lemma deaf_cb : forall es s s' b acts, Forall (fun fd => fd = -1) (sv_servers s) -> server_cb s es = Ok (s', b, acts) ->
  Forall (fun a => match a with Opened _ => False | _ => True end) acts.
Proof.
  induction es as [|e es IH]; intros s s' b acts F H; cbn [server_cb] in H; [injection H as <- <- <-; constructor|].
  destruct (fddb_poll s e) as [[[s1 v] acts1]| |] eqn:P; cbn [bind] in H; try discriminate H. destruct (deaf_poll _ _ _ _ _ F P) as (F' & O).
  destruct v; try (injection H as <- <- <-; exact O);
  destruct (server_cb s1 es) as [[[s2 b2] acts2]| |] eqn:C; cbn [bind] in H; try discriminate H; injection H as <- <- <-; (apply Forall_app; split; [exact O|eapply IH; eassumption]).
Qed.
