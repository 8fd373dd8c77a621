(** C103: daemons. *)
From Coq Require Import Lia FinFun.
From Verif Require Import Base Daemon DaemonSpec.
Notation length := List.length.

(** ** Descriptors *)

Lemma close_in fds fd e : In e (close_fd fds fd) <-> In e fds /\ fst e <> fd.
Proof. unfold close_fd. rewrite filter_In. destruct (Z.eqb_spec (fst e) fd) as [E|E]; cbn [negb]; split; intros (A & B); split; try assumption; try discriminate; try reflexivity. contradiction. Qed.
Lemma close_loop l : forall m fds e, In e (fold_left (fun fds n => close_fd fds (m - Z.of_nat n)) l fds) <-> In e fds /\ ~ In (fst e) (map (fun n => m - Z.of_nat n) l).
Proof.
  induction l as [|n l IH]; intros m fds e; cbn [fold_left map].
  - split; [intros H; split; [assumption|intros []]|intros (H & _); assumption].
  - rewrite IH, close_in. split.
    + intros ((A & B) & C). split; [assumption|]. intros [K|K]; [apply B; symmetry; assumption|contradiction].
    + intros (A & B). split; [split; [assumption|]|]; intros K; apply B; [left; symmetry; assumption|right; assumption].
Qed.
Lemma close_all_in fds m e : In e (close_all fds m) <-> In e fds /\ ~ (0 <= fst e <= m).
Proof.
  unfold close_all. rewrite close_loop. split; intros (A & B); split; try assumption; intros K; apply B.
  - apply in_map_iff. exists (Z.to_nat (m - fst e)). split; [lia|]. apply in_seq. lia.
  - apply in_map_iff in K. destruct K as (n & E & K). apply in_seq in K. lia.
Qed.
Lemma lowest_fresh fds : ~ In (lowest fds) (map fst fds).
Proof.
  unfold lowest. destruct (find _ _) as [n|] eqn:E.
  - apply find_some in E. destruct E as (_ & E). apply Bool.negb_true_iff in E. intros K. apply in_map_iff in K. destruct K as (e & Ee & K).
    assert (X : existsb (fun e => fst e =? n) fds = true) by (apply existsb_exists; exists e; split; [assumption|apply Z.eqb_eq; assumption]). congruence.
  - exfalso. assert (I0 : incl (map Z.of_nat (seq 0 (S (length fds)))) (map fst fds)).
    { intros n Hn. pose proof (find_none _ _ E n Hn) as X. cbv beta in X. apply Bool.negb_false_iff in X. apply existsb_exists in X. destruct X as (e & He & X).
      apply Z.eqb_eq in X. apply in_map_iff. exists e. split; assumption. }
    apply NoDup_incl_length in I0.
    + rewrite !map_length, seq_length in I0. lia.
    + apply Injective_map_NoDup; [intros x y H; apply Nat2Z.inj; assumption|apply seq_NoDup].
Qed.
Lemma find_close (fds : list (Z * fd_kind)) fd' fd : fd' <> fd -> find (fun e => fst e =? fd) (close_fd fds fd') = find (fun e => fst e =? fd) fds.
Proof.
  intros N. induction fds as [|e fds IH]; [reflexivity|]. unfold close_fd. cbn [filter find]. destruct (fst e =? fd') eqn:E; cbn [negb].
  - apply Z.eqb_eq in E. rewrite <- E in N. apply Z.eqb_neq in N. rewrite N. exact IH.
  - cbn [find]. destruct (fst e =? fd); [reflexivity|exact IH].
Qed.

(** ** Daemons *)

(** If nothing fails, there's one process more than before: a daemon, which goes on; the one that the user started
    ends well. *)
Theorem C103_daemon : forall a p, p_parent p <> 1 -> all_well a p ->
  exists c d, daemonize a p = [(p, Exits 0); (c, Exits 0); (d, Returns 0)] /\ is_daemon p d.
Proof.
  intros a p Hp (H1 & H2 & H3 & (x & y & F1 & F2 & Nxy & Nx) & Hf). unfold daemonize. apply Z.eqb_neq in Hp. rewrite Hp, H1, F1, H2, F2, H3.
  eexists. eexists. split; [reflexivity|]. unfold is_daemon. cbn [clean orphan child_of ignore_hup setsid start_logs p_tty p_session p_pid p_parent p_fds p_hup_ignored p_umask p_cwd p_logs].
  repeat split; try assumption; try reflexivity.
  assert (N : forall e, ~ In e (close_all (p_fds p) (a_open_max a))).
  { intros e K. apply close_all_in in K. destruct K as (K & B). rewrite Forall_forall in Hf. specialize (Hf e K). lia. }
  destruct (close_all (p_fds p) (a_open_max a)) as [|e l]; [reflexivity|]. exfalso. apply (N e). left. reflexivity.
Qed.
Print Assumptions C103_daemon.

(** An error before the first fork() is returned, and nothing has changed; after any error, nothing goes on; never do two
    processes go on. *)
Theorem C103_failures : forall a p, p_parent p <> 1 -> errors a ->
  (forall e, a_cwd a = Some e \/ (a_cwd a = None /\ a_fork1 a = inl e) -> e <> 0 /\ daemonize a p = [(p, Returns e)]) /\
  ((exists d, goes_on (daemonize a p) d) <-> a_cwd a = None /\ (exists c, a_fork1 a = inr c) /\ a_setsid a = None /\ (exists d, a_fork2 a = inr d) /\ a_chdir a = None) /\
  (forall q q' e e', In (q, Returns e) (daemonize a p) -> In (q', Returns e') (daemonize a p) -> q = q').
Proof.
  intros a p Hp (E1 & E2 & E3 & E4 & E5). unfold goes_on, daemonize. apply Z.eqb_neq in Hp. rewrite Hp.
  destruct (a_cwd a) as [e1|].
  { split; [intros e [[= <-]|(K & _)]; [split; [congruence|reflexivity]|discriminate]|]. split.
    - split; [intros (d & [[= _ K]|[]]); subst; contradiction|intros (K & _); discriminate].
    - intros q q' e e' [[= <- _]|[]] [[= <- _]|[]]. reflexivity. }
  destruct (a_fork1 a) as [e1|c].
  { split; [intros e [K|(_ & [= <-])]; [discriminate|split; [congruence|reflexivity]]|]. split.
    - split; [intros (d & [[= _ K]|[]]); subst; contradiction|intros (_ & (c & K) & _); discriminate].
    - intros q q' e e' [[= <- _]|[]] [[= <- _]|[]]. reflexivity. }
  split; [intros e [K|(_ & K)]; discriminate|].
  destruct (a_setsid a) as [e1|].
  { split; [split; [intros (d & [K|[K|[]]]); discriminate|intros (_ & _ & K & _); discriminate]|]. intros q q' e e' [K|[K|[]]]; discriminate. }
  destruct (a_fork2 a) as [e1|d2].
  { split; [split; [intros (d & [K|[K|[]]]); discriminate|intros (_ & _ & _ & (d & K) & _); discriminate]|]. intros q q' e e' [K|[K|[]]]; discriminate. }
  destruct (a_chdir a) as [e1|].
  { split; [split; [intros (d & [K|[K|[K|[]]]]); discriminate|intros (_ & _ & _ & _ & K); discriminate]|]. intros q q' e e' [K|[K|[K|[]]]]; discriminate. }
  split.
  - split; [intros _; repeat split; eexists; reflexivity|]. intros _. eexists. right. right. left. reflexivity.
  - intros q q' e e' [K|[K|[[= <- _]|[]]]]; try discriminate. intros [K|[K|[[= <- _]|[]]]]; try discriminate. reflexivity.
Qed.
Print Assumptions C103_failures.

(** ** The log *)

Lemma kind_cons p fds fd k s n : p_fds p = fds -> ~ In n (map fst fds) -> kind_at p fd = Some k -> kind_at (with_fds p ((n, s) :: fds) (p_syslog p)) fd = Some k.
Proof.
  intros <- N H. unfold kind_at in *. cbn [with_fds p_fds find fst]. destruct (Z.eqb_spec n fd) as [->|_]; [|exact H].
  exfalso. apply N. destruct (find _ (p_fds p)) as [e|] eqn:E; [|discriminate]. apply find_some in E. destruct E as (E & K). apply Z.eqb_eq in K. apply in_map_iff. exists e. split; assumption.
Qed.
Lemma reconnect_ok p : connection_ok (reconnect p).
Proof. unfold connection_ok, reconnect, kind_at. cbn [with_fds p_syslog p_fds find fst]. rewrite Z.eqb_refl. reflexivity. Qed.
(** If what syslog() takes for its connection is it, or there isn't one yet, everything that's logged gets to the log, and only there;
    whatever the program opens and closes. *)
Theorem C103_logs : forall l p, connection_ok p -> own l -> closes_own p l -> logs_well l (snd (do_ops p l)).
Proof.
  induction l as [|o l IH]; intros p H Ho Hc; [reflexivity|]. cbn [closes_own] in Hc. destruct Hc as (Hc1 & Hc2).
  assert (Ho' : own l) by (intros K; apply Ho; right; assumption).
  assert (S1 : connection_ok (fst (do_op p o)) /\ snd (do_op p o) = map ToLog (logged [o])).
  { destruct o as [k|fd|text]; cbn [do_op fst snd logged flat_map map app].
    - split; [|reflexivity]. unfold connection_ok in *. cbn [with_fds p_syslog]. destruct (p_syslog p) as [fd|] eqn:E; [|exact Logic.I].
      rewrite <- E. apply kind_cons; [reflexivity|apply lowest_fresh|assumption].
    - split; [|reflexivity]. unfold connection_ok in *. cbn [with_fds p_syslog]. destruct (p_syslog p) as [fd'|] eqn:E; [|exact Logic.I].
      unfold kind_at in *. cbn [with_fds p_fds]. rewrite find_close; [assumption|]. intros ->. contradiction.
    - unfold syslog. unfold connection_ok in H. destruct (p_syslog p) as [fd|] eqn:E; [rewrite H; split; [|reflexivity]|split; [apply reconnect_ok|reflexivity]].
      unfold connection_ok. cbn [fst]. rewrite E. assumption. }
  destruct S1 as (H1 & H2). cbn [do_ops]. destruct (do_op p o) as (p1 & ev). cbn [fst snd] in *. specialize (IH p1 H1 Ho' Hc2). destruct (do_ops p1 l) as (p2 & evs). cbn [snd] in *.
  unfold logs_well in *. rewrite H2, IH. unfold logged. cbn [flat_map]. rewrite <- map_app, app_nil_r. reflexivity.
Qed.
Print Assumptions C103_logs.

(** In a daemon: if it logs something before it opens anything. *)
Theorem C103_daemon_logs_partial : forall a p d text l, all_well a p -> p_parent p <> 1 -> goes_on (daemonize a p) d ->
  own (OpLog text :: l) -> closes_own d (OpLog text :: l) -> logs_well (OpLog text :: l) (snd (do_ops d (OpLog text :: l))).
Proof.
  intros a p d text l Hw Hp Hd Ho (_ & Hc). destruct (C103_daemon a p Hp Hw) as (c & d' & E & D). unfold goes_on in Hd. rewrite E in Hd.
  destruct Hd as [K|[K|[[= <-]|[]]]]; try discriminate. destruct D as (_ & _ & _ & _ & F & _). cbn [do_ops do_op] in *.
  assert (Y : snd (syslog d' text) = [ToLog text] /\ connection_ok (fst (syslog d' text))).
  { unfold syslog. destruct (p_syslog d') as [fd|]; [|split; [reflexivity|apply reconnect_ok]]. unfold kind_at. rewrite F. cbn [find option_map]. split; [reflexivity|apply reconnect_ok]. }
  destruct (syslog d' text) as (p1 & ev). cbn [fst snd] in *. destruct Y as (-> & Y).
  assert (Ho' : own l) by (intros K; apply Ho; right; assumption).
  pose proof (C103_logs l p1 Y Ho' Hc) as L. destruct (do_ops p1 l) as (p2 & evs). cbn [snd] in *. unfold logs_well in *. rewrite L. reflexivity.
Qed.
Print Assumptions C103_daemon_logs_partial.

(** ** What's false *)

(** The user's process ends well although there's no daemon. *)
Theorem C103_status_refuted : forall a p c, p_parent p <> 1 -> a_cwd a = None -> a_fork1 a = inr c ->
  a_setsid a <> None \/ (exists e, a_fork2 a = inl e) \/ a_chdir a <> None ->
  In (p, Exits 0) (daemonize a p) /\ Forall (fun r => is_exit (snd r)) (daemonize a p).
Proof.
  intros a p c Hp H1 F1 H. unfold daemonize. apply Z.eqb_neq in Hp. rewrite Hp, H1, F1. split; [left; reflexivity|].
  constructor; [eexists; reflexivity|]. destruct (a_setsid a); [repeat constructor; eexists; reflexivity|].
  destruct (a_fork2 a); [repeat constructor; eexists; reflexivity|]. constructor; [eexists; reflexivity|].
  destruct (a_chdir a); [repeat constructor; eexists; reflexivity|]. destruct H as [H|[(e & H)|H]]; [contradiction|discriminate|contradiction].
Qed.
Print Assumptions C103_status_refuted.

(** Descriptors that are beyond sysconf()'s limit (it may have been lowered; it's -1 if there's none) stay open. *)
Theorem C103_descriptors_refuted : forall a p d e, p_parent p <> 1 -> goes_on (daemonize a p) d -> In e (p_fds p) -> a_open_max a < fst e -> In e (p_fds d).
Proof.
  intros a p d e Hp Hd He L. unfold goes_on, daemonize in Hd. apply Z.eqb_neq in Hp. rewrite Hp in Hd.
  assert (K : In e (close_all (p_fds p) (a_open_max a))) by (apply close_all_in; split; [assumption|lia]).
  destruct (a_cwd a); [destruct Hd as [[= <- _]|[]]; assumption|].
  destruct (a_fork1 a); [destruct Hd as [[= <- _]|[]]; assumption|]. destruct (a_setsid a); [destruct Hd as [X|[X|[]]]; discriminate|].
  destruct (a_fork2 a); [destruct Hd as [X|[X|[]]]; discriminate|]. destruct (a_chdir a); [destruct Hd as [X|[X|[X|[]]]]; discriminate|].
  destruct Hd as [X|[X|[[= <-]|[]]]]; try discriminate. exact K.
Qed.
Print Assumptions C103_descriptors_refuted.

(** A process whose parent is process 1, as in a container, doesn't become a daemon; and the user's configuration of the
    logs is not used. *)
Theorem C103_container_refuted : forall a p, p_parent p = 1 -> p_logs p = false ->
  daemonize a p = [(p, Returns 0)] /\ ~ is_daemon p p.
Proof.
  intros a p Hp Hl. unfold daemonize. rewrite Hp, Z.eqb_refl. split; [reflexivity|]. intros (_ & _ & K & _). contradiction.
Qed.
Print Assumptions C103_container_refuted.

(** src/config.c:1150 logs a warning before daemonize(), which closes syslog()'s connection; syslog() isn't told.  If the daemon logs
    nothing until it has opened four descriptors, the first text it logs is sent to a client, or closes the server's socket. *)
Definition user : process :=
  {| p_pid := 100; p_parent := 50; p_session := 50; p_tty := true; p_fds := [(0, FdFile); (1, FdFile); (2, FdFile); (3, FdSyslog)]; p_umask := 18; p_cwd := [47];
     p_hup_ignored := false; p_syslog := Some 3; p_logs := false |}.
Definition fine : answers := {| a_cwd := None; a_fork1 := inr 101; a_setsid := None; a_fork2 := inr 102; a_open_max := 1024; a_chdir := None |}.
Definition daemon1 : process := clean (orphan (child_of (ignore_hup (setsid (start_logs (orphan (child_of user 101))))) 102)) 1024.
Theorem C103_syslog_refuted : exists a p d text, all_well a p /\ p_parent p <> 1 /\ connection_ok p /\ goes_on (daemonize a p) d /\
  (let l := [OpOpen FdFile; OpOpen FdFile; OpOpen FdListener; OpOpen FdClient; OpLog text] in
   own l /\ closes_own d l /\ snd (do_ops d l) = [ToClient 3 text]) /\
  (let l := [OpOpen FdFile; OpOpen FdFile; OpOpen FdFile; OpOpen FdListener; OpLog text] in
   own l /\ closes_own d l /\ snd (do_ops d l) = [Closes 3 FdListener; ToLog text]).
Proof.
  assert (F : p_fds daemon1 = []) by (vm_compute; reflexivity).
  exists fine, user, daemon1, [104; 105]. split.
  { repeat split; [exists 101, 102; repeat split; discriminate|]. unfold user. cbn [p_fds]. repeat (apply Forall_cons; [cbn; lia|]). apply Forall_nil. }
  split; [discriminate|]. split; [reflexivity|]. split; [right; right; left; reflexivity|].
  split; cbv zeta; (split; [intros K; repeat (destruct K as [K|K]; [discriminate|]); contradiction|]); (split; [repeat split; exact Logic.I|]); vm_compute; reflexivity.
Qed.
Print Assumptions C103_syslog_refuted.

Example C103_nonvacuous : all_well fine user /\ errors fine /\ (exists d, goes_on (daemonize fine user) d /\ is_daemon user d) /\
  connection_ok user /\ own [OpOpen FdClient; OpLog [65]; OpClose 4; OpLog [66]] /\ closes_own user [OpOpen FdClient; OpLog [65]; OpClose 4; OpLog [66]] /\
  goes_on (daemonize {| a_cwd := None; a_fork1 := inr 101; a_setsid := None; a_fork2 := inr 102; a_open_max := -1; a_chdir := None |} user)
    (clean (orphan (child_of (ignore_hup (setsid (start_logs (orphan (child_of user 101))))) 102)) (-1)).
Proof.
  split; [|split; [repeat split; discriminate|split; [|split; [reflexivity|split; [|split; [|right; right; left; reflexivity]]]]]].
  - repeat split; [exists 101, 102; repeat split; discriminate|]. unfold user. cbn [p_fds]. repeat (apply Forall_cons; [cbn; lia|]). apply Forall_nil.
  - exists daemon1. split; [right; right; left; reflexivity|]. unfold is_daemon. repeat split; try discriminate; vm_compute; reflexivity.
  - intros K. repeat (destruct K as [K|K]; [discriminate|]). contradiction.
  - repeat split; vm_compute; discriminate.
Qed.
