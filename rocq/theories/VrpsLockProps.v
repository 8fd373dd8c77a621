(** C94: the RTR server's data is updated while routers are being answered. *)
From Verif Require Import Base VrpsLock VrpsLockSpec VrpsLockProofs VrpsLockProofs2.
From Coq Require Import Permutation.
Notation length := List.length.

(** No thread ever uses an object that has been freed. *)
Theorem C94_no_use_after_free : forall capacity s i, (0 < capacity)%nat -> reachable capacity s -> accesses s i -> ~ In i (freed s).
Proof.
  intros cap s i Hc R A. pose proof (reachable_inv cap Hc s R) as I.
  exact (proj1 (memory_in cap Hc s i (i_mem _ _ I) (accesses_live cap s i I A))).
Qed.

(** Nothing is freed twice, and nothing is lost: each object that was created is in the shared data, in the updater's hands or freed, once. *)
Theorem C94_no_leak : forall capacity s, (0 < capacity)%nat -> reachable capacity s ->
  Permutation (shared s ++ owned (w s) ++ freed s) (seq 0 (next s)) /\ NoDup (shared s ++ owned (w s) ++ freed s).
Proof.
  intros cap s Hc R. pose proof (reachable_inv cap Hc s R) as I. rewrite app_assoc. split.
  - apply memory_perm. apply I.
  - apply memory_nodup. apply I.
Qed.

(** Whoever gets an answer gets to see what the last update that had been published when it gets it left, and not a mixture. *)
Theorem C94_consistent : forall capacity s s' a, (0 < capacity)%nat -> reachable capacity s -> step capacity s s' -> answers s' = a :: answers s ->
  exists e l, published s = e :: l /\ seen_in e a.
Proof. intros cap s s' a Hc R Hs E. exact (answered cap s s' a Hc (reachable_inv cap Hc s R) Hs E). Qed.
Theorem C94_all_consistent : forall capacity s a, (0 < capacity)%nat -> reachable capacity s -> In a (answers s) -> exists e, In e (published s) /\ seen_in e a.
Proof.
  intros cap s a Hc R. revert a. induction R as [s Hi|s s' R IH Hs]; intros a Ha.
  - destruct Hi as (_ & _ & _ & _ & _ & _ & _ & E). rewrite E in Ha. destruct Ha.
  - destruct (published_grows cap s s' Hs) as (l & El). rewrite El.
    destruct (answers_grow cap s s' Hs) as [E|(x & E)]; rewrite E in Ha.
    + destruct (IH a Ha) as (e & A & B). exists e. split; [apply in_or_app; now right|exact B].
    + destruct Ha as [->|Ha].
      * destruct (C94_consistent cap s s' a Hc R Hs E) as (e & l' & A & B). exists e. split; [rewrite A; apply in_or_app; right; now left|exact B].
      * destruct (IH a Ha) as (e & A & B). exists e. split; [apply in_or_app; now right|exact B].
Qed.
(** What the updates leave, each with regard to the one before. *)
Theorem C94_history : forall capacity s, (0 < capacity)%nat -> reachable capacity s -> history capacity (published s) /\ (length (deltas s) <= capacity)%nat.
Proof. intros cap s Hc R. pose proof (reachable_inv cap Hc s R) as I. split; apply I. Qed.

(** If no client leaves the server waiting, what the updater has found does get published, and whoever wants an answer gets it. *)
Theorem C94_progress : forall capacity s threads old new d, (forall t, reading (r s t) = true -> In t threads) -> (forall t, c s t <> Stalled) ->
  w s = W_want old new d -> exists s' n ds, runs capacity s s' /\ published s' = (n, new, ds) :: published s /\ base s' = Some new.
Proof.
  intros cap s l old new d Hl Hc Hw. destruct (all_finish cap l s Hl Hc) as (s1 & A1 & A2 & A3 & A4 & _).
  destruct (writer_finishes cap (set_w s1 (W_in old new d)) old new d eq_refl) as (s2 & ds & B1 & B2 & B3 & _).
  exists s2, (wrap32 (serial s1 + 1)), ds. split; [|split; [rewrite B2; cbn; now rewrite A4|exact B3]].
  eapply runs_trans; [exact A1|]. eapply runs_trans; [|exact B1]. eapply runs_step; [apply runs_refl|]. apply updater. apply w_lock; congruence.
Qed.
Theorem C94_reader_progress : forall capacity s t q, r s t = R_want q -> c s t <> Stalled ->
  exists s1 s2, runs capacity s s1 /\ r s1 t = R_in q /\ runs_of t s1 s2 /\ r s2 t = R_idle.
Proof.
  intros cap s t q Hr Hc.
  assert (X : exists s', runs cap s s' /\ writing (w s') = false /\ r s' = r s /\ c s' = c s).
  { destruct (writing (w s)) eqn:E; [exact (writer_leaves cap s E)|]. exists s. split; [apply runs_refl|auto]. }
  destruct X as (s' & A1 & A2 & A3 & A4).
  destruct (reader_finishes t (set_r s' t (R_in q))) as (s2 & B1 & B2); [now rewrite set_r_same|cbn; congruence|].
  exists (set_r s' t (R_in q)), s2. split; [|split; [apply set_r_same|split; [exact B1|exact B2]]].
  eapply runs_step; [exact A1|]. eapply reader. apply r_lock; [congruence|exact A2].
Qed.

(** A concrete server: one update has been published, the next one waits for the lock. *)
Definition start : state :=
  {| base := None; serial := 0; deltas := []; w := W_idle; r := fun _ => R_idle; c := fun _ => Reads; next := O; freed := []; published := []; answers := [] |}.
Ltac fwd R tac := match type of R with reachable ?cap ?s =>
  let s' := open_constr:(_ : state) in let H := fresh "H" in assert (H : step cap s s'); [tac|apply (r_step cap s s' R) in H; clear R; rename H into R] end.
Lemma start_reachable cap : reachable cap start.
Proof. apply r_initial. repeat split. Qed.
Definition updated : state :=
  {| base := Some O; serial := 1; deltas := []; w := W_want (Some O) 1 (Some 2%nat); r := fun _ => R_idle; c := fun _ => Reads; next := 3; freed := [];
     published := [(1, O, [])]; answers := [S_stats O 1] |}.
Lemma updated_reachable cap : reachable cap updated.
Proof.
  pose proof (start_reachable cap) as R.
  fwd R ltac:(apply updater; apply (w_start _ _); try reflexivity).
  fwd R ltac:(apply updater; apply (w_valid _ _ None); try reflexivity).
  fwd R ltac:(apply updater; apply (w_slurm _ _ None O); try reflexivity).
  fwd R ltac:(apply updater; apply (w_first _ _ O); try reflexivity).
  fwd R ltac:(apply updater; apply (w_lock _ _ None O None); try reflexivity).
  fwd R ltac:(apply updater; apply (w_base _ _ None O None); try reflexivity).
  fwd R ltac:(apply updater; apply (w_serial _ _ None None); try reflexivity).
  fwd R ltac:(apply updater; apply (w_no_deltas _ _ None); try reflexivity).
  fwd R ltac:(apply updater; apply (w_unlock _ _ None); try reflexivity).
  fwd R ltac:(apply updater; apply (w_free _ _ None); try reflexivity).
  fwd R ltac:(apply updater; apply (w_stats_lock _ _); try reflexivity).
  fwd R ltac:(apply updater; apply (w_stats _ _); try reflexivity).
  fwd R ltac:(apply updater; apply (w_start _ _); try reflexivity).
  fwd R ltac:(apply updater; apply (w_valid _ _ (Some O)); try reflexivity).
  fwd R ltac:(apply updater; apply (w_slurm _ _ (Some O) 1%nat); try reflexivity).
  fwd R ltac:(apply updater; apply (w_differs _ _ O 1%nat); try reflexivity). exact R.
Qed.
Example C94_no_use_after_free_example : exists s, reachable 1 s /\ accesses s O /\ w s = W_comparing (Some O) 1.
Proof.
  pose proof (start_reachable 1) as R.
  fwd R ltac:(apply updater; apply (w_start _ _); try reflexivity).
  fwd R ltac:(apply updater; apply (w_valid _ _ None); try reflexivity).
  fwd R ltac:(apply updater; apply (w_slurm _ _ None O); try reflexivity).
  fwd R ltac:(apply updater; apply (w_first _ _ O); try reflexivity).
  fwd R ltac:(apply updater; apply (w_lock _ _ None O None); try reflexivity).
  fwd R ltac:(apply updater; apply (w_base _ _ None O None); try reflexivity).
  fwd R ltac:(apply updater; apply (w_serial _ _ None None); try reflexivity).
  fwd R ltac:(apply updater; apply (w_no_deltas _ _ None); try reflexivity).
  fwd R ltac:(apply updater; apply (w_unlock _ _ None); try reflexivity).
  fwd R ltac:(apply updater; apply (w_free _ _ None); try reflexivity).
  fwd R ltac:(apply updater; apply (w_stats_lock _ _); try reflexivity).
  fwd R ltac:(apply updater; apply (w_stats _ _); try reflexivity).
  fwd R ltac:(apply updater; apply (w_start _ _); try reflexivity).
  fwd R ltac:(apply updater; apply (w_valid _ _ (Some O)); try reflexivity).
  fwd R ltac:(apply updater; apply (w_slurm _ _ (Some O) 1%nat); try reflexivity).
  eexists. split; [exact R|]. split; [|reflexivity]. eapply a_comparing_old. reflexivity.
Qed.
Example C94_progress_example : exists s' n ds, runs 1 updated s' /\ published s' = (n, 1%nat, ds) :: published updated /\ base s' = Some 1%nat.
Proof. apply (C94_progress 1 updated [] (Some O) 1 (Some 2%nat)); [intros t; discriminate|intros t; discriminate|reflexivity]. Qed.

(** "Updates get published whatever routers do": a router that stops reading while the server sends it something, and doesn't close the
    connection, keeps the lock taken; whatever everybody else does, nothing is published ever after. *)
Theorem C94_stalled_refuted :
  (forall capacity t s old new d s', sending (r s t) -> c s t = Stalled -> w s = W_want old new d -> runs_without capacity t s s' ->
     published s' = published s /\ base s' = base s /\ serial s' = serial s /\ w s' = w s) /\
  (forall capacity, exists s old new d, reachable capacity s /\ sending (r s O) /\ c s O = Stalled /\ (forall t, t <> O -> c s t = Reads) /\ w s = W_want old new d).
Proof.
  split.
  - intros cap t s old new d s' A B C D. destruct (stuck cap t s old new d A B C s' D) as (E1 & E2 & E3 & E4 & E5 & E6 & E7). auto.
  - intros cap. pose proof (updated_reachable cap) as R.
    fwd R ltac:(apply (client_does _ O Stalled)).
    fwd R ltac:(apply (reader _ O); apply (r_query O _ QBase); try reflexivity).
    fwd R ltac:(apply (reader _ O); apply (r_lock O _ QBase); try reflexivity).
    fwd R ltac:(apply (reader _ O); apply (r_table O _ O 1); try reflexivity).
    fwd R ltac:(apply (reader _ O); apply (r_next O _ O O); try reflexivity).
    eexists _, (Some O), 1%nat, (Some 2%nat). split; [exact R|]. split; [exact Logic.I|split; [reflexivity|split; [|reflexivity]]].
    intros t Ht. cbn. destruct t; [congruence|reflexivity].
Qed.

(** "Updates get published if all routers read": the lock prefers readers (the default), so that two routers whose questions overlap can keep
    it taken for any number of questions. *)
Lemma overlap s b old new d : r s 0%nat = R_in QSerial -> r s 1%nat = R_idle -> base s = Some b -> w s = W_want old new d ->
  exists s', runs_locked s s' /\ r s' 0%nat = R_in QSerial /\ r s' 1%nat = R_idle /\ base s' = Some b /\ w s' = W_want old new d /\ c s' = c s /\ length (answers s') = S (S (length (answers s))).
Proof.
  intros A B C D.
  set (s1 := set_r s 1 (R_want QSerial)). set (s2 := set_r s1 1 (R_in QSerial)). set (s3 := set_r (answer s2 (S_serial (serial s2))) 0 R_idle).
  set (s4 := set_r s3 0 (R_want QSerial)). set (s5 := set_r s4 0 (R_in QSerial)). set (s6 := set_r (answer s5 (S_serial (serial s5))) 1 R_idle).
  exists s6. split; [|repeat split; assumption].
  apply (runs_locked_step 1 0 s s5).
  apply (runs_locked_step 0 1 s s4). apply (runs_locked_step 0 1 s s3). apply (runs_locked_step 0 1 s s2). apply (runs_locked_step 1 0 s s1).
  apply (runs_locked_step 1 0 s s).
  - apply runs_locked_refl.
  - apply r_query. exact B.
  - cbn. now rewrite A.
  - apply r_lock; [reflexivity|]. cbn. now rewrite D.
  - cbn. now rewrite A.
  - eapply r_serial; [exact A|exact C].
  - reflexivity.
  - apply r_query. reflexivity.
  - reflexivity.
  - apply r_lock; [reflexivity|]. cbn. now rewrite D.
  - reflexivity.
  - eapply r_serial; [reflexivity|exact C].
  - reflexivity.
Qed.
Lemma runs_locked_trans s s' s'' : runs_locked s s' -> runs_locked s' s'' -> runs_locked s s''.
Proof. intros A B. revert A. induction B; intros A; [exact A|]. econstructor; [apply IHB; exact A|eassumption|eassumption]. Qed.
Theorem C94_starved_refuted : forall capacity n, exists s s' old new d, reachable capacity s /\ w s = W_want old new d /\ (forall t, c s t = Reads) /\
  runs_locked s s' /\ (length (answers s') >= n + length (answers s))%nat /\ w s' = W_want old new d /\ published s' = published s.
Proof.
  intros cap n. pose proof (updated_reachable cap) as R.
  fwd R ltac:(apply (reader _ O); apply (r_query O _ QSerial); try reflexivity).
  fwd R ltac:(apply (reader _ O); apply (r_lock O _ QSerial); try reflexivity).
  set (s0 := set_r (set_r updated 0 (R_want QSerial)) 0 (R_in QSerial)) in *.
  assert (X : forall n, exists s', runs_locked s0 s' /\ r s' 0%nat = R_in QSerial /\ r s' 1%nat = R_idle /\ base s' = Some O /\ w s' = W_want (Some O) 1 (Some 2%nat) /\ (length (answers s') >= n + length (answers s0))%nat).
  { intros m. induction m as [|m (s1 & A1 & A2 & A3 & A4 & A5 & A6)].
    - exists s0. split; [apply runs_locked_refl|]. repeat split. cbn. lia.
    - destruct (overlap s1 O _ _ _ A2 A3 A4 A5) as (s2 & B1 & B2 & B3 & B4 & B5 & B6 & B7).
      exists s2. split; [exact (runs_locked_trans _ _ _ A1 B1)|]. repeat (split; [assumption|]). lia. }
  destruct (X n) as (s' & A1 & A2 & A3 & A4 & A5 & A6).
  exists s0, s', (Some O), 1%nat, (Some 2%nat). split; [exact R|]. split; [reflexivity|split; [reflexivity|split; [exact A1|split; [exact A6|split; [exact A5|]]]]].
  clear - A1. induction A1; [reflexivity|]. destruct (rstep_only _ _ _ H) as (_ & _ & _ & _ & _ & _ & _ & E & _). congruence.
Qed.

Print Assumptions C94_no_use_after_free.
Print Assumptions C94_no_leak.
Print Assumptions C94_consistent.
Print Assumptions C94_all_consistent.
Print Assumptions C94_history.
Print Assumptions C94_progress.
Print Assumptions C94_reader_progress.
Print Assumptions C94_stalled_refuted.
Print Assumptions C94_starved_refuted.
