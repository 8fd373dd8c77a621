(** C38: the thread pool. *)
From Coq Require Import Permutation.
From Verif Require Import Base ThreadPool ThreadPoolProofs.

(** The tasks the workers have in hand. *)
Definition in_hand (ws : list wpc) : list task :=
  flat_map (fun w => match w with W_Claimed (Some t) | W_Run (Some t) => [t] | _ => [] end) ws.
(** What a program asks to be run. *)
Definition asked (program : list op) : list task := flat_map (fun o => match o with Push t => [t] | _ => [] end) program.
(** A program for a pool: nothing comes after its destruction.  (Tasks are queued,
    and waited for, by one thread.) *)
Definition program_ok (program : list op) : Prop := forall a b, program = a ++ Destroy :: b -> b = [].
(** A pool of 1 to UINT_MAX threads (see the configuration), and any
    interleaving, with any spurious wakeups. *)
Definition reachable (threads : nat) (program : list op) (s : state) : Prop :=
  1 <= Z.of_nat threads <= UINT_MAX /\ program_ok program /\ steps any_step (created threads program) s.

Lemma reach_inv n p s : reachable n p s -> inv s.
Proof. intros (N & P & R). eapply steps_inv; [|exact R]. apply inv_created; auto. unfold UINT_MAX in N. lia. Qed.

(** Tasks are claimed in the order they were pushed in, each once: the claimed
    ones are the first pushed ones, and the rest is in the queue (or dropped, if
    the pool is being destroyed). *)
Theorem C38_fifo n p s : reachable n p s -> pushed s = claimed s ++ rev (queue s) ++ dropped s /\ (stop s = false -> dropped s = []).
Proof. intros R. apply reach_inv in R. split; apply R. Qed.
(** Each claimed task is run, by one worker, once. *)
Theorem C38_once n p s : reachable n p s -> Permutation (claimed s) (finished s ++ in_hand (workers s)).
Proof. intros R. apply reach_inv in R. apply R. Qed.
(** At most as many as there are workers at a time; and the pool's count of the
    working ones is right. *)
Theorem C38_working n p s : reachable n p s -> (length (in_hand (workers s)) <= length (workers s))%nat /\
  Z.of_nat (length (in_hand (workers s))) <= working s <= Z.of_nat (length (workers s)).
Proof.
  intros R. apply reach_inv in R. rewrite (i_working s R).
  assert (X : forall ws, (length (in_hand ws) <= count ws)%nat).
  { induction ws as [|w ws IH]; [cbn; lia|]. unfold in_hand, count in *. cbn [flat_map filter]. rewrite app_length.
    destruct w; cbn [is_working length]; try lia; destruct t; cbn [length]; lia. }
  specialize (X (workers s)). pose proof (count_le (workers s)). lia.
Qed.
(** thread_pool_wait() returns (here: is about to unlock) only when all tasks
    pushed so far have been run to the end. *)
Theorem C38_wait n p s : reachable n p s -> parent s = P_Waited -> queue s = [] /\ in_hand (workers s) = [] /\ Permutation (finished s) (pushed s).
Proof.
  intros R P. pose proof (C38_working n p s R) as [_ K]. pose proof (C38_fifo n p s R) as [F D]. pose proof (C38_once n p s R) as O. apply reach_inv in R.
  destruct (i_waited s R P) as [Q W]. assert (H : in_hand (workers s) = []) by (destruct (in_hand (workers s)); auto; cbn in K; lia).
  split; auto. split; auto. assert (dropped s = []) as DD by (apply D; rewrite (i_stop s R), P; auto).
  rewrite F, Q, DD. cbn [rev app]. rewrite app_nil_r. rewrite O, H, app_nil_r. reflexivity.
Qed.
(** When thread_pool_destroy() has returned, no worker is left and nothing that was
    claimed is unfinished. *)
Theorem C38_destroy n p s : reachable n p s -> parent s = P_End -> Forall (fun w => w = W_End) (workers s) /\ Permutation (finished s) (claimed s).
Proof.
  intros R P. pose proof (C38_once n p s R) as O. apply reach_inv in R. pose proof (i_end s R P) as E. split; auto.
  assert (H : in_hand (workers s) = []). { clear -E. induction E as [|w ws -> _ IH]; cbn; auto. }
  rewrite O, H, app_nil_r. reflexivity.
Qed.

(** No wakeup is lost: where no thread can go on (but by a spurious wakeup), all
    there was to do has been done, and everyone sleeps (or has ended). *)
Theorem C38_no_lost_wakeup n p s : reachable n p s -> (forall s', ~ step s s') ->
  pushed s = asked p /\ todo s = [] /\
  ((parent s = P_Idle /\ Permutation (finished s) (asked p) /\ Forall (fun w => w = W_Sleep) (workers s)) \/
   (parent s = P_End /\ Permutation (finished s ++ dropped s) (asked p) /\ Forall (fun w => w = W_End) (workers s))).
Proof.
  intros R N. pose proof (C38_fifo n p s R) as [F D]. pose proof (C38_once n p s R) as O. pose proof R as (_ & _ & ST). apply reach_inv in R.
  destruct (stuck_done s R N) as (Q & H & T & C). apply acct_steps in ST. cbn [created parent todo pushed app pending] in ST.
  change (pushes p) with (asked p) in ST. change (in_hand (workers s)) with (running (workers s)) in O. rewrite H, app_nil_r in O. rewrite Q in F. cbn [rev app] in F. rewrite T in ST. cbn [pushes flat_map] in ST.
  assert (PA : pushed s = asked p). { destruct C as [(_ & P & _)|(_ & P & _)]; rewrite P in ST; cbn in ST; rewrite app_nil_r in ST; auto. }
  split; auto. split; auto. destruct C as [(S & P & W)|(S & P & W)]; [left|right]; repeat split; auto.
  - rewrite <- PA, F, (D S), app_nil_r. symmetry. auto.
  - rewrite <- PA, F. apply Permutation_app_tail. symmetry. auto.
Qed.
(** And that point is always reached: an execution's number of steps is bounded,
    by a number that depends on the program, the threads and the number of
    spurious wakeups. *)
Inductive run : nat -> nat -> state -> state -> Prop :=
| run_nil s : run 0 0 s s
| run_step k j s s1 s2 : step s s1 -> run k j s1 s2 -> run (S k) j s s2
| run_spurious k j s s1 s2 : spurious s s1 -> run k j s1 s2 -> run k (S j) s s2.
Theorem C38_terminates n p k j s : 1 <= Z.of_nat n <= UINT_MAX -> program_ok p -> run k j (created n p) s ->
  (k <= 3 * n + length p * (3 * n + 13) + 3 * j)%nat.
Proof.
  intros N P R.
  assert (I : inv (created n p)) by (apply inv_created; auto; unfold UINT_MAX in N; lia).
  assert (B : (k + measure s <= measure (created n p) + 3 * j)%nat).
  { clear N P. induction R as [s|k j s s1 s2 H R IH|k j s s1 s2 H R IH]; [lia| |].
    - pose proof (step_measure _ _ I H). specialize (IH (step_inv _ _ I (or_introl H))). lia.
    - pose proof (spurious_measure _ _ H). specialize (IH (step_inv _ _ I (or_intror H))). lia. }
  assert (M : (measure (created n p) <= 3 * n + length p * (3 * n + 13))%nat).
  { unfold measure, created. cbn [workers queue parent todo length pwt]. rewrite repeat_length.
    assert (A : sum (map wwt (repeat W_Start n)) = (3 * n)%nat). { clear. induction n; cbn [repeat map sum fold_right]; auto. fold (sum (map wwt (repeat W_Start n))). rewrite IHn. cbn [wwt]. lia. }
    assert (C : (sum (map (owt n) p) <= length p * (3 * n + 13))%nat).
    { clear. induction p as [|o p IH]; cbn [map sum fold_right length]; [lia|]. fold (sum (map (owt n) p)). assert (owt n o <= 3 * n + 13)%nat by (destruct o; cbn; lia). lia. }
    lia. }
  lia.
Qed.
(** A task in the queue and a worker never stay so: as long as there's a queued task, some
    thread can go on. *)
Theorem C38_progress n p s : reachable n p s -> queue s <> [] -> exists s', step s s'.
Proof.
  intros R Q. pose proof (reach_inv n p s R) as I.
  destruct (i_wakeup s I Q) as [(w & IW & H)|[P|P]].
  - destruct (lock s) as [[i|]|] eqn:L.
    + pose proof (i_owner s I i L) as B. destruct (nth_error (workers s) i) as [pc|] eqn:E; [|apply nth_error_None in E; lia].
      pose proof (proj2 (i_lock s I i pc E) L) as HH. apply nth_error_split in E. destruct E as (l & r & W & <-).
      assert (X : exists s1 pc', worker_next (length l) pc s = Some (s1, pc')).
      { destruct pc; try discriminate; cbn [worker_next].
        - destruct (queue_empty s && negb (stop s)); [eauto|]. destruct (stop s); [eauto|]. destruct (task_queue_pull s). eauto.
        - eauto.
        - destruct (stop s); eauto.
        - eauto. }
      destruct X as (s1 & pc' & X). eexists. eapply st_worker; eauto.
    + apply (i_plock s I) in L. destruct (parent s) eqn:P; try discriminate; eexists; eapply st_parent;
        [eapply ps_pushing|eapply ps_pushed|eapply ps_check|eapply ps_waited|eapply ps_clear|eapply ps_broadcast|eapply ps_cleared]; eauto.
    + apply in_split in IW. destruct IW as (l & r & W).
      assert (HH : holds w = false). { destruct (holds w) eqn:HH; auto. apply (i_lock s I (length l) w) in HH; [congruence|]. rewrite W. apply nth_here. }
      assert (X : exists s1 pc', worker_next (length l) w s = Some (s1, pc')).
      { destruct w; try discriminate; cbn [worker_next]; unfold mutex_lock; rewrite ?L; cbn [option_map]; eauto. }
      destruct X as (s1 & pc' & X). eexists. eapply st_worker; eauto.
  - eexists. eapply st_parent, ps_pushed; eauto.
  - destruct (signal_exists s) as (s' & S). eexists. eapply st_parent, ps_signal; eauto.
Qed.

(** Creation: when a thread can't be created, the pool is freed under those that
    have been. *)
Theorem C38_create_refuted : exists n ok ws, thread_pool_create n ok = (false, ws) /\ ws <> [].
Proof. exists 2%nat, (fun i => Nat.eqb i 0), [W_Start]. split; [reflexivity|discriminate]. Qed.
Theorem C38_create n ok : (forall i, ok i = true) -> thread_pool_create n ok = (true, repeat W_Start n).
Proof.
  intros H. unfold thread_pool_create. assert (X : forall n i, spawn_threads n i ok = (repeat W_Start n, true)).
  { intros m. induction m as [|m IH]; intros i; cbn [spawn_threads repeat]; auto. rewrite H, IH. auto. }
  rewrite X. auto.
Qed.

(** Two workers, two tasks; both workers asleep, both woken up by the first
    signal, one of them finding nothing. *)
Definition ex_prog : list op := [Push 7; Push 8; Wait; Destroy].
Lemma ss_step' (R : state -> state -> Prop) s s1 s1' s2 : R s s1 -> s1 = s1' -> steps R s1' s2 -> steps R s s2.
Proof. intros H -> K. eapply ss_step; eauto. Qed.
Example C38_nonvacuous : program_ok ex_prog /\ exists s, reachable 2 ex_prog s /\ parent s = P_Waited /\ finished s = [7; 8].
Proof.
  assert (PO : program_ok ex_prog).
  { intros a b H. unfold ex_prog in H. destruct a as [|? [|? [|? [|? a]]]]; inversion H; auto. destruct a; discriminate. }
  split; auto.
  Ltac wk l := eapply ss_step'; [left; eapply (st_worker _ l); [reflexivity|vm_compute; reflexivity]|vm_compute; reflexivity|].
  Ltac pa c := eapply ss_step'; [left; apply st_parent; c|vm_compute; reflexivity|].
  eexists. split; [split; [unfold UINT_MAX; lia|split; [exact PO|]]|].
  - wk (@nil wpc). wk (@nil wpc). (* worker 0 sleeps *)
    pa ltac:(eapply ps_push; reflexivity). pa ltac:(eapply ps_push_lock; reflexivity). pa ltac:(eapply ps_pushing; reflexivity). pa ltac:(eapply ps_pushed; reflexivity).
    wk [W_Sleep]. wk [W_Sleep]. wk [W_Sleep]. (* worker 1 claims *)
    pa ltac:(eapply ps_signal; [reflexivity|exists [W_Woken; W_Run (Some 7)]; split; [split; [constructor; [right; auto|constructor; [left; auto|constructor]]|intros _; discriminate]|reflexivity]]).
    wk (@nil wpc). wk (@nil wpc). (* worker 0 finds nothing *)
    pa ltac:(eapply ps_push; reflexivity). pa ltac:(eapply ps_push_lock; reflexivity). pa ltac:(eapply ps_pushing; reflexivity). pa ltac:(eapply ps_pushed; reflexivity).
    wk [W_Sleep].
    pa ltac:(eapply ps_signal; [reflexivity|exists [W_Woken; W_Ran]; split; [split; [constructor; [right; auto|constructor; [left; auto|constructor]]|intros _; discriminate]|reflexivity]]).
    pa ltac:(eapply ps_wait; reflexivity). pa ltac:(eapply ps_wait_lock; [left; reflexivity|reflexivity]). pa ltac:(eapply ps_check; reflexivity).
    wk (@nil wpc). wk (@nil wpc). wk (@nil wpc). wk (@nil wpc). wk [W_Ran].
    wk [W_Ran]. wk (@nil wpc) || idtac.
    wk [W_Ran].
    wk (@nil wpc). wk (@nil wpc). wk (@nil wpc).
    pa ltac:(eapply ps_wait_lock; [right; reflexivity|reflexivity]). pa ltac:(eapply ps_check; reflexivity).
    apply ss_nil.
  - split; reflexivity.
Qed.
