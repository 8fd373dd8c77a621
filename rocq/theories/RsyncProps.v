(** * C85: running rsync *)
From Coq Require Import String.
From Verif Require Import Base BaseLemmas CString Rsync RsyncSpec RsyncProofs.
Notation length := List.length.

(** A run of rsync that prints something, ends its streams and exits like this. *)
Definition ends (code : Z) : run :=
  {| ru_pipe1 := inl (3, 4); ru_pipe2 := inl (5, 6); ru_fork := inl 100;
     ru_polls := [PReady (EvIn RdData) EvNone 1; PReady EvNone (EvIn RdEnd) 2; PReady (EvIn RdEnd) EvNone 3; PTimeout]; ru_wait := WExited code |}.
Lemma ends_valid code : valid_run (ends code).
Proof.
  unfold valid_run. cbn. repeat split; try (intros; discriminate).
  - intros a b K. injection K as <- <-. discriminate.
  - intros a b c d K1 K2. injection K1 as <- <-. injection K2 as <- <-. repeat constructor; cbn; intuition discriminate.
  - repeat constructor; try discriminate; cbn; intros; discriminate.
Qed.

(** ** The command: the program, and the configured arguments, with $REMOTE and $LOCAL replaced by the URL and the path, wherever they are. *)
Theorem C85_arguments : forall program args src dst,
  let argv := prepare_rsync program args src dst in
  length argv = S (length args) /\ nth_error argv 0 = Some program /\
  forall i a, nth_error args i = Some a ->
    nth_error argv (S i) = Some (if list_eq_dec Z.eq_dec a (cstr "$REMOTE") then src else if list_eq_dec Z.eq_dec a (cstr "$LOCAL") then dst else a).
Proof.
  intros program args src dst argv. unfold argv, prepare_rsync. split; [cbn; rewrite map_length; reflexivity|]. split; [reflexivity|]. intros i a H. cbn [nth_error]. rewrite nth_error_map, H. cbn [option_map]. f_equal.
  destruct (list_eq_dec Z.eq_dec a (cstr "$REMOTE")) as [->|N1]; [rewrite (proj2 (list_eqb_spec Z.eqb Z.eqb_eq _ _) eq_refl); reflexivity|].
  destruct (list_eqb Z.eqb a (cstr "$REMOTE")) eqn:E; [apply (list_eqb_spec Z.eqb Z.eqb_eq) in E; contradiction|].
  destruct (list_eq_dec Z.eq_dec a (cstr "$LOCAL")) as [->|N2]; [rewrite (proj2 (list_eqb_spec Z.eqb Z.eqb_eq _ _) eq_refl); reflexivity|].
  destruct (list_eqb Z.eqb a (cstr "$LOCAL")) eqn:E2; [apply (list_eqb_spec Z.eqb Z.eqb_eq) in E2; contradiction|reflexivity].
Qed.
Print Assumptions C85_arguments.
Example C85_example_arguments : prepare_rsync (cstr "rsync") [cstr "-rtz"; cstr "$REMOTE"; cstr "$LOCAL"] (cstr "rsync://a/b") (cstr "/tmp/a/b") =
  [cstr "rsync"; cstr "-rtz"; cstr "rsync://a/b"; cstr "/tmp/a/b"].
Proof. vm_compute. reflexivity. Qed.

(** ** Success: rsync_download() returns 0 exactly if some run of rsync, after fewer failed ones than rsync.retry.count allows, exited with 0. *)
Theorem C85_success : forall timeout retries runs, (forall i, valid_run (runs i)) ->
  (forall mkdir l, rsync_download mkdir timeout retries runs = (Returns 0, l) ->
     exists k, (k <= retries)%nat /\ started (runs k) /\ ru_wait (runs k) = WExited 0 /\
       forall j, (j < k)%nat -> started (runs j) /\ exists c, c <> 0 /\ ru_wait (runs j) = WExited c) /\
  (forall k, (k <= retries)%nat -> exits (runs k) 0 -> (forall j, (j < k)%nat -> exists c, c <> 0 /\ exits (runs j) c) ->
     exists l, rsync_download 0 timeout retries runs = (Returns 0, l)) /\
  ((forall j, (j <= retries)%nat -> exists c, c <> 0 /\ exits (runs j) c) -> exists l, rsync_download 0 timeout retries runs = (Returns 5, l)).
Proof.
  intros timeout retries runs V. split; [|split].
  - intros mkdir l E. unfold rsync_download in E. destruct (Z.eqb_spec mkdir 0) as [M|M]; cbn [negb] in E; [|injection E as K _; contradiction].
    destruct (attempts_result timeout runs V retries 0 l E) as (k & Hk & W & S0 & J). exists k. split; [lia|]. split; [exact S0|]. split; [exact W|]. intros j Hj. apply J. lia.
  - intros k Hk H J. apply (attempts_success timeout runs retries 0 k); [lia|exact H|]. intros j Hj. apply J. lia.
  - intros H. apply (attempts_exhausted timeout runs retries 0). intros j Hj. apply H. lia.
Qed.
Print Assumptions C85_success.
Example C85_example_success : (forall i, valid_run (ends (match i with O => 12 | _ => 0 end))) /\ exits (ends 12) 12 /\
  fst (rsync_download 0 1000 1 (fun i => ends (match i with O => 12 | _ => 0 end))) = Returns 0 /\
  fst (rsync_download 0 1000 0 (fun i => ends (match i with O => 12 | _ => 0 end))) = Returns 5.
Proof.
  split; [intros i; apply ends_valid|]. split; [|vm_compute; auto]. split; [exists (3, 4), (5, 6), 100; auto|]. cbn. auto 6.
Qed.

(** ** Descriptors: whatever happens, none is closed twice or while it's someone else's, and when rsync_download() returns, all are closed. *)
Theorem C85_descriptors : forall mkdir timeout retries runs r l, (forall i, valid_run (runs i)) ->
  rsync_download mkdir timeout retries runs = (r, l) -> exists o, fds [] l o /\ (r <> Waits -> o = []).
Proof.
  intros mkdir timeout retries runs r l V E. unfold rsync_download in E. destruct (negb (mkdir =? 0)); [injection E as <- <-; exists []; split; [constructor|reflexivity]|].
  eapply attempts_fds; eassumption.
Qed.
Print Assumptions C85_descriptors.

(** ** Children: only FORT's own children that haven't been waited for are sent signals, no more than rsync.retry.count + 1 are started, and (if waitpid() doesn't fail)
    no zombies are left. *)
Theorem C85_children_partial : forall mkdir timeout retries runs r l,
  rsync_download mkdir timeout retries runs = (r, l) ->
  (exists o, children [] l o /\ (r <> Waits -> (forall j e, ru_wait (runs j) <> WError e) -> o = [])) /\ (forks l <= S retries)%nat.
Proof.
  intros mkdir timeout retries runs r l E. unfold rsync_download in E. destruct (negb (mkdir =? 0)); [injection E as <- <-; split; [exists []; split; [constructor|reflexivity]|cbn; lia]|].
  split; [eapply attempts_children; exact E|eapply attempts_forks; exact E].
Qed.
Print Assumptions C85_children_partial.
Example C85_example_log : rsync_download 0 1000 1 (fun i => ends (match i with O => 12 | _ => 0 end)) =
  (Returns 0, [AOpen 3; AOpen 4; AOpen 5; AOpen 6; AFork 100; AClose 4; AClose 6; AClose 5; AClose 3; AReap 100; ASleep;
               AOpen 3; AOpen 4; AOpen 5; AOpen 6; AFork 100; AClose 4; AClose 6; AClose 5; AClose 3; AReap 100]).
Proof. vm_compute. reflexivity. Qed.

(** ** False without that hypothesis: a signal during waitpid() (EINTR) leaves a zombie and fails the download. *)
Theorem C85_zombie_refuted : exists runs, (forall i, valid_run (runs i)) /\
  let '(r, l) := rsync_download 0 1000 3 runs in r = Returns 4 /\ children [] l [100].
Proof.
  exists (fun _ => {| ru_pipe1 := inl (3, 4); ru_pipe2 := inl (5, 6); ru_fork := inl 100; ru_polls := [PReady (EvIn RdEnd) (EvIn RdEnd) 1; PTimeout]; ru_wait := WError 4 |}).
  split.
  - intros i. destruct (ends_valid 0) as (V1 & V2 & V3 & V4 & V5 & _). split; [exact V1|]. split; [exact V2|]. split; [exact V3|]. split; [exact V4|]. split; [exact V5|].
    split; [intros e K; injection K as <-; lia|]. repeat constructor; try discriminate; cbn; intros; discriminate.
  - cbn. split; [reflexivity|]. repeat constructor.
Qed.
Print Assumptions C85_zombie_refuted.

(** ** The child is left alone if both its streams ended; otherwise it is sent SIGTERM.  (Holds unless a signal interrupts poll() or read(); see below.) *)
Theorem C85_kill_partial : forall timeout fderr fdout evs, Forall valid_event evs ->
  (forall l, exhaust_read_fds timeout (Some fderr) (Some fdout) 0 evs = (Some 0, l) -> ended0 evs /\ ended1 evs) /\
  (Forall (fun e => match e with PReady x y d => In x [EvNone; EvIn RdData; EvIn RdEnd] /\ In y [EvNone; EvIn RdData; EvIn RdEnd] /\ 0 <= d < timeout | _ => False end) evs ->
   ended0 evs -> ended1 evs -> exists l, exhaust_read_fds timeout (Some fderr) (Some fdout) 0 evs = (Some 0, l)).
Proof.
  intros timeout fderr fdout evs V. split.
  - intros l E. destruct (exhaust_zero timeout evs (Some fderr) (Some fdout) 0 l V ltac:(lia) E) as (_ & A & B). split; [apply A|apply B]; discriminate.
  - intros F A B. apply exhaust_happy; [left; discriminate|exact F|auto|auto].
Qed.
Print Assumptions C85_kill_partial.
Example C85_example_kill : ended0 (ru_polls (ends 0)) /\ ended1 (ru_polls (ends 0)) /\ fst (exhaust_read_fds 1000 (Some 3) (Some 5) 0 (ru_polls (ends 0))) = Some 0.
Proof. split; [exists EvNone, 3; cbn; auto 6|]. split; [exists EvNone, 2; cbn; auto 6|vm_compute; reflexivity]. Qed.

(** ** False otherwise: a signal during poll() is remembered as an error, so an rsync that closed both its streams in order is sent SIGTERM anyway: if it hasn't exited yet, the
    download fails. *)
Theorem C85_interrupted_refuted : exists evs, Forall valid_event evs /\ ended0 evs /\ ended1 evs /\
  Forall (fun e => match e with PReady x y d => In x [EvNone; EvIn RdData; EvIn RdEnd] /\ In y [EvNone; EvIn RdData; EvIn RdEnd] /\ 0 <= d < 1000 | PError e => e = 4 | PTimeout => False end) evs /\
  let run := {| ru_pipe1 := inl (3, 4); ru_pipe2 := inl (5, 6); ru_fork := inl 100; ru_polls := evs; ru_wait := WSignaled 15 |} in
  let '(r, l) := rsync_download 0 1000 3 (fun _ => run) in r = Returns (-4) /\ In (AKill 100) l.
Proof.
  exists [PError 4; PReady (EvIn RdEnd) (EvIn RdEnd) 1]. split; [repeat constructor; try discriminate; cbn; intros; discriminate|].
  split; [exists (EvIn RdEnd), 1; right; left; reflexivity|]. split; [exists (EvIn RdEnd), 1; right; left; reflexivity|].
  split; [repeat constructor; cbn; auto 6; lia|]. cbn. split; [reflexivity|]. auto 12.
Qed.
Print Assumptions C85_interrupted_refuted.

(** ** Time: FORT goes on reading rsync's streams only as long as less than rsync.transfer-timeout has passed (looking at the clock whenever something was read). *)
Theorem C85_time_partial : forall timeout fderr fdout evs l, exhaust_read_fds timeout (Some fderr) (Some fdout) 0 evs = (None, l) ->
  forall x y d, In (PReady x y d) evs -> 0 <= d < timeout.
Proof. intros timeout fderr fdout evs l E. exact (exhaust_time timeout evs _ _ _ _ E). Qed.
Print Assumptions C85_time_partial.
Example C85_example_time : fst (exhaust_read_fds 1000 (Some 3) (Some 5) 0 [PReady (EvIn RdData) EvNone 999]) = None /\
  fst (exhaust_read_fds 1000 (Some 3) (Some 5) 0 [PReady (EvIn RdData) EvNone 1000]) = Some 2.
Proof. vm_compute. auto. Qed.

(** ** False: that the timeout bounds the download.  An rsync that closes its streams and goes on running is waited for without a limit. *)
Theorem C85_timeout_refuted : exists run, valid_run run /\ ended0 (ru_polls run) /\ ended1 (ru_polls run) /\
  forall timeout retries, 1 < timeout -> fst (rsync_download 0 timeout retries (fun _ => run)) = Waits.
Proof.
  exists {| ru_pipe1 := inl (3, 4); ru_pipe2 := inl (5, 6); ru_fork := inl 100; ru_polls := [PReady (EvIn RdEnd) (EvIn RdEnd) 1; PTimeout]; ru_wait := WNever |}.
  destruct (ends_valid 0) as (V1 & V2 & V3 & V4 & V5 & _). split.
  { split; [exact V1|]. split; [exact V2|]. split; [exact V3|]. split; [exact V4|]. split; [exact V5|]. split; [intros e K; discriminate K|]. repeat constructor; try discriminate; cbn; intros; discriminate. }
  split; [exists (EvIn RdEnd), 1; left; reflexivity|]. split; [exists (EvIn RdEnd), 1; left; reflexivity|]. intros timeout retries _. destruct retries; reflexivity.
Qed.
Print Assumptions C85_timeout_refuted.
