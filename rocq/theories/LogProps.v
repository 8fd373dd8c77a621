(** C98: logging. *)
From Coq Require Import String ZArith List Bool Lia.
From Verif Require Import Base BaseLemmas CString Log LogSpec LogProofs.
Import ListNotations.
Open Scope list_scope.
Open Scope Z_scope.

(** Whenever one looks (or the process is killed): what's come out is whole blocks, each thread's in its
    order, and at most a beginning of one more.  While nobody is logging there's nothing half-written, nor
    waiting in stdout's buffer. *)
Theorem C98_whole : forall o garbage program w,
  sane (op_options o) -> sane (val_options o) -> Forall (Forall not_critical) program ->
  wsteps (start o garbage program) w ->
  exists done, shuffle (blocks o program) done /\
    ((holder w = None /\ stdout_buffer w = [] /\ out w = outs done /\ err w = errs done /\ sys w = records done)
     \/ exists i b po pe ps,
          holder w = Some i /\ shuffle (blocks o program) (done ++ [(i, b)])
          /\ begins po (b_out b) /\ begins pe (b_err b) /\ begins ps (b_sys b)
          /\ out w ++ stdout_buffer w = outs done ++ po /\ err w = errs done ++ pe /\ sys w = records done ++ ps).
Proof.
  intros o garbage program w So Sv Nc R.
  destruct (runs _ _ _ _ R (start_idle o garbage program So Sv Nc)) as (done & [(Hh & rb & _ & Ob & Th & Bl & Eo & Ee & Es)|(h & cur & part & Hh & rb & rest & _ & _ & _ & Th & To & Bl & Ec & Eo & Ee & Es)]).
  - exists done. split; [intro i; rewrite Bl; now eexists|]. left. repeat split; auto.
  - exists done. split; [intro i; rewrite Bl; now eexists|]. right.
    exists h, cur, (b_out part), (b_err part), (b_sys part).
    split; [exact Hh|]. split.
    { intro i. rewrite of_thread_snoc, Bl, app_assoc, Nat.eqb_sym. now eexists. }
    rewrite Ec. repeat split; auto; now eexists.
Qed.
Print Assumptions C98_whole.

(** When all the threads are through with their messages, all of them have been printed. *)
Theorem C98_complete : forall o garbage program w,
  sane (op_options o) -> sane (val_options o) -> Forall (Forall not_critical) program ->
  wsteps (start o garbage program) w -> Forall (fun t => t = []) (threads w) ->
  exists done, (forall i, of_thread i done = blocks o program i)
    /\ out w = outs done /\ err w = errs done /\ sys w = records done.
Proof.
  intros o garbage program w So Sv Nc R F.
  assert (Z0 : forall i, nth i (threads w) [] = []).
  { intro i. destruct (nth_error (threads w) i) eqn:E.
    - rewrite (nth_error_nth _ _ _ E). rewrite Forall_forall in F. apply F. now apply nth_error_In in E.
    - apply nth_error_None in E. now apply nth_overflow. }
  destruct (runs _ _ _ _ R (start_idle o garbage program So Sv Nc)) as (done & [(Hh & rb & _ & Ob & Th & Bl & Eo & Ee & Es)|(h & cur & part & Hh & rb & rest & _ & _ & _ & Th & _)]).
  - exists done. repeat split; auto. intro i. rewrite Bl. specialize (Th i). rewrite Z0 in Th.
    destruct (rb i); [now rewrite app_nil_r|discriminate].
  - rewrite Z0 in Th. now destruct rest.
Qed.
Print Assumptions C98_complete.

(** Nobody waits forever for the others: as long as there's something to do, someone can do it; and every step
    but stdio's own writing is one less to do. *)
Definition left_to_do (w : world) : nat := fold_right (fun t n => (List.length t + n)%nat) 0%nat (threads w).
Lemma upd_sum ts i s rest : nth_error ts i = Some (s :: rest) ->
  fold_right (fun (t : list step) n => (List.length t + n)%nat) 0%nat ts
  = S (fold_right (fun t n => (List.length t + n)%nat) 0%nat (upd ts i rest)).
Proof.
  revert i. induction ts as [|t ts IH]; intros [|i] H; cbn in *; try discriminate.
  - now injection H as ->.
  - rewrite (IH _ H). lia.
Qed.
Theorem C98_progress : forall o garbage program w,
  sane (op_options o) -> sane (val_options o) -> Forall (Forall not_critical) program ->
  wsteps (start o garbage program) w -> left_to_do w <> 0%nat ->
  exists w', wstep w w' /\ left_to_do w = S (left_to_do w').
Proof.
  intros o garbage program w So Sv Nc R NZ.
  assert (exists i s rest, nth_error (threads w) i = Some (s :: rest)) as (i & s & rest & Hi).
  { unfold left_to_do in NZ. induction (threads w) as [|t ts IH]; [now destruct NZ|].
    destruct t as [|s rest]; [destruct (IH NZ) as (i & s & rest & H); now exists (S i), s, rest|now exists 0%nat, s, rest]. }
  destruct (runs _ _ _ _ R (start_idle o garbage program So Sv Nc)) as (done & [(Hh & rb & _ & Ob & Th & _)|(h & cur & part & Hh & rb & rest' & _ & In & _ & Th & _)]).
  - pose proof (Th i) as T. rewrite (nth_of_error _ _ _ _ Hi) in T. symmetry in T. apply enc_head in T as (-> & _).
    eexists. split; [eapply W_lock; eauto|]. unfold left_to_do. cbn. eapply upd_sum; eauto.
  - destruct (nth_error (threads w) h) as [t|] eqn:Eh.
    2:{ apply nth_error_None in Eh. rewrite nth_overflow in Th by exact Eh. now destruct rest'. }
    rewrite (nth_of_error _ _ _ _ Eh) in Th. subst t.
    destruct rest' as [|s' r]; cbn in Eh.
    + eexists. split; [eapply W_unlock; eauto|]. unfold left_to_do. cbn. eapply upd_sum; eauto.
    + inversion In as [|x y (N1 & N2) _]; subst.
      eexists. split; [eapply W_io; eauto|]. unfold left_to_do. cbn.
      replace (threads (io s' w)) with (threads w) by (destruct s' as [| |[]|[]| | | |]; reflexivity). eapply upd_sum; eauto.
Qed.
Print Assumptions C98_progress.

(** What's in the way of "one message, one record": the two logs' syslogs. *)
Theorem C98_syslog_closed : forall o,
  closed (log_start o (log_setup false)) = true <->
  forall w, ~ (o_enabled (options_of o w) = true /\ o_output (options_of o w) = SYSLOG).
Proof.
  intro o. rewrite closes. unfold syslog_on. split.
  - intros H [] (E & S); cbn in *; rewrite E, S in H; [|rewrite orb_true_r in H]; discriminate.
  - intro H. pose proof (H Op) as A. pose proof (H Val) as B. cbn in A, B.
    destruct (o_enabled (op_options o)), (o_output (op_options o)), (o_enabled (val_options o)), (o_output (val_options o)); cbn; auto; now destruct A || now destruct B.
Qed.
Print Assumptions C98_syslog_closed.

(** The file names: a thread that pushes and pops. *)
Inductive fop : Type := Push (f : text) | Pop.
Fixpoint file_run (ops : list fop) (fs : option filename_stack) : res (option filename_stack) :=
  match ops with
  | [] => Ok fs
  | Push f :: ops => bind (fnstack_push f fs) (file_run ops)
  | Pop :: ops => file_run ops (fnstack_pop fs)
  end.
(** The names that have been pushed and not popped, the last one first. *)
Fixpoint pending (ops : list fop) (stack : list text) : list text :=
  match ops with
  | [] => stack
  | Push f :: ops => pending ops (f :: stack)
  | Pop :: ops => pending ops (tl stack)
  end.
Fixpoint depth_ok (ops : list fop) (n : Z) : Prop :=
  match ops with
  | [] => True
  | Push _ :: ops => n + 1 < 2 ^ 31 /\ depth_ok ops (n + 1)
  | Pop :: ops => depth_ok ops (Z.max 0 (n - 1))
  end.
Definition fs_ok (fs : filename_stack) (stack : list text) : Prop :=
  filenames fs = rev stack /\ 32 <= fs_size fs < 2 ^ 32 /\ (fs_size fs < 2 ^ 31 \/ Z.of_nat (List.length stack) < 2 ^ 31)
  /\ Z.of_nat (List.length stack) <= fs_size fs.
Lemma file_run_ok ops : forall fs stack, fs_ok fs stack -> depth_ok ops (Z.of_nat (List.length stack)) ->
  exists fs', file_run ops (Some fs) = Ok (Some fs') /\ fs_ok fs' (pending ops stack).
Proof.
  induction ops as [|[f|] ops IH]; intros fs stack (En & Hs & Hd & Hl) D; cbn [file_run pending depth_ok] in D |- *.
  - exists fs. repeat split; auto; lia.
  - destruct D as (D1 & D2). unfold fnstack_push. rewrite En, rev_length. cbv zeta.
    set (size := if fs_size fs <=? Z.of_nat (List.length stack) then wrap32 (2 * fs_size fs) else fs_size fs).
    assert (Z.of_nat (List.length stack) < size /\ 32 <= size < 2 ^ 32) as (G1 & G2).
    { subst size. destruct (Z.leb_spec (fs_size fs) (Z.of_nat (List.length stack))); [|lia].
      rewrite wrap32_id; unfold is_u32, UINT_MAX; lia. }
    replace (Z.of_nat (List.length stack) <? size) with true by lia. cbn [bind].
    apply IH.
    + cbn [filenames fs_size]. repeat split; cbn [filenames fs_size List.length]; auto; lia.
    + cbn [List.length]. now rewrite Nat2Z.inj_succ.
  - destruct stack as [|x stack].
    + unfold fnstack_pop. cbn in En. rewrite En. cbn [List.length tl]. apply IH; [repeat split; auto; cbn in *; lia|exact D].
    + unfold fnstack_pop. rewrite En. cbn [List.length rev]. rewrite app_length, rev_length. cbn [List.length]. rewrite Nat.add_1_r.
      apply IH; cbn [tl].
      * unfold fs_ok. cbn [filenames fs_size]. cbn [List.length] in *. repeat split; try lia.
        rewrite firstn_app, rev_length, Nat.sub_diag. cbn. rewrite app_nil_r. apply firstn_all2. now rewrite rev_length.
      * cbn [List.length] in D. replace (Z.of_nat (List.length stack)) with (Z.max 0 (Z.of_nat (S (List.length stack)) - 1)) by lia. exact D.
Qed.
(** What fnstack_peek() says is the last name that was pushed and not popped; it never reads or writes out of its
    array, however many there are (less than 2^31). *)
Theorem C98_files : forall ops, depth_ok ops 0 ->
  exists fs, file_run ops fnstack_init = Ok fs /\ fnstack_peek fs = Ok (hd_error (pending ops [])).
Proof.
  intros ops D. destruct (file_run_ok ops {| filenames := []; fs_size := 32 |} []) as (fs & R & En & _).
  - repeat split; cbn; lia.
  - exact D.
  - exists (Some fs). split; [exact R|]. cbn. rewrite En, rev_length.
    destruct (pending ops []) as [|f l]; [reflexivity|]. cbn [List.length rev hd_error].
    rewrite nth_error_app2 by (rewrite rev_length; lia). now rewrite rev_length, Nat.sub_diag.
Qed.
Print Assumptions C98_files.
(** A thread without a stack (those of the RTR server, for example) has no names. *)
Theorem C98_no_files : forall ops, file_run ops None = Ok None /\ fnstack_peek None = Ok None.
Proof. intro ops. split; [induction ops as [|[f|] ops IH]; cbn; auto|reflexivity]. Qed.
Print Assumptions C98_no_files.

(** rsync's lines: all of those that end, in their order, but the empty ones. *)
Definition plain (l : text) : Prop := ~ In 10 l /\ ~ In 0 l.
Lemma until_nul_all t : ~ In 0 t -> until_nul t = t.
Proof.
  induction t as [|c t IH]; intro H; [reflexivity|]. cbn. destruct (Z.eqb_spec c 0) as [->|N]; [now destruct H; left|].
  rewrite IH; auto. intro I. apply H. now right.
Qed.
Lemma to_newline_line l r : ~ In 10 l -> to_newline (l ++ 10 :: r) = Some (l, r).
Proof.
  induction l as [|c l IH]; intro H; cbn; [reflexivity|]. destruct (Z.eqb_spec c 10) as [->|N]; [now destruct H; left|].
  rewrite IH; auto. intro I. apply H. now right.
Qed.
Lemma to_newline_none l : ~ In 10 l -> to_newline l = None.
Proof.
  induction l as [|c l IH]; intro H; cbn; [reflexivity|]. destruct (Z.eqb_spec c 10) as [->|N]; [now destruct H; left|].
  rewrite IH; auto. intro I. apply H. now right.
Qed.
Lemma log_lines_spec lines : forall fuel rest, Forall plain lines -> plain rest -> (List.length lines < fuel)%nat ->
  log_lines fuel (List.concat (map (fun l => l ++ [10]) lines) ++ rest)
  = map (fun l => cstr "[RSYNC exec]: " ++ l) (filter (fun l => negb (is_nil l)) lines).
Proof.
  induction lines as [|l lines IH]; intros fuel rest F P L; (destruct fuel as [|fuel]; [cbn in L; lia|]).
  - cbn [map List.concat app log_lines]. now rewrite to_newline_none by apply P.
  - inversion F as [|x y Pl Fl]; subst. cbn [map List.concat log_lines]. rewrite <- !app_assoc. cbn [app].
    rewrite to_newline_line by apply Pl. cbn [List.length] in L.
    destruct l as [|c l]; cbn [filter is_nil negb map]; [|f_equal]; apply IH; auto; lia.
Qed.
Theorem C98_rsync_lines : forall lines rest is_error, Forall plain lines -> plain rest ->
  log_buffer (List.concat (map (fun l => l ++ [10]) lines) ++ rest) is_error
  = map (fun l => let m := cstr "[RSYNC exec]: " ++ l in if is_error then Error Val m else Debug Val m)
        (filter (fun l => negb (is_nil l)) lines).
Proof.
  intros lines rest is_error F P. unfold log_buffer.
  assert (N : ~ In 0 (List.concat (map (fun l => l ++ [10]) lines) ++ rest)).
  { intro I. apply in_app_iff in I as [I|I]; [|now apply P in I]. apply in_concat in I as (x & I & J).
    apply in_map_iff in I as (l & <- & I). apply in_app_iff in J as [J|[J|[]]]; [|discriminate].
    rewrite Forall_forall in F. now apply F in J. }
  rewrite (until_nul_all _ N), log_lines_spec; auto.
  - now rewrite map_map.
  - rewrite app_length. clear. induction lines as [|l lines IH]; cbn; [lia|]. rewrite app_length, app_length. cbn. lia.
Qed.
Print Assumptions C98_rsync_lines.
(** Nothing of what comes after a NUL in the same read is. *)
Theorem C98_rsync_nul : forall a b is_error, log_buffer (a ++ 0 :: b) is_error = log_buffer a is_error.
Proof.
  intros a b is_error. unfold log_buffer. assert (E : until_nul (a ++ 0 :: b) = until_nul a); [|now rewrite E].
  induction a as [|c a IH]; [reflexivity|]. cbn [app until_nul]. destruct (c =? 0); [reflexivity|]. now rewrite IH.
Qed.
Print Assumptions C98_rsync_nul.
(** After log_teardown() nothing goes to syslog, the connection (if any) is closed, and the console's logs go on. *)
Theorem C98_teardown : forall l, let l' := log_teardown l in
  syslog_enabled (op_config l') = false /\ syslog_enabled (val_config l') = false /\
  fprintf_enabled (op_config l') = fprintf_enabled (op_config l) /\ fprintf_enabled (val_config l') = fprintf_enabled (val_config l) /\
  closed l' = closed l || syslog_enabled (op_config l) || syslog_enabled (val_config l).
Proof.
  intros [[f1 s1 l1 p1 c1 g1] [f2 s2 l2 p2 c2 g2] cl]. unfold log_teardown, log_disable_syslog. cbn [op_config val_config syslog_enabled].
  destruct s1, s2, cl; cbn; repeat split; reflexivity.
Qed.
Print Assumptions C98_teardown.
(** What's false: that all that rsync says is logged.  Whatever comes in a read after its last newline (a line that
    has more than what a read takes, or one that rsync hasn't finished) is lost, and so is the line's beginning. *)
Theorem C98_rsync_refuted : exists first second,
  log_buffer (first ++ second) true = [Error Val (cstr "[RSYNC exec]: error: no route")]
  /\ log_buffer first true ++ log_buffer second true = [Error Val (cstr "[RSYNC exec]: route")].
Proof. exists (cstr "error: no "), (cstr "route" ++ [10]). split; vm_compute; reflexivity. Qed.
Print Assumptions C98_rsync_refuted.

(** Runs *)
Definition step_by (i : nat) (w : world) : option world :=
  match nth_error (threads w) i with
  | Some (Lock :: rest) => match holder w with None => Some (set_threads w (upd (threads w) i rest) (Some i)) | Some _ => None end
  | Some (Unlock :: rest) =>
      match holder w with
      | Some h => if Nat.eqb h i then Some (set_threads w (upd (threads w) i rest) None) else None
      | None => None
      end
  | Some (s :: rest) => let w' := io s w in Some (set_threads w' (upd (threads w') i rest) (holder w'))
  | _ => None
  end.
Fixpoint schedule (l : list nat) (w : world) : option world :=
  match l with [] => Some w | i :: l => match step_by i w with Some w => schedule l w | None => None end end.
Lemma step_by_ok i w w' : step_by i w = Some w' -> wstep w w'.
Proof.
  unfold step_by. destruct (nth_error (threads w) i) as [[|s rest]|] eqn:E; try discriminate.
  intro H. assert (D : s = Lock \/ s = Unlock \/ (s <> Lock /\ s <> Unlock /\ w' = (let w' := io s w in set_threads w' (upd (threads w') i rest) (holder w')))).
  { destruct s as [| |[]|[]| | | |]; auto; right; right; (split; [discriminate|split; [discriminate|]]); injection H as <-; reflexivity. }
  destruct D as [->|[->|(N1 & N2 & ->)]].
  - destruct (holder w) eqn:Eh; [discriminate|]. injection H as <-. eapply W_lock; eauto.
  - destruct (holder w) eqn:Eh; [|discriminate]. destruct (Nat.eqb_spec n i); [subst|discriminate]. injection H as <-. eapply W_unlock; eauto.
  - eapply W_io; eauto.
Qed.
Lemma schedule_ok l : forall w0 w w', wsteps w0 w -> schedule l w = Some w' -> wsteps w0 w'.
Proof.
  induction l as [|i l IH]; intros w0 w w' R H; cbn in H; [now injection H as <-|].
  destruct (step_by i w) eqn:E; [|discriminate]. eapply IH; [|exact H]. eapply WS_step; [exact R|now apply step_by_ok in E].
Qed.

Definition run_schedule (l : list nat) (w0 : world) : world := match schedule l w0 with Some w => w | None => w0 end.
Lemma run_schedule_ok l w0 : wsteps w0 (run_schedule l w0).
Proof. unfold run_schedule. destruct (schedule l w0) eqn:E; [eapply schedule_ok; [apply WS_refl|exact E]|apply WS_refl]. Qed.

Definition C98_console : log_options :=
  {| o_enabled := true; o_output := CONSOLE; o_level := 7; o_tag := None; o_color := false; o_facility := 24 |}.
Definition C98_validation : log_options :=
  {| o_enabled := true; o_output := SYSLOG; o_level := 4; o_tag := Some (cstr "Validation"); o_color := false; o_facility := 24 |}.
Definition C98_options : options := {| op_options := C98_console; val_options := C98_validation |}.
Definition C98_says (c : call) : entry := {| e_when := fun _ => Some (cstr "Nov 18 15:06:11"); e_file := Some (cstr "a.roa"); e_call := c |}.
Definition C98_program : list (list entry) :=
  [[C98_says (Warn Op (cstr "one")); C98_says (Error Val (cstr "two"))]; [C98_says (Info Op (cstr "three")); C98_says (Info Val (cstr "four"))]].
Lemma C98_sane : sane (op_options C98_options) /\ sane (val_options C98_options).
Proof. repeat split; cbn; lia. Qed.
Example C98_example :
  Forall (Forall not_critical) C98_program /\
  exists w, wsteps (start C98_options (cstr "junk") C98_program) w /\ Forall (fun t => t = []) (threads w)
    /\ out w = cstr "Nov 18 15:06:11 INF: a.roa: three" ++ [10]
    /\ err w = cstr "Nov 18 15:06:11 WRN: a.roa: one" ++ [10]
    /\ sys w = [(27, cstr "[Validation] a.roa: two")].
Proof.
  split; [repeat constructor; intros m t; discriminate|].
  exists (run_schedule (repeat 1%nat 9 ++ repeat 0%nat 12) (start C98_options (cstr "junk") C98_program)).
  split; [apply run_schedule_ok|]. split; [vm_compute; repeat constructor|]. repeat split; vm_compute; reflexivity.
Qed.

(** What's false: that the whole of a message is logged.  syslog gets 1023 characters of it. *)
Theorem C98_truncated_refuted : exists o file msg,
  sane o /\ message o S_err None file msg = message o S_err None file (msg ++ cstr "; and this is the reason.").
Proof.
  exists C98_validation, (Some (cstr "a.roa")), (repeat 65 1023). split; [split; cbn; lia|]. vm_compute. reflexivity.
Qed.
Print Assumptions C98_truncated_refuted.

(** What's false: that the messages of a call come together.  Those about libcrypto's errors aren't one block:
    another thread's can get among them, and there's nothing in them to tell whose they are. *)
Definition C98_plain (c : call) : entry := {| e_when := fun _ => None; e_file := None; e_call := c |}.
Theorem C98_crypto_refuted : exists w,
  wsteps (start C98_options [] [[C98_plain (CryptoError Op (cstr "A's signature is wrong") [])]; [C98_plain (CryptoError Op (cstr "B has no key") [])]]) w
  /\ err w = cstr "ERR: A's signature is wrong" ++ [10] ++ cstr "ERR: B has no key" ++ [10]
             ++ cstr "ERR: libcrypto error stack:" ++ [10] ++ cstr "ERR:    <Empty>" ++ [10].
Proof.
  eexists. split; [apply (run_schedule_ok (repeat 0%nat 6 ++ repeat 1%nat 18))|]. vm_compute. reflexivity.
Qed.
Print Assumptions C98_crypto_refuted.

(** What's false of critical errors: their stack traces are printed without the lock, and get in the middle of the
    others' lines. *)
Theorem C98_critical_refuted : exists w,
  wsteps (start C98_options [] [[C98_plain (Warn Op (cstr "A"))]; [C98_plain (Critical (cstr "B") (Some [cstr "main"]))]]) w
  /\ err w = cstr "ERR: B" ++ [10] ++ cstr "WRNStack trace:" ++ [10] ++ cstr "  main" ++ [10] ++ cstr "(End of stack trace)" ++ [10] ++ cstr ": A" ++ [10].
Proof.
  eexists. split; [apply (run_schedule_ok (repeat 1%nat 6 ++ repeat 0%nat 2 ++ repeat 1%nat 3 ++ repeat 0%nat 4))|]. vm_compute. reflexivity.
Qed.
Print Assumptions C98_critical_refuted.

(** What the callers do next doesn't depend on what's logged: warnings and tolerated incidences let them go on,
    errors and incidences that aren't tolerated make them fail (with -EINVAL), and only running out of memory and
    programming errors end the process (and not as if it had succeeded). *)
Definition an_error (c : call) : bool :=
  match c with Error _ _ | ErrorTrace _ _ | CryptoError _ _ _ | Incidence INAC_ERROR _ => true | _ => false end.
Definition fatal (c : call) : bool := match c with NoMemory | Critical _ _ => true | _ => false end.
Theorem C98_results : forall c,
  (an_error c = true <-> result_of c = Returns (-22))
  /\ (fatal c = true <-> exists status, result_of c = Exits status /\ status mod 256 <> 0)
  /\ (an_error c = false -> fatal c = false -> result_of c = Void \/ result_of c = Returns 0).
Proof.
  assert (X : forall P Q : Prop, ~ P -> ~ Q -> (P <-> Q)) by tauto.
  intros [w m|w m|w m|w m|m tr|w m st|[] m| |m tr]; cbn; (split; [|split]);
    try (split; [reflexivity|reflexivity]); try (apply X; [discriminate|]; discriminate);
    try (apply X; [discriminate|]; intros (x & H & _); discriminate); try discriminate; try (intros; now (left + right)).
  - split; auto. intros _. exists ENOMEM_. split; [reflexivity|discriminate].
  - split; auto. intros _. exists (-1). split; [reflexivity|discriminate].
Qed.
Print Assumptions C98_results.
