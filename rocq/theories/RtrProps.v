(** C78, C79: the RTR server and its connections. *)
From Verif Require Import Base Types PduHandler PduStream Rtr RtrSpec RtrProofs.
Notation length := List.length.

(** C78: in any history of the server, whatever poll(), accept(), and the clients
    do, no descriptor is closed twice, nor written to or handed to a worker after it
    was closed; and the descriptors that are open at the end are the listening
    sockets and the clients' (none is forgotten). *)
Theorem C78_descriptors : forall es s s' b acts,
  well_formed s -> answered s es -> server_cb s es = Ok (s', b, acts) -> kernel (owned s) acts ->
  tidy (owned s) acts /\ (forall fd, In fd (open_after (owned s) acts) <-> In fd (owned s')) /\ well_formed s'.
Proof. intros es s s' b acts W An H K. destruct (history _ _ _ _ _ (owned s) H W An) as (A & B & C); [tauto|exact K|auto]. Qed.
Print Assumptions C78_descriptors.
(** After a poll, the clients are those that were there before, in order, but those
    that hung up, erred, or whose stream can't go on; and then those that were
    accepted.  The requests that are answered are those that were read, each from the
    client it came from. *)
Theorem C78_clients : forall s e s' v acts,
  well_formed s -> answers s e -> pe_polled e = PollSome -> fddb_poll s e = Ok (s', v, acts) ->
  exists survivors, outcomes (sv_clients s) (pe_clients e) survivors (requests acts) /\
    sv_clients s' = survivors ++ newcomers s e.
Proof.
  intros s e s' v acts W An P H. pose proof (poll_work _ _ _ _ _ H) as Q. unfold works in Q. rewrite P in Q. destruct Q as (_ & Q).
  exact (worked_clients _ _ _ _ Q W An).
Qed.
Print Assumptions C78_clients.

(** C79: as long as the listening sockets have no errors, and accept() none but those
    that are tried again, no client stops the server from listening. *)
Theorem C79_listening_partial : forall es s s' b acts,
  answered s es -> Forall uneventful es -> server_cb s es = Ok (s', b, acts) ->
  sv_servers s' = sv_servers s /\ b = true.
Proof. intros es s s' b acts An U H. eapply cb_uneventful; eassumption. Qed.
Print Assumptions C79_listening_partial.

(** And what a poll closes among the listening sockets is those that are broken;
    the rest are kept. *)
Theorem C79_broken : forall s e s' v acts, well_formed s -> answers s e -> pe_polled e = PollSome -> fddb_poll s e = Ok (s', v, acts) ->
  length (sv_servers s') = length (sv_servers s) /\
  forall i fd se, nth_error (sv_servers s) i = Some fd -> nth_error (pe_servers e) i = Some se ->
    (broken se -> nth_error (sv_servers s') i = Some (-1)) /\ (~ broken se -> nth_error (sv_servers s') i = Some fd).
Proof.
  intros s e s' v acts W (An & _) P H. pose proof (poll_work _ _ _ _ _ H) as Q. unfold works in Q. rewrite P in Q. destruct Q as (_ & pfds & a1 & l & a2 & a3 & a & a4 & L & _ & A & _).
  pose proof (server_loop_pfds _ _ _ _ _ _ L An) as (F & _).
  assert (Lp: length pfds = length (sv_servers s)) by (clear - F; induction F; cbn; congruence).
  split; [destruct (apply_servers_spec _ _ _ _ A F) as (cl & _ & _ & K & _); exact K|].
  intros i fd se E1 E2. destruct (nth_error pfds i) as [pfd|] eqn:E3.
  2:{ apply nth_error_None in E3. assert (nth_error (sv_servers s) i <> None) as K by congruence. apply nth_error_Some in K. lia. }
  destruct (server_loop_broken _ _ _ _ _ _ L An i fd se pfd E1 E2 E3) as (B1 & B2). destruct (apply_servers_nth _ _ _ _ A Lp i fd pfd E1 E3) as (N1 & N2).
  split; [intros B; apply N1, B1, B|]. intros B. destruct (Z.eq_dec pfd (-1)) as [K|K]; [rewrite (N1 K), <- K, (B2 B); reflexivity|exact (N2 K)].
Qed.
Print Assumptions C79_broken.

(** *** Examples *)
Definition nothing : revents := {| ev_bad := false; ev_in := false |}.
Definition readable : revents := {| ev_bad := false; ev_in := true |}.
Definition hung_up : revents := {| ev_bad := true; ev_in := true |}.
Definition listening_socket : server := {| sv_servers := [3]; sv_clients := [] |}.
Definition knock fd : poll_event :=
  {| pe_polled := PollSome; pe_servers := [{| se_revents := readable; se_accept := Accepted fd true |}]; pe_clients := [] |}.
Definition quiet : server_event := {| se_revents := nothing; se_accept := NotAccepted 11 |}.
Definition reset_query : list Z := [1; 2; 0; 0; 0; 0; 0; 8].
Definition busy : poll_event :=
  {| pe_polled := PollSome; pe_servers := [{| se_revents := readable; se_accept := Accepted 5 true |}];
     pe_clients := [{| ce_revents := readable; ce_reads := [RData reset_query]; ce_sends := [] |}] |}.
Definition leaving : poll_event :=
  {| pe_polled := PollSome; pe_servers := [quiet];
     pe_clients := [{| ce_revents := hung_up; ce_reads := []; ce_sends := [] |}; {| ce_revents := readable; ce_reads := [RWouldBlock]; ce_sends := [] |}] |}.
Definition again : poll_event :=
  {| pe_polled := PollSome; pe_servers := [{| se_revents := readable; se_accept := Accepted 4 true |}];
     pe_clients := [{| ce_revents := nothing; ce_reads := []; ce_sends := [] |}] |}.
Definition day : list poll_event := [knock 4; busy; leaving; again].
Definition the_request : request := {| rq_version := 1; rq_type := 2; rq_session := 0; rq_serial := 0; rq_raw := reset_query; rq_eos := false |}.
(** Two clients come; the first one asks something and leaves; and a third one gets
    the descriptor it had. *)
Example C78_example :
  well_formed listening_socket /\ answered listening_socket day /\
  exists s' acts, server_cb listening_socket day = Ok (s', true, acts) /\ kernel (owned listening_socket) acts /\ Forall uneventful day /\
    map cl_fd (sv_clients s') = [5; 4] /\ acts = [Opened 4; Opened 5; Pushed 4 the_request; Closed 4; Opened 4].
Proof.
  split; [split; repeat constructor; cbn; intuition lia|]. split; [vm_compute; auto 20|]. eexists. eexists. split; [vm_compute; reflexivity|].
  split; [cbn; intuition lia|]. split; [|split; reflexivity].
  assert (G : forall pc se, pe_polled pc = PollSome -> pe_servers pc = [se] -> ev_bad (se_revents se) = false -> (forall n, se_accept se = NotAccepted n -> n = 11) -> uneventful pc).
  { intros pc se E1 E2 E3 E4. unfold uneventful. rewrite E1, E2. split; [exact I|]. constructor; [|constructor]. split; [exact E3|]. intros _ n K. rewrite (E4 n K). left. reflexivity. }
  unfold day. repeat (apply Forall_cons || apply Forall_nil); (eapply G; [reflexivity|reflexivity|reflexivity|cbn; intros n K; congruence]).
Qed.

(** But accept() also fails because a client gave up (103: ECONNABORTED) or because
    there are many of them (24: EMFILE); and then the server closes its only socket,
    and nobody is ever accepted again. *)
Definition aborted (errno : Z) : poll_event :=
  {| pe_polled := PollSome; pe_servers := [{| se_revents := readable; se_accept := NotAccepted errno |}]; pe_clients := [] |}.
Theorem C79_accept_refuted : forall errno, errno = 103 \/ errno = 24 ->
  exists s, fddb_poll listening_socket (aborted errno) = Ok (s, PV_CONTINUE, [Closed 3]) /\
    forall es s' b acts fd, server_cb s es = Ok (s', b, acts) -> ~ In (Opened fd) acts.
Proof.
  intros errno H. exists {| sv_servers := [-1]; sv_clients := [] |}. split; [destruct H as [-> | ->]; vm_compute; reflexivity|].
  intros es s' b acts fd R K. pose proof (fun P => deaf_cb _ {| sv_servers := [-1]; sv_clients := [] |} _ _ _ P R) as F. specialize (F (Forall_cons _ eq_refl (Forall_nil _))). rewrite Forall_forall in F. exact (F _ K).
Qed.
Print Assumptions C79_accept_refuted.
(** And if poll() is interrupted (4: EINTR; FORT handles few signals, but a library
    or a debugger may interrupt it), the thread ends. *)
Theorem C79_signal_refuted : forall s es, server_cb s ({| pe_polled := PollError 4; pe_servers := []; pe_clients := [] |} :: es) = Ok (s, false, []).
Proof. reflexivity. Qed.
Print Assumptions C79_signal_refuted.
