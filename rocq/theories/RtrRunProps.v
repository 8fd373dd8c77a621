(** C80, C81: the answers of the RTR server. *)
From Verif Require Import Base Types PduHandler PduStream PduStreamSpec Rtr RtrSpec RtrProps RtrRun RtrRunSpec RtrRunProofs.
Notation length := List.length.

(** C80: as long as no connection is closed while a worker answers a query of its,
    everything that the worker writes is received by the connection that asked, in
    order, and by nobody else; whatever else the process and the other clients do. *)
Theorem C80_answers_partial : forall sockets ss r,
  exec (started sockets) ss = Some r -> always patient (started sockets) ss ->
  Forall (delivered r) (rn_log r) /\
  forall k j, nth_error (rn_jobs r) k = Some j -> received (jb_conn j) k (rn_log r) = written k ss.
Proof.
  intros sockets ss r H P. pose proof (exec_inv _ _ _ (inv_started sockets) P H) as I. split.
  - apply Forall_forall. intros e He k j F Hj. destruct (i_log _ I _ _ He F) as (j' & Hj' & E). congruence.
  - intros k j Hj. rewrite (exec_received _ _ _ _ _ (inv_started sockets) P H Hj). reflexivity.
Qed.
Print Assumptions C80_answers_partial.

(** C81: and as long as no other query of the connection is read meanwhile, the
    answers follow one another. *)
Theorem C81_turns_partial : forall sockets ss r,
  exec (started sockets) ss = Some r -> always patient (started sockets) ss -> always one_at_a_time (started sockets) ss ->
  in_turns (rn_log r).
Proof. intros sockets ss r H P O. exact (t_log _ (exec_turns _ _ _ (turns_started sockets) P O H)). Qed.
Print Assumptions C81_turns_partial.

(** *** Examples *)
Definition cache_response : list Z := [1; 3; 0; 0; 0; 0; 0; 8].
Definition end_of_data : list Z := [1; 7; 0; 0; 0; 0; 0; 24; 0; 0; 0; 1; 0; 0; 14; 16; 0; 0; 2; 88; 0; 0; 28; 32].
(** Two clients are answered at the same time. *)
Definition patience : list step :=
  [Poll (Opened 4); Poll (Opened 5); Poll (Pushed 4 the_request); Poll (Pushed 5 the_request); Write 1 cache_response; Write 0 cache_response; OpenFile 6; Write 0 end_of_data;
   Write 1 end_of_data; Finish 0; Poll (Closed 4); Finish 1; Poll (Pushed 5 the_request); Write 2 cache_response].
Example C80_example : exists r, exec (started [3]) patience = Some r /\ always patient (started [3]) patience /\ always one_at_a_time (started [3]) patience /\
  received 0 0 (rn_log r) = [cache_response; end_of_data] /\ received 1 1 (rn_log r) = [cache_response; end_of_data] /\ length (rn_log r) = 5%nat.
Proof.
  eexists. split; [vm_compute; reflexivity|].
  pose proof (checked_spec patience (started [3])) as G. destruct G as (G1 & G2); [vm_compute; reflexivity|].
  split; [exact G1|]. split; [exact G2|]. split; [reflexivity|]. split; reflexivity.
Qed.

(** The program isn't patient.  A client asks something and leaves; the next one
    gets its descriptor, and the answer. *)
Definition asks : poll_event :=
  {| pe_polled := PollSome; pe_servers := [quiet]; pe_clients := [{| ce_revents := readable; ce_reads := [RData reset_query]; ce_sends := [] |}] |}.
Definition leaves : poll_event :=
  {| pe_polled := PollSome; pe_servers := [quiet]; pe_clients := [{| ce_revents := hung_up; ce_reads := []; ce_sends := [] |}] |}.
Theorem C80_reuse_refuted : exists es s acts ss r,
  server_cb listening_socket es = Ok (s, true, acts) /\ polls ss = acts /\ exec (started [3]) ss = Some r /\
  (exists e j, In e (rn_log r) /\ en_from e = Some 0%nat /\ nth_error (rn_jobs r) 0 = Some j /\ jb_conn j = 0%nat /\ en_to e = Conn 1).
Proof.
  exists [knock 4; asks; leaves; knock 4]. eexists. eexists.
  exists [Poll (Opened 4); Poll (Pushed 4 the_request); Poll (Closed 4); Poll (Opened 4); Write 0 cache_response]. eexists.
  split; [vm_compute; reflexivity|]. split; [reflexivity|]. split; [vm_compute; reflexivity|].
  eexists. eexists. split; [left; reflexivity|]. cbn. repeat split.
Qed.
Print Assumptions C80_reuse_refuted.
(** Or a file of the cache does. *)
Theorem C80_file_refuted : exists es s acts ss r,
  server_cb listening_socket es = Ok (s, true, acts) /\ polls ss = acts /\ exec (started [3]) ss = Some r /\
  (exists e, In e (rn_log r) /\ en_from e = Some 0%nat /\ en_to e = Foreign /\ en_bytes e = cache_response).
Proof.
  exists [knock 4; asks; leaves]. eexists. eexists.
  exists [Poll (Opened 4); Poll (Pushed 4 the_request); Poll (Closed 4); OpenFile 4; Write 0 cache_response]. eexists.
  split; [vm_compute; reflexivity|]. split; [reflexivity|]. split; [vm_compute; reflexivity|].
  eexists. split; [left; reflexivity|]. cbn. repeat split.
Qed.
Print Assumptions C80_file_refuted.
(** A client that says it has nothing else to ask (it shuts its side of the
    connection down, and waits for the answer) is disconnected by the next poll,
    because there is an end of file to read; whether it has been answered or not. *)
Definition asks_and_shuts : poll_event :=
  {| pe_polled := PollSome; pe_servers := [quiet]; pe_clients := [{| ce_revents := readable; ce_reads := [RData reset_query; REos]; ce_sends := [] |}] |}.
Definition waits : poll_event :=
  {| pe_polled := PollSome; pe_servers := [quiet]; pe_clients := [{| ce_revents := readable; ce_reads := [REos]; ce_sends := [] |}] |}.
Theorem C80_shutdown_refuted : exists s acts ss r,
  server_cb listening_socket [knock 4; asks_and_shuts; waits] = Ok (s, true, acts) /\ polls ss = acts /\ exec (started [3]) ss = Some r /\
  (exists fd q, In (Pushed fd q) acts /\ rq_eos q = true) /\ written 0 ss = [cache_response; end_of_data] /\ rn_log r = [].
Proof.
  eexists. eexists. exists [Poll (Opened 4); Poll (Pushed 4 (set_eos the_request)); Poll (Closed 4); Write 0 cache_response; Write 0 end_of_data; Finish 0]. eexists.
  split; [vm_compute; reflexivity|]. split; [reflexivity|]. split; [vm_compute; reflexivity|].
  split; [eexists; eexists; split; [right; left; reflexivity|reflexivity]|]. split; reflexivity.
Qed.
Print Assumptions C80_shutdown_refuted.
(** A client that asks twice is answered by two workers at the same time, and gets the
    two answers mixed up. *)
Theorem C81_refuted : exists s acts ss r,
  server_cb listening_socket [knock 4; asks; asks] = Ok (s, true, acts) /\ polls ss = acts /\ exec (started [3]) ss = Some r /\ always patient (started [3]) ss /\
  map en_from (rn_log r) = [Some 0; Some 1; Some 0; Some 1]%nat /\ map en_to (rn_log r) = [Conn 0; Conn 0; Conn 0; Conn 0] /\ ~ in_turns (rn_log r).
Proof.
  eexists. eexists. exists [Poll (Opened 4); Poll (Pushed 4 the_request); Poll (Pushed 4 the_request); Write 0 cache_response; Write 1 cache_response; Write 0 end_of_data; Write 1 end_of_data]. eexists.
  split; [vm_compute; reflexivity|]. split; [reflexivity|]. split; [vm_compute; reflexivity|]. split; [cbn; tauto|]. split; [reflexivity|]. split; [reflexivity|].
  intros T. cbn [rn_log] in T. match type of T with in_turns [?a; ?b; ?c; ?d] => specialize (T [a] b [] c [d] 0%nat 1%nat 0%nat eq_refl eq_refl eq_refl eq_refl eq_refl) end. lia.
Qed.
Print Assumptions C81_refuted.
