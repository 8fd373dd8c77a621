(** C08 (session mismatch), C09, C10, C50, C51: what clients see on the wire. *)
From Verif Require Import Base BaseLemmas Types DArray DbTable Vrps VrpsSpec VrpsProofs2 VrpsProps
  PduWire PduWireSpec PduWireProofs PduHandler PduHandlerSpec PduHandlerProofs.

(** ** C08: a Serial Query with a foreign session id gets no data: at most one
    Error Report with code 0 (Corrupt Data) is submitted. *)
Theorem C08_session_mismatch_gets_no_data :
  forall iv s lock_ok sk version session serial raw sk' r,
  is_byte version -> Forall is_byte raw ->
  session <> get_current_session_id s version ->
  handle_serial_query_pdu iv s lock_ok sk version session serial raw = Ok (sk', r) ->
  r <> 0 /\ (sk' = sk \/ exists b q text,
    sk' = fst (send_response sk b) /\ rfc_decode b version (PErrorReport 0 q text)).
Proof. exact session_mismatch_lem. Qed.
Print Assumptions C08_session_mismatch_gets_no_data.

Definition ex_iv : intervals := {| i_refresh := 3600; i_retry := 600; i_expire := 7200 |}.
Definition st (cs : list cycle) : state :=
  match vrps_run 2 (vrps_init 2 1000) cs with Ok s => s | _ => vrps_init 2 1000 end.

Example C08_mismatch_example :
  exists sk', handle_serial_query_pdu ex_iv (st [Validated ex_t1]) true fresh_socket 1 1 1
                [1;1;0;1;0;0;0;12;0;0;0;1] = Ok (sk', -22) /\ length (sk_wire sk') = 53%nat.
Proof. eexists. split; vm_compute; reflexivity. Qed.

(** ** C09, Reset Query: whatever the socket does, if an End of Data is
    submitted then every PDU before it was accepted by the socket, they are
    exactly the Cache Response and one announcement per VRP and router key of
    the database, and nothing follows. *)
Theorem C09_reset_query_eod_only_after_all_data :
  forall iv s1 s2 l1 l2 sk version sk' r new pre b o post,
  version = 0 \/ version = 1 -> intervals_in_range iv ->
  is_u16 (get_current_session_id s2 version) -> is_u32 (s_serial s1) ->
  (forall t, s_base s2 = Some t -> table_in_range t) ->
  handle_reset_query_pdu iv s1 s2 l1 l2 sk version = Ok (sk', r) ->
  sk_log sk' = sk_log sk ++ new ->
  new = pre ++ (b, o) :: post -> is_end_of_data b ->
  exists t, s_base s2 = Some t /\ post = [] /\ Forall handed_over pre /\
    rfc_decode b version (PEndOfData (get_current_session_id s2 version) (s_serial s1) (timers version iv)) /\
    Forall2 (fun b p => rfc_decode b version p) (map fst pre)
      (PCacheResponse (get_current_session_id s2 version)
       :: payload version (map (pair ANNOUNCEMENT) (t_roas t)) (map (pair ANNOUNCEMENT) (t_rks t))).
Proof. exact reset_eod_lem. Qed.
Print Assumptions C09_reset_query_eod_only_after_all_data.

Definition ex_rk : router_key := {| rk_ski := repeat 7 20; rk_asn := 64500; rk_spk := repeat 9 91 |}.
Definition ex_w1 : db_table := {| t_roas := [ex_v 1 24; ex_v6 9 48]; t_rks := [ex_rk] |}.
Definition ex_w2 : db_table := {| t_roas := [ex_v6 9 48; ex_v 2 24]; t_rks := [ex_rk] |}.
Lemma ex_w_ok : Forall cycle_ok [Validated ex_w1; Validated ex_w2] /\
  Forall cycle_in_range [Validated ex_w1; Validated ex_w2].
Proof.
  split; repeat (apply Forall_cons || apply Forall_nil);
    cbn [cycle_ok cycle_in_range]; unfold table_ok, table_in_range; cbn [ex_w1 ex_w2 t_roas t_rks].
  1,2: split; repeat constructor; cbn; intuition discriminate.
  all: split; repeat (apply Forall_cons || apply Forall_nil);
    unfold vrp_in_range, rk_in_range, is_u32, is_byte; cbn; lia.
Qed.

Example C09_reset_example :
  exists sk', handle_reset_query_pdu ex_iv (st [Validated ex_w1]) (st [Validated ex_w1]) true true
                fresh_socket 1 = Ok (sk', 0) /\
    map (fun x => (nth 1 (fst x) 99, snd x)) (sk_log sk')
    = [(3, WroteAll); (4, WroteAll); (6, WroteAll); (9, WroteAll); (7, WroteAll)].
Proof. eexists. split; vm_compute; reflexivity. Qed.
(** ... and with a failing write, no End of Data. *)
Example C09_reset_example_failure :
  exists sk', handle_reset_query_pdu ex_iv (st [Validated ex_w1]) (st [Validated ex_w1]) true true
                {| sk_wire := []; sk_log := []; sk_oracle := [WroteAll; WroteAll; SendFails 32] |} 1
              = Ok (sk', 32) /\
    map (fun x => (nth 1 (fst x) 99, snd x)) (sk_log sk')
    = [(3, WroteAll); (4, WroteAll); (6, SendFails 32)].
Proof. eexists. split; vm_compute; reflexivity. Qed.

(** ** C09, Serial Query: refuted.  The write of the first delta PDU fails;
    the client nevertheless receives a well-formed, successful-looking
    response (Cache Response, End of Data with the new serial) without it. *)
Theorem C09_serial_query_refuted :
  exists cs s oracle sk' vs ks,
    Forall cycle_ok cs /\ Forall cycle_in_range cs /\
    vrps_run 2 (vrps_init 2 1000) cs = Ok s /\
    delta_streams s 1 = Ok (vs, ks, SinceOk 2) /\ vs <> [] /\
    let session := get_current_session_id s 1 in
    handle_serial_query_pdu ex_iv s true
      {| sk_wire := []; sk_log := []; sk_oracle := oracle |} 1 session 1 [] = Ok (sk', 0) /\
    rfc_stream 1 (sk_wire sk')
      [PCacheResponse session; PEndOfData session 2 (timers 1 ex_iv)].
Proof.
  exists [Validated ex_w1; Validated ex_w2]. eexists.
  exists [WroteAll; SendFails 105]. eexists. eexists. eexists.
  split; [apply ex_w_ok|]. split; [apply ex_w_ok|].
  split; [vm_compute; reflexivity|]. split; [vm_compute; reflexivity|]. split; [discriminate|].
  split; [vm_compute; reflexivity|].
  eapply rs_cons; [vm_compute; reflexivity|]. eapply rs_cons; [vm_compute; reflexivity|].
  constructor.
Qed.
Print Assumptions C09_serial_query_refuted.

(** ** C09, short writes: refuted for both queries.  A short write is taken
    for a success: the handler goes on to End of Data and returns 0, but what
    the client received is not a sequence of PDUs. *)
Theorem C09_short_write_refuted :
  exists cs s oracle sk',
    Forall cycle_ok cs /\ Forall cycle_in_range cs /\
    vrps_run 2 (vrps_init 2 1000) cs = Ok s /\
    handle_reset_query_pdu ex_iv s s true true
      {| sk_wire := []; sk_log := []; sk_oracle := oracle |} 1 = Ok (sk', 0) /\
    Forall handed_over (sk_log sk') /\
    (exists pre b o, sk_log sk' = pre ++ [(b, o)] /\ is_end_of_data b) /\
    forall ps, ~ rfc_stream 1 (sk_wire sk') ps.
Proof.
  exists [Validated ex_w1]. eexists. exists [WroteAll; WroteShort 10]. eexists.
  split; [apply Forall_cons; [|constructor]; destruct ex_w_ok as [H _]; inversion H; assumption|].
  split; [apply Forall_cons; [|constructor]; destruct ex_w_ok as [_ H]; inversion H; assumption|].
  split; [vm_compute; reflexivity|]. split; [vm_compute; reflexivity|].
  split; [repeat constructor|]. split.
  - eexists (_ :: _ :: _ :: _ :: []), _, _. split; [reflexivity|]. reflexivity.
  - intros ps H. inversion H as [|? p1 r1 ps1 E1 H1]; subst.
    match type of E1 with ?x = _ => let y := eval vm_compute in x in change x with y in E1 end.
    injection E1 as _ <-.
    inversion H1 as [|? p2 r2 ps2 E2 H2]; subst.
    match type of E2 with ?x = _ => let y := eval vm_compute in x in change x with y in E2 end.
    discriminate E2.
Qed.
Print Assumptions C09_short_write_refuted.

(** ** C50: end to end.  When the socket accepts everything, the bytes of the
    reply to a Serial Query for any serial in the window decode (RFC format)
    to Cache Response, payloads, End of Data with the current serial; a strict
    router holding the data of the serial it quoted accepts every payload and
    ends with the server's current data (VRPs only for version 0). *)
Theorem C50_serial_query_wire_converges :
  forall lifetime now cs iv version raw,
  1 <= lifetime < 2147483648 -> Forall cycle_ok cs -> Forall cycle_in_range cs ->
  version = 0 \/ version = 1 -> intervals_in_range iv ->
  exists s h, vrps_run lifetime (vrps_init lifetime now) cs = Ok s /\
    publishes [] cs h /\
    forall i old cur,
      nth_error h i = Some old -> nth_error h (length h - 1) = Some cur ->
      Z.of_nat (length h) - Z.of_nat (i + 1) <= lifetime ->
      let session := get_current_session_id s version in
      exists sk ps,
        handle_serial_query_pdu iv s true fresh_socket version session
          (Z.of_nat (i + 1) mod 4294967296) raw = Ok (sk, 0) /\
        rfc_stream version (sk_wire sk)
          (PCacheResponse session :: ps ++ [PEndOfData session (s_serial s) (timers version iv)]) /\
        client_run (vrp_events ps) (roas_of old) (roas_of cur) /\
        (version = 1 -> client_run (rk_events ps) (rks_of old) (rks_of cur)) /\
        (version = 0 -> rk_events ps = []).
Proof. exact wire_converge_lem. Qed.
Print Assumptions C50_serial_query_wire_converges.

Theorem C50_reset_query_wire_full_data :
  forall lifetime now cs iv version s t,
  Forall cycle_ok cs -> Forall cycle_in_range cs ->
  1 <= lifetime < 2147483648 ->
  version = 0 \/ version = 1 -> intervals_in_range iv ->
  vrps_run lifetime (vrps_init lifetime now) cs = Ok s -> s_base s = Some t ->
  let session := get_current_session_id s version in
  exists sk ps,
    handle_reset_query_pdu iv s s true true fresh_socket version = Ok (sk, 0) /\
    rfc_stream version (sk_wire sk)
      (PCacheResponse session :: ps ++ [PEndOfData session (s_serial s) (timers version iv)]) /\
    client_run (vrp_events ps) (fun _ => False) (roas_of t) /\
    (version = 1 -> client_run (rk_events ps) (fun _ => False) (rks_of t)) /\
    (version = 0 -> rk_events ps = []).
Proof. exact wire_reset_lem. Qed.
Print Assumptions C50_reset_query_wire_full_data.

Example C50_example : Forall cycle_ok [Validated ex_w1; Validated ex_w2] /\
  Forall cycle_in_range [Validated ex_w1; Validated ex_w2] /\ intervals_in_range ex_iv.
Proof.
  split; [apply ex_w_ok|]. split; [apply ex_w_ok|].
  unfold intervals_in_range, is_u32; cbn; lia.
Qed.

(** ** C10: label of a full reset.  The handler reads the serial and the data
    in two critical sections; [cs2] are the cycles that ran in between.
    Proved when no cycle published in between; refuted in general. *)
Theorem C10_reset_label_partial :
  forall lifetime now cs1 cs2 iv version s1 s2 h,
  1 <= lifetime < 2147483648 -> Forall cycle_ok (cs1 ++ cs2) -> Forall cycle_in_range (cs1 ++ cs2) ->
  version = 0 \/ version = 1 -> intervals_in_range iv ->
  vrps_run lifetime (vrps_init lifetime now) cs1 = Ok s1 ->
  vrps_run lifetime s1 cs2 = Ok s2 ->
  publishes [] cs1 h -> publishes [] (cs1 ++ cs2) h -> h <> [] ->
  exists sk ps t,
    nth_error h (length h - 1) = Some t /\
    handle_reset_query_pdu iv s1 s2 true true fresh_socket version = Ok (sk, 0) /\
    let session := get_current_session_id s2 version in
    rfc_stream version (sk_wire sk)
      (PCacheResponse session :: ps
        ++ [PEndOfData session (Z.of_nat (length h) mod 4294967296) (timers version iv)]) /\
    client_run (vrp_events ps) (fun _ => False) (roas_of t) /\
    (version = 1 -> client_run (rk_events ps) (fun _ => False) (rks_of t)).
Proof. exact reset_label_lem. Qed.
Print Assumptions C10_reset_label_partial.

(** One cycle publishes between the two reads: the router is told serial 1,
    but holds the data of serial 2 — and its next Serial Query makes the server
    announce a VRP it already has (an RFC 8210 error). *)
Theorem C10_reset_label_refuted :
  exists s1 s2 sk ps serial v vs ks,
    vrps_run 2 (vrps_init 2 1000) [Validated ex_w1] = Ok s1 /\
    vrps_run 2 s1 [Validated ex_w2] = Ok s2 /\
    s_base s1 = Some ex_w1 /\ s_serial s1 = serial /\
    handle_reset_query_pdu ex_iv s1 s2 true true fresh_socket 1 = Ok (sk, 0) /\
    rfc_stream 1 (sk_wire sk) (PCacheResponse (get_current_session_id s2 1) :: ps
        ++ [PEndOfData (get_current_session_id s2 1) serial (timers 1 ex_iv)]) /\
    In (PPrefix ANNOUNCEMENT v) ps /\ ~ roas_of ex_w1 v /\
    delta_streams s2 serial = Ok (vs, ks, SinceOk 2) /\ In (ANNOUNCEMENT, v) vs.
Proof.
  eexists. eexists. eexists.
  exists (payload 1 (map (pair ANNOUNCEMENT) (t_roas ex_w2)) (map (pair ANNOUNCEMENT) (t_rks ex_w2))).
  exists 1, (ex_v 2 24). eexists. eexists.
  split; [vm_compute; reflexivity|]. split; [vm_compute; reflexivity|].
  split; [reflexivity|]. split; [reflexivity|].
  split; [vm_compute; reflexivity|]. split.
  { repeat (eapply rs_cons; [vm_compute; reflexivity|]). constructor. }
  split; [cbn; auto|]. split; [unfold roas_of; cbn; intuition discriminate|].
  split; [vm_compute; reflexivity|]. cbn. auto.
Qed.
Print Assumptions C10_reset_label_refuted.

(** ** C51: Serial Notify. Once a client's version is negotiated, the notify
    it gets is well formed, for its version and session, with the current
    serial.  Before (stream version -1), it is sent with version 255. *)
Theorem C51_notify_partial :
  forall lifetime now cs s sk version t,
  1 <= lifetime < 2147483648 -> Forall cycle_ok cs ->
  vrps_run lifetime (vrps_init lifetime now) cs = Ok s -> s_base s = Some t ->
  version = 0 \/ version = 1 ->
  exists b, rtr_notify_one s sk version = fst (send_response sk b) /\
    rfc_decode b version (PSerialNotify (get_current_session_id s version) (s_serial s)).
Proof. exact notify_lem. Qed.
Print Assumptions C51_notify_partial.

Theorem C51_notify_refuted :
  exists s, vrps_run 2 (vrps_init 2 1000) [Validated ex_w1] = Ok s /\
    sk_wire (rtr_notify_one s fresh_socket (-1)) = [255; 0; 3; 232; 0; 0; 0; 12; 0; 0; 0; 1].
Proof. eexists. split; vm_compute; reflexivity. Qed.
Print Assumptions C51_notify_refuted.
