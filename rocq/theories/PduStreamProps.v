(** C12-C15, C46: receiving PDUs. *)
From Coq Require Import String.
From Verif Require Import Base BaseLemmas CString Types PduWire PduWireSpec PduWireProofs
  PduHandler PduHandlerSpec PduStream PduStreamSpec PduStreamProofs.
Notation length := List.length.

(** ** C12.  On any connection (any history of reads), whatever comes next,
    a receive call terminates (it never runs out of fuel), keeps the active
    bytes inside the 1024-byte buffer, and when it reports success has
    consumed exactly the complete queries it found.

    MISSING: the full property (never [UB]) is false, see the two refutations
    below.  The theorem confines the faults: a read outside the received bytes
    can only follow a header whose length field is below 2, or an Error Report
    not received completely. *)
Theorem C12_receive_is_total_partial :
  forall s rs sk evs, conn s rs -> evs_ok evs ->
  (exists out, pdustream_next s sk evs = Ok out /\
     0 <= ps_off (no_stream out) /\
     ps_off (no_stream out) + Z.of_nat (length (ps_buf (no_stream out))) <= 1024 /\
     (forall r, no_result out = Some r ->
        no_socket out = sk /\
        exists bs qs, Forall2 is_query bs qs /\
          ps_buf s ++ data evs = concat bs ++ ps_buf (no_stream out) ++ data (no_evs out) /\
          fragment (ps_version (no_stream out)) (ps_buf (no_stream out)) /\
          (r = last_req None qs \/
           exists q, last_req None qs = Some q /\ r = Some (set_eos q)))) \/
  (pdustream_next s sk evs = UB /\
   exists bs qs ver suf more, Forall2 is_query bs qs /\
     ps_buf s ++ data evs = concat bs ++ suf ++ more /\ bad_header ver suf).
Proof.
  intros s rs sk evs C EO. destruct (conn_inv s rs C) as (OK & _).
  assert (P2 : forall ver bs qs ver', parsed ver bs qs ver' -> Forall2 is_query bs qs)
    by (induction 1; constructor; auto).
  destruct (next_cases s sk evs OK EO)
    as [bs qs ver suf more P EQ BH LS|bs qs ver s' evs' r P EQ Fr V' OK' R QQ
       |bs qs ver suf more s' sk' evs' P EQ G OK'|s' evs' T OK'].
  - right. split; [reflexivity|]. exists bs, qs, ver, suf, more. eauto.
  - left. eexists. split; [reflexivity|]. cbn [no_stream no_socket no_evs no_result].
    destruct OK' as (_ & O1 & O2 & _). split; [auto|]. split; [auto|].
    intros r' Er. injection Er as <-. split; [reflexivity|]. exists bs, qs.
    split; [eauto|]. split; [auto|]. split; [auto|].
    destruct R as [R|(_ & R)]; auto.
  - left. eexists. split; [reflexivity|]. cbn [no_stream no_result].
    destruct OK' as (_ & O1 & O2 & _). split; [auto|]. split; [auto|]. discriminate.
  - left. eexists. split; [reflexivity|]. cbn [no_stream no_result].
    destruct OK' as (_ & O1 & O2 & _). split; [auto|]. split; [auto|]. discriminate.
Qed.
Print Assumptions C12_receive_is_total_partial.

(** A Reset Query whose length field is 1: err_pdu_send() reads the second
    byte of a one-byte copy. *)
Theorem C12_no_overread_short_length_refuted :
  ~ forall s rs sk evs, conn s rs -> evs_ok evs -> pdustream_next s sk evs <> UB.
Proof.
  intros H. apply (H pdustream_create [] fresh_socket [RData [1; 2; 0; 0; 0; 0; 0; 1]] conn_new).
  - unfold evs_ok, is_byte. cbn. repeat constructor; lia.
  - vm_compute. reflexivity.
Qed.
Print Assumptions C12_no_overread_short_length_refuted.

(** An Error Report announcing 1024 bytes of which 16 were received: the text
    is copied from beyond the received bytes (here even beyond the buffer,
    when 1012 bytes of queries precede it). *)
Definition truncated_report : list Z :=
  [1; 10; 0; 0; 0; 0; 4; 0; 0; 0; 0; 0; 0; 0; 3; 240].
Theorem C12_no_overread_error_report_refuted :
  ~ forall s rs sk evs, conn s rs -> evs_ok evs ->
      (forall bs qs suf, data evs = concat bs ++ suf -> Forall2 is_query bs qs ->
         match suf with _ :: _ :: _ :: _ :: l1 :: l2 :: l3 :: l4 :: _ => 8 <= be [l1; l2; l3; l4] | _ => True end) ->
      pdustream_next s sk evs <> UB.
Proof.
  intros H. apply (H pdustream_create [] fresh_socket [RData truncated_report] conn_new).
  - unfold evs_ok, is_byte. cbn. repeat constructor; lia.
  - intros bs qs suf E F. unfold data in E. cbn [map concat] in E. rewrite app_nil_r in E.
    destruct F as [|b q bs qs Q F].
    + cbn [concat app] in E. subst suf. unfold truncated_report. vm_compute. discriminate.
    + exfalso. cbn [concat] in E. rewrite <- app_assoc in E. unfold truncated_report in E.
      inversion Q; subst; cbn [app] in E; discriminate E.
  - vm_compute. reflexivity.
Qed.
Print Assumptions C12_no_overread_error_report_refuted.

Example C12_example :
  exists out, pdustream_next pdustream_create fresh_socket
    [RData [1; 2; 0; 0; 0; 0; 0]; RData [8; 1; 1; 0; 9]; RWouldBlock] = Ok out /\
    ps_buf (no_stream out) = [1; 1; 0; 9] /\
    no_result out = Some (Some {| rq_version := 1; rq_type := 2; rq_session := 0; rq_serial := 0;
                                  rq_raw := [1; 2; 0; 0; 0; 0; 0; 8]; rq_eos := false |}).
Proof. eexists. split; [vm_compute; reflexivity|]. split; reflexivity. Qed.

(** ** C13.  If the bytes held back by earlier calls followed by the bytes that
    arrive now, in whatever chunks, are the queries [qs] and then a part of
    another one, the call delivers the last of [qs] with exactly its fields,
    sends nothing and holds back exactly the rest. *)
Theorem C13_delivered_as_sent :
  forall s rs sk evs bs qs ver tail,
  conn s rs -> evs_ok evs -> quiet evs ->
  parsed (ps_version s) bs qs ver -> query_prefix ver tail ->
  ps_buf s ++ data evs = concat bs ++ tail ->
  exists s' evs', pdustream_next s sk evs =
    Ok {| no_stream := s'; no_socket := sk; no_evs := evs'; no_result := Some (last_req None qs) |} /\
    ps_buf s' = tail /\ data evs' = [] /\ (ps_version s' = ver \/ version_fits ver (ps_version s')).
Proof.
  intros s rs sk evs bs qs ver tail C EO Q P QP E. destruct (conn_inv s rs C) as (OK & _).
  destruct (delivered_as_sent s sk evs bs qs ver tail OK EO Q P QP E) as (s' & evs' & A & B & D & _ & V).
  exists s', evs'. auto.
Qed.
Print Assumptions C13_delivered_as_sent.

(** In particular one Serial Query, split into any non-empty chunks. *)
Corollary C13_one_serial_query :
  forall v m1 m2 s1 s2 s3 s4 chunks sk,
  v = 0 \/ v = 1 -> Forall is_byte [m1; m2; s1; s2; s3; s4] ->
  Forall (fun c => c <> []) chunks ->
  concat chunks = [v; 1; m1; m2; 0; 0; 0; 12; s1; s2; s3; s4] ->
  exists s' evs', pdustream_next pdustream_create sk (map RData chunks) =
    Ok {| no_stream := s'; no_socket := sk; no_evs := evs';
          no_result := Some (Some {| rq_version := v; rq_type := 1;
            rq_session := 256 * m1 + m2;
            rq_serial := 16777216 * s1 + 65536 * s2 + 256 * s3 + s4;
            rq_raw := [v; 1; m1; m2; 0; 0; 0; 12; s1; s2; s3; s4]; rq_eos := false |}) |}.
Proof.
  intros v m1 m2 s1 s2 s3 s4 chunks sk Hv Hb Hc E.
  assert (D : data (map RData chunks) = concat chunks).
  { unfold data. rewrite map_map, map_id. reflexivity. }
  set (b := [v; 1; m1; m2; 0; 0; 0; 12; s1; s2; s3; s4]) in *.
  set (q := {| rq_version := v; rq_type := 1; rq_session := be [m1; m2];
               rq_serial := be [s1; s2; s3; s4]; rq_raw := b; rq_eos := false |}).
  assert (Q : is_query b q) by (apply q_serial; auto).
  destruct (C13_delivered_as_sent pdustream_create [] sk (map RData chunks) [b] [q] v [])
    as (s' & evs' & EN & _).
  - constructor.
  - unfold evs_ok. rewrite D, E. rewrite Forall_forall in Hb. apply Forall_forall.
    intros x Hx. unfold b in Hx. cbn [In] in Hx.
    unfold is_byte in *. cbn [In] in Hb.
    decompose [or] Hx; subst; try lia; try (apply Hb; tauto); contradiction.
  - clear - Hc. induction chunks; cbn [map]; [constructor|]. inversion Hc; subst.
    constructor; auto.
  - constructor; [exact Q| |]; cbn [q rq_version]; [split; auto|constructor].
  - exists b, q, b. cbn [q rq_version app]. repeat split; auto. discriminate.
  - rewrite D, E. cbn [concat]. rewrite !app_nil_r. reflexivity.
  - exists s', evs'. rewrite EN. cbn [last_req]. unfold q.
    do 4 f_equal. unfold be. cbn [fold_left]. f_equal; lia.
Qed.
Print Assumptions C13_one_serial_query.

Example C13_example :
  exists s' evs', pdustream_next pdustream_create fresh_socket
      (map RData [[1]; [1; 0; 7; 0; 0; 0]; [12; 0; 0; 1; 0]]) =
    Ok {| no_stream := s'; no_socket := fresh_socket; no_evs := evs';
          no_result := Some (Some {| rq_version := 1; rq_type := 1; rq_session := 7; rq_serial := 256;
            rq_raw := [1; 1; 0; 7; 0; 0; 0; 12; 0; 0; 1; 0]; rq_eos := false |}) |}.
Proof.
  apply (C13_one_serial_query 1 0 7 0 0 1 0); auto; repeat constructor; unfold is_byte; try lia; discriminate.
Qed.

(** ** C14.  All the requests a connection ever delivers carry one version,
    0 or 1: the negotiated one. *)
Theorem C14_one_version_per_connection :
  forall s rs, conn s rs ->
  (ps_version s = -1 \/ ps_version s = 0 \/ ps_version s = 1) /\
  (forall q, In q rs -> rq_version q = ps_version s /\ ps_version s <> -1).
Proof.
  intros s rs C. destruct (conn_inv s rs C) as ((V & _) & F & NE). split; [exact V|].
  intros q I. rewrite Forall_forall in F. split; [auto|]. apply NE. destruct rs; [destruct I|congruence].
Qed.
Print Assumptions C14_one_version_per_connection.

(** A PDU with any other version ends the connection; the answer, unless the
    PDU is itself an Error Report, is one Error Report: code 8 for the other
    known version, code 4 for the rest. *)
Theorem C14_wrong_version_ends_connection :
  forall s rs sk evs bs qs ver v t m1 m2 l1 l2 l3 l4 rest,
  conn s rs -> evs_ok evs -> quiet evs ->
  parsed (ps_version s) bs qs ver -> ~ version_fits ver v ->
  2 <= be [l1; l2; l3; l4] <= 1024 ->
  ps_buf s ++ data evs = concat bs ++ v :: t :: m1 :: m2 :: l1 :: l2 :: l3 :: l4 :: rest ->
  exists s' sk' evs' raw r, pdustream_next s sk evs =
    Ok {| no_stream := s'; no_socket := sk'; no_evs := evs'; no_result := None |} /\
    v :: t :: m1 :: m2 :: l1 :: l2 :: l3 :: l4 :: rest = raw ++ r /\
    answered sk sk' t (if (v =? 0) || (v =? 1) then 8 else 4) raw.
Proof.
  intros s rs sk evs bs qs ver v t m1 m2 l1 l2 l3 l4 rest C. destruct (conn_inv s rs C) as (OK & _).
  apply wrong_version. exact OK.
Qed.
Print Assumptions C14_wrong_version_ends_connection.

Example C14_example :
  exists out, pdustream_next pdustream_create fresh_socket
      [RData ([1; 2; 0; 0; 0; 0; 0; 8] ++ [0; 2; 0; 0; 0; 0; 0; 8])] = Ok out /\
    no_result out = None /\ length (sk_log (no_socket out)) = 1%nat /\
    nth_error (sk_wire (no_socket out)) 3 = Some 8.
Proof. eexists. split; [vm_compute; reflexivity|]. repeat split. Qed.

(** ** C15.  Whatever a client sends, a receive call sends nothing, or the
    connection ends and exactly one message is sent, an Error Report, and the
    PDU that provoked it is not an Error Report. *)
Theorem C15_error_report_never_answered :
  forall s rs sk evs out, conn s rs -> evs_ok evs -> pdustream_next s sk evs = Ok out ->
  no_socket out = sk \/
  (no_result out = None /\
   exists bs qs v t rest q r code msg bytes rv o,
     Forall2 is_query bs qs /\ ps_buf s ++ data evs = concat bs ++ v :: t :: rest /\ t <> 10 /\
     sk_log (no_socket out) = sk_log sk ++ [(bytes, o)] /\
     rfc_decode bytes rv (PErrorReport code q msg) /\ v :: t :: rest = q ++ r).
Proof.
  intros s rs sk evs out C EO E. destruct (conn_inv s rs C) as (OK & _).
  assert (P2 : forall ver bs qs ver', parsed ver bs qs ver' -> Forall2 is_query bs qs)
    by (induction 1; constructor; auto).
  pose proof (next_cases s sk evs OK EO) as N. rewrite E in N.
  inversion N as [|bs qs ver s' evs' r P EQ Fr V' OK' R QQ Eo
       |bs qs ver suf more s' sk' evs' P EQ G OK' Eo|s' evs' T OK' Eo]; subst out;
    cbn [no_socket no_result]; auto.
  destruct G as [v t m1 m2 l1 l2 l3 l4 rest code raw r suf Es Off Er Ans
        |v m1 m2 l1 l2 l3 l4 rest suf Es VF ->]; auto.
  destruct Ans as [(_ & ->)|(Nt & bytes & rv & q & msg & o & r' & D & Eq & L)]; auto.
  right. split; [reflexivity|].
  exists bs, qs, v, t, (m1 :: m2 :: l1 :: l2 :: l3 :: l4 :: rest ++ more), q, (r' ++ r ++ more), code, msg, bytes, rv, o.
  split; [eauto|]. split; [rewrite EQ, Es; reflexivity|]. split; [exact Nt|]. split; [exact L|].
  split; [exact D|].
  change (v :: t :: m1 :: m2 :: l1 :: l2 :: l3 :: l4 :: rest ++ more)
    with ((v :: t :: m1 :: m2 :: l1 :: l2 :: l3 :: l4 :: rest) ++ more).
  rewrite <- Es, Er, Eq, <- !app_assoc. reflexivity.
Qed.
Print Assumptions C15_error_report_never_answered.

(** The same for every other caller of err_pdu_send(). *)
Theorem C15_err_pdu_send_is_silent_on_error_reports :
  forall sk version code raw msg, nth_error raw 1 = Some 10 ->
  err_pdu_send sk version code (Some raw) msg = Ok (sk, -22).
Proof. intros sk version code raw msg H. unfold err_pdu_send. rewrite H. reflexivity. Qed.
Print Assumptions C15_err_pdu_send_is_silent_on_error_reports.

Example C15_example_silent :
  exists out, pdustream_next pdustream_create fresh_socket
      [RData [7; 10; 0; 0; 0; 0; 0; 16; 0; 0; 0; 0; 0; 0; 0; 0]] = Ok out /\
    no_result out = None /\ no_socket out = fresh_socket.
Proof. eexists. split; [vm_compute; reflexivity|]. repeat split. Qed.
Example C15_example_answered :
  exists out, pdustream_next pdustream_create fresh_socket
      [RData [1; 3; 0; 0; 0; 0; 0; 8]] = Ok out /\
    no_result out = None /\ nth_error (sk_wire (no_socket out)) 1 = Some 10 /\
    nth_error (sk_wire (no_socket out)) 3 = Some 5.
Proof. eexists. split; [vm_compute; reflexivity|]. repeat split. Qed.

(** ** C46.  The text kept from an Error Report is a prefix of what was
    received, is well-formed (structurally) UTF-8, and extends every other
    such prefix. *)
Theorem C46_text_is_longest_utf8_prefix :
  forall str, Forall is_byte str ->
  (exists r, str = place_null_character str ++ r) /\
  utf8 (place_null_character str) /\
  (forall p r, str = p ++ r -> utf8 p -> exists x, place_null_character str = p ++ x).
Proof.
  intros str F. destruct (place_null_character_spec str F) as (r & E & U & M).
  split; [exists r; exact E|]. split; [exact U|exact M].
Qed.
Print Assumptions C46_text_is_longest_utf8_prefix.

Example C46_example : (* "a", e-acute, a truncated 3-byte character *)
  place_null_character [97; 195; 169; 226; 130] = [97; 195; 169].
Proof. reflexivity. Qed.
