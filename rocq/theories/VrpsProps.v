(** C04-C08, C45: the RTR database. *)
From Verif Require Import Base Types HashSet DArray DbTable Vrps VrpsSpec
  VrpsProofs VrpsProofs2.

(** Example data used below. *)
Definition ex_v (a l : Z) : vrp :=
  {| v_asn := 64496; v_addr := a; v_len := l; v_max := l; v_fam := AF_INET |}.
Definition ex_v6 (a l : Z) : vrp :=
  {| v_asn := 64497; v_addr := a; v_len := l; v_max := l; v_fam := AF_INET6 |}.
Definition ex_k (a : Z) : router_key := {| rk_ski := [1;2]; rk_asn := a; rk_spk := [3] |}.
Definition ex_t1 : db_table := {| t_roas := [ex_v 1 24; ex_v6 9 48]; t_rks := [ex_k 7] |}.
Definition ex_t2 : db_table := {| t_roas := [ex_v6 9 48; ex_v 2 24]; t_rks := [] |}.
Definition ex_t3 : db_table := {| t_roas := [ex_v 1 24; ex_v 2 24]; t_rks := [ex_k 8] |}.

Lemma ex_ok : table_ok ex_t1 /\ table_ok ex_t2 /\ table_ok ex_t3.
Proof.
  repeat split; cbn; repeat constructor; cbn; intuition discriminate.
Qed.

(** ** C04: the delta between two tables is exact, minimal, and NULL iff
    nothing changed. *)
Theorem C04_no_delta_iff_same_data : forall old new,
  compute_deltas old new = None <-> same_data old new.
Proof. exact compute_deltas_none. Qed.
Print Assumptions C04_no_delta_iff_same_data.

Theorem C04_delta_exact : forall old new d,
  table_ok old -> table_ok new -> compute_deltas old new = Some d ->
  (forall v, In (ANNOUNCEMENT, v) (deltas_vrps d) <-> roas_of new v /\ ~ roas_of old v) /\
  (forall v, In (WITHDRAWAL, v) (deltas_vrps d) <-> roas_of old v /\ ~ roas_of new v) /\
  (forall k, In (ANNOUNCEMENT, k) (deltas_rks d) <-> rks_of new k /\ ~ rks_of old k) /\
  (forall k, In (WITHDRAWAL, k) (deltas_rks d) <-> rks_of old k /\ ~ rks_of new k) /\
  NoDup (map snd (deltas_vrps d)) /\ NoDup (map snd (deltas_rks d)) /\
  client_run (deltas_vrps d) (roas_of old) (roas_of new) /\
  client_run (deltas_rks d) (rks_of old) (rks_of new).
Proof.
  intros old new d HO HN E. apply compute_deltas_some in E. subst d.
  exact (conj (the_deltas_vrps_In old new ANNOUNCEMENT)
        (conj (the_deltas_vrps_In old new WITHDRAWAL)
        (conj (the_deltas_rks_In old new ANNOUNCEMENT)
        (conj (the_deltas_rks_In old new WITHDRAWAL)
        (conj (the_deltas_vrps_NoDup old new HO HN)
        (conj (the_deltas_rks_NoDup old new HO HN)
        (conj (the_deltas_vrps_run old new HO HN)
              (the_deltas_rks_run old new HO HN)))))))).
Qed.
Print Assumptions C04_delta_exact.

Example C04_example : exists d, compute_deltas ex_t1 ex_t2 = Some d /\
  deltas_vrps d = [(ANNOUNCEMENT, ex_v 2 24); (WITHDRAWAL, ex_v 1 24)] /\
  deltas_rks d = [(WITHDRAWAL, ex_k 7)].
Proof. eexists. split; [vm_compute; reflexivity|]. split; reflexivity. Qed.

(** Every table the program can build is duplicate-free, so [table_ok] is no
    restriction. *)
Inductive built : db_table -> Prop :=
| built_create : built db_table_create
| built_roa t v : built t -> built (add_roa t v)
| built_rk t k : built t -> built (add_router_key t k)
| built_del_roa t v : built t -> built (db_table_remove_roa t v)
| built_del_rk t k : built t -> built (db_table_remove_router_key t k)
| built_join t u : built t -> built u -> built (db_table_join t u).
Theorem C04_tables_are_sets : forall t, built t -> table_ok t.
Proof.
  induction 1; auto using table_ok_create, table_ok_add_roa, table_ok_add_rk,
    table_ok_del_roa, table_ok_del_rk, table_ok_join.
Qed.
Print Assumptions C04_tables_are_sets.

(** ** C05: incremental updates converge.  For every lifetime, start time and
    sequence of cycles: the run succeeds (no memory error); the published
    history is [h]; and a strict client holding the data of serial i+1 (the
    (i+1)-th published set), at most [lifetime] serials behind, is told the
    current serial and ends with exactly the current data. *)
Theorem C05_incremental_updates_converge :
  forall lifetime now cs,
  1 <= lifetime < 2147483648 -> Forall cycle_ok cs ->
  exists s h, vrps_run lifetime (vrps_init lifetime now) cs = Ok s /\
    publishes [] cs h /\
    s_serial s = Z.of_nat (length h) mod 4294967296 /\
    s_base s = nth_error h (length h - 1) /\
    forall i old cur,
      nth_error h i = Some old -> nth_error h (length h - 1) = Some cur ->
      Z.of_nat (length h) - Z.of_nat (i + 1) <= lifetime ->
      exists vs ks,
        delta_streams s (Z.of_nat (i + 1) mod 4294967296)
          = Ok (vs, ks, SinceOk (s_serial s)) /\
        client_run vs (roas_of old) (roas_of cur) /\ NoDup (map snd vs) /\
        client_run ks (rks_of old) (rks_of cur) /\ NoDup (map snd ks).
Proof. exact converge_lem. Qed.
Print Assumptions C05_incremental_updates_converge.

Example C05_example :
  Forall cycle_ok [Validated ex_t1; ValidationFailed; Validated ex_t2;
                   Validated ex_t2; Validated ex_t3] /\
  match vrps_run 2 (vrps_init 2 1000) [Validated ex_t1; ValidationFailed;
          Validated ex_t2; Validated ex_t2; Validated ex_t3] with
  | Ok s => s_serial s = 3 /\
      delta_streams s 1 = Ok ([(WITHDRAWAL, ex_v6 9 48); (ANNOUNCEMENT, ex_v 2 24)]
                               , [(ANNOUNCEMENT, ex_k 8); (WITHDRAWAL, ex_k 7)], SinceOk 3)
  | _ => False
  end.
Proof.
  split.
  - destruct ex_ok as (H1 & H2 & H3).
    repeat (apply Forall_cons; [cbn; auto|]). apply Forall_nil.
  - vm_compute. split; reflexivity.
Qed.

(** The published history is a function of the cycles. *)
Theorem C05_history_unique : forall cs h1 h2,
  publishes [] cs h1 -> publishes [] cs h2 -> h1 = h2.
Proof. exact (published_unique []). Qed.
Print Assumptions C05_history_unique.

(** ** C06: the serial advances exactly when the data changes. *)
Theorem C06_serial_advances_iff_data_changes :
  forall lifetime now cs c,
  1 <= lifetime < 2147483648 -> Forall cycle_ok cs -> cycle_ok c ->
  exists s o, vrps_run lifetime (vrps_init lifetime now) cs = Ok s /\
    vrps_update lifetime s c = Ok o /\
    ((u_changed o = false /\ u_state o = s /\
      match c with
      | Validated t => u_err o = None /\ exists p, s_base s = Some p /\ same_data p t
      | _ => u_err o <> None
      end) \/
     (exists t, c = Validated t /\ u_changed o = true /\ u_err o = None /\
        s_base (u_state o) = Some t /\
        s_serial (u_state o) = (s_serial s + 1) mod 4294967296 /\
        s_v0_session (u_state o) = s_v0_session s /\
        s_v1_session (u_state o) = s_v1_session s /\
        forall p, s_base s = Some p -> ~ same_data p t)).
Proof. exact update_cases_lem. Qed.
Print Assumptions C06_serial_advances_iff_data_changes.

(** ** C07: serials outside the window.  Full statement: every serial that is
    not one of the [lifetime] most recent published ones yields ESRCH.  It is
    false for one serial (refuted below); the partial theorem excludes exactly
    that one.  (Serials inside the window are C05.) *)
Theorem C07_unknown_serial_resets_partial :
  forall lifetime now cs h s from,
  1 <= lifetime < 2147483648 -> Forall cycle_ok cs ->
  vrps_run lifetime (vrps_init lifetime now) cs = Ok s -> publishes [] cs h ->
  is_u32 from ->
  (h = [] -> delta_streams s from = Ok ([], [], SinceErr EAGAIN)) /\
  (h <> [] ->
   ~ (length h = 1%nat /\ from = (s_serial s + 2147483648) mod 4294967296) ->
   (forall n, 0 <= n <= lifetime -> n < Z.of_nat (length h) ->
      from <> (s_serial s - n) mod 4294967296) ->
   delta_streams s from = Ok ([], [], SinceErr ESRCH)).
Proof. exact window_iff_lem. Qed.
Print Assumptions C07_unknown_serial_resets_partial.

Example C07_example :
  match vrps_run 2 (vrps_init 2 1000) [Validated ex_t1; Validated ex_t2] with
  | Ok s => s_serial s = 2 /\ delta_streams s 77 = Ok ([], [], SinceErr ESRCH) /\
            delta_streams s 0 = Ok ([], [], SinceErr ESRCH)
  | _ => False
  end.
Proof. vm_compute. repeat split. Qed.

(** The counterexample: after the first validation (serial 1, no deltas), a
    client claiming serial 2^31+1, which never existed, is told "nothing
    changed, you are now at serial 1". *)
Theorem C07_unknown_serial_resets_refuted :
  exists lifetime now cs s from,
    1 <= lifetime < 2147483648 /\ Forall cycle_ok cs /\
    vrps_run lifetime (vrps_init lifetime now) cs = Ok s /\ is_u32 from /\
    (forall h, publishes [] cs h -> length h = 1%nat) /\
    from <> s_serial s /\
    delta_streams s from = Ok ([], [], SinceOk (s_serial s)).
Proof.
  exists 2, 1000, [Validated ex_t1].
  eexists _, 2147483649. split; [lia|].
  split. { apply Forall_cons; [apply ex_ok|apply Forall_nil]. }
  split; [reflexivity|]. split; [unfold is_u32; lia|].
  split.
  { intros h Hp. assert (h = [ex_t1]) as ->; [|reflexivity].
    eapply published_unique; [exact Hp|]. constructor. constructor. }
  split; [cbn; lia|]. vm_compute. reflexivity.
Qed.
Print Assumptions C07_unknown_serial_resets_refuted.

(** ** C08: session ids are 16-bit, distinct and constant along every run. *)
Theorem C08_sessions_distinct_and_constant :
  forall lifetime now cs s,
  vrps_run lifetime (vrps_init lifetime now) cs = Ok s ->
  s_v0_session s = now mod 65536 /\ 0 <= s_v0_session s < 65536 /\
  0 <= s_v1_session s < 65536 /\ s_v0_session s <> s_v1_session s /\
  s_v1_session s = s_v1_session (vrps_init lifetime now).
Proof. exact sessions_lem. Qed.
Print Assumptions C08_sessions_distinct_and_constant.

Example C08_example : get_current_session_id (vrps_init 2 65536) 0 = 0 /\
  get_current_session_id (vrps_init 2 65536) 1 = 65535.
Proof. split; reflexivity. Qed.

(** ** C45: AS ranges of a BGPsec certificate expand to exactly their
    members (including ranges that end at 2^32 - 1), and VRPs are untouched. *)
Theorem C45_router_key_range_exact :
  forall t ski spk amin amax,
  0 <= amin -> amax < 4294967296 ->
  (forall k, In k (t_rks (handle_router_key t ski spk amin amax)) <->
    In k (t_rks t) \/ exists a, amin <= a <= amax /\
     k = {| rk_ski := ski; rk_asn := a; rk_spk := spk |}) /\
  t_roas (handle_router_key t ski spk amin amax) = t_roas t.
Proof. exact handle_router_key_lem. Qed.
Print Assumptions C45_router_key_range_exact.

Example C45_example :
  map rk_asn (t_rks (handle_router_key db_table_create [1] [2] 4294967294 4294967295))
  = [4294967294; 4294967295].
Proof. reflexivity. Qed.
