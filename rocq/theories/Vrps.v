(** Model of src/rtr/db/vrps.c: the RTR database as a state machine over
    validation cycles.  Each function's critical section (state_lock) is one
    atomic step here; interleavings are in RtrConc.v. *)
From Verif Require Import Base Types HashSet DArray DbTable Serial.

(** src/rtr/db/vrps.c:33-69 [struct state] ([slurm] is in Slurm.v). *)
Record state := {
  s_base : option db_table;
  s_deltas : darray deltas;
  s_serial : Z;
  s_v0_session : Z;
  s_v1_session : Z;
}.

(** src/rtr/db/vrps.c:79-121 [vrps_init]; [now] is the current time (its
    failure aborts start-up). *)
Definition vrps_init (lifetime now : Z) : state :=
  let v0 := Z.land now 65535 in
  {| s_base := None;
     s_deltas := darray_create lifetime;
     s_serial := 0;
     s_v0_session := v0;
     s_v1_session := if v0 =? 0 then 65535 else v0 - 1 |}.

(** What one validation cycle delivers: perform_standalone_validation()
    returning NULL, slurm_apply() failing, or a table (after SLURM). *)
Inductive cycle :=
| ValidationFailed
| SlurmFailed (e : errcode)
| Validated (t : db_table).

(** src/rtr/db/vrps.c:180-238 [__vrps_update].  Result: new state and
    [changed]; [Err] carries the (unchanged) state implicitly. *)
Record update_out := { u_state : state; u_changed : bool; u_err : option errcode }.

Definition vrps_update (lifetime : Z) (s : state) (c : cycle) : res update_out :=
  match c with
  | ValidationFailed => Ok {| u_state := s; u_changed := false; u_err := Some EINVAL |}
  | SlurmFailed e => Ok {| u_state := s; u_changed := false; u_err := Some e |}
  | Validated new_base =>
      match s_base s with
      | None =>
          Ok {| u_state := {| s_base := Some new_base; s_deltas := s_deltas s;
                              s_serial := wrap32 (s_serial s + 1);
                              s_v0_session := s_v0_session s;
                              s_v1_session := s_v1_session s |};
                u_changed := true; u_err := None |}
      | Some old_base =>
          match compute_deltas old_base new_base with
          | None => Ok {| u_state := s; u_changed := false; u_err := None |}
          | Some d =>
              match darray_add lifetime (s_deltas s) d with
              | Ok da =>
                  Ok {| u_state := {| s_base := Some new_base; s_deltas := da;
                                      s_serial := wrap32 (s_serial s + 1);
                                      s_v0_session := s_v0_session s;
                                      s_v1_session := s_v1_session s |};
                        u_changed := true; u_err := None |}
              | Err e => Err e
              | UB => UB
              end
          end
      end
  end.

(** A whole history of cycles. *)
Fixpoint vrps_run (lifetime : Z) (s : state) (cs : list cycle) : res state :=
  match cs with
  | [] => Ok s
  | c :: t => bind (vrps_update lifetime s c)
                (fun o => vrps_run lifetime (u_state o) t)
  end.

(** src/rtr/db/vrps.c:318-341, 343-373 [vrp_ovrd_remove],
    [router_key_ovrd_remove]: if the list holds an equal element with the
    other flag, unlink the first such node; otherwise push the delta in
    front. *)
Section Filter.
  Context {A : Type} (eqb : A -> A -> bool).
  Fixpoint remove_opposite (f : flag) (x : A) (l : list (flag * A))
    : option (list (flag * A)) :=
    match l with
    | [] => None
    | (f', y) :: t =>
        if eqb x y && negb (flag_eqb f f') then Some t
        else match remove_opposite f x t with
             | Some t' => Some ((f', y) :: t')
             | None => None
             end
    end.
  Definition ovrd_remove (l : list (flag * A)) (e : flag * A) : list (flag * A) :=
    match remove_opposite (fst e) (snd e) l with
    | Some l' => l'
    | None => e :: l
    end.
End Filter.

(** SLIST_FOREACH with a callback that may fail: stops at the first non-zero
    return, which is the result (vrps.c:444-453). *)
Fixpoint run_cb {S X : Type} (cb : S -> X -> S * Z) (arg : S) (l : list X) : S * Z :=
  match l with
  | [] => (arg, 0)
  | x :: t => let '(arg', e) := cb arg x in
              if e =? 0 then run_cb cb arg' t else (arg', e)
  end.

(** Result of the query functions: 0 with the final serial, or an error.
    [S_OTHER] stands for rwlock_read_lock()'s EAGAIN (too many readers). *)
Inductive since_ret := SinceOk (to : Z) | SinceErr (e : errcode).

(** src/rtr/db/vrps.c:388-474 [vrps_foreach_delta_since], assuming the read
    lock was obtained.  [arg] is the callbacks' state.  Note: whatever
    darray_foreach_since() or the callbacks return, the function returns 0 and
    sets the final serial (lines 437-441 and 444-467). *)
Definition vrps_foreach_delta_since {S : Type}
  (vcb : S -> flag * vrp -> S * Z) (kcb : S -> flag * router_key -> S * Z)
  (s : state) (from : Z) (arg : S) : res (S * since_ret) :=
  match s_base s with
  | None => Ok (arg, SinceErr EAGAIN)
  | Some _ =>
      if from =? s_serial s then Ok (arg, SinceOk from)
      else if serial_lt from (wrap32 (s_serial s - da_len (s_deltas s)))
      then Ok (arg, SinceErr ESRCH)
      else if serial_lt (s_serial s) from
      then Ok (arg, SinceErr ESRCH)
      else
        match darray_foreach_since (s_deltas s) (wrap32 (s_serial s - from)) with
        | UB => UB
        | Err _ => Ok (arg, SinceOk (s_serial s)) (* goto release_list *)
        | Ok ds =>
            let prefixes := fold_left (ovrd_remove vrp_equals)
                              (flat_map deltas_vrps ds) [] in
            let keys := fold_left (ovrd_remove rk_equals)
                              (flat_map deltas_rks ds) [] in
            let '(arg1, _) := run_cb vcb arg prefixes in
            let '(arg2, _) := run_cb kcb arg1 keys in
            Ok (arg2, SinceOk (s_serial s))
        end
  end.

(** src/rtr/db/vrps.c:291-311 [vrps_foreach_base]. *)
Definition vrps_foreach_base {S : Type}
  (vcb : S -> vrp -> S * Z) (kcb : S -> router_key -> S * Z)
  (s : state) (arg : S) : S * Z + errcode :=
  match s_base s with
  | None => inr EAGAIN
  | Some t =>
      let '(arg1, e) := run_cb vcb arg (t_roas t) in
      if e =? 0 then inl (run_cb kcb arg1 (t_rks t)) else inl (arg1, e)
  end.

(** src/rtr/db/vrps.c:476-493 [get_last_serial_number]. *)
Definition get_last_serial_number (s : state) : res Z :=
  match s_base s with
  | None => Err EAGAIN
  | Some _ => Ok (s_serial s)
  end.

(** src/rtr/db/vrps.c:495-505 [get_current_session_id]. *)
Definition get_current_session_id (s : state) (rtr_version : Z) : Z :=
  if rtr_version =? 1 then s_v1_session s else s_v0_session s.

(** src/rtr/db/vrps.c:150-169 [handle_router_key]: one callback per AS number
    of the range; [asn] is a uint64, so the loop ends even for max = 2^32-1.
    [fuel] = number of iterations (max - min + 1); rtrhandler_handle_router_key
    does not fail (see add_router_key). *)
Fixpoint handle_router_key_loop (fuel : nat) (t : db_table) (ski spk : list Z)
  (asn max : Z) : db_table :=
  match fuel with
  | O => t
  | S f => if asn <=? max
           then handle_router_key_loop f
                  (rtrhandler_handle_router_key t ski (wrap32 asn) spk)
                  ski spk (asn + 1) max
           else t
  end.
Definition handle_router_key (t : db_table) (ski spk : list Z) (amin amax : Z) : db_table :=
  handle_router_key_loop (Z.to_nat (amax - amin + 2)) t ski spk amin amax.
