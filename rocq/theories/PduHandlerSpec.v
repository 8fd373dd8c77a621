(** Specification vocabulary for the RTR responses (C08-C10, C15, C50). *)
From Verif Require Import Base Types DbTable Vrps PduWire PduWireSpec PduHandler.

(** The type octet says End of Data. *)
Definition is_end_of_data (b : list Z) : Prop := nth_error b 1 = Some 7.

(** The PDU was handed to the socket without an error being reported. *)
Definition handed_over (x : list Z * send_outcome) : Prop :=
  match snd x with SendFails _ => False | _ => True end.

(** A socket on which every write succeeds completely, and which has not
    transmitted anything yet. *)
Definition fresh_socket : socket := {| sk_wire := []; sk_log := []; sk_oracle := [] |}.

(** The payload PDUs for delta (or base) streams: version 0 has no router
    keys. *)
Definition payload (version : Z) (vs : list (flag * vrp)) (ks : list (flag * router_key))
  : list rtr_pdu :=
  map (fun d => PPrefix (fst d) (snd d)) vs ++
  (if version =? 1 then map (fun d => PRouterKey (fst d) (snd d)) ks else []).

(** The VRP and router key events a router extracts from received PDUs. *)
Definition vrp_events (ps : list rtr_pdu) : list (flag * vrp) :=
  flat_map (fun p => match p with PPrefix f v => [(f, v)] | _ => [] end) ps.
Definition rk_events (ps : list rtr_pdu) : list (flag * router_key) :=
  flat_map (fun p => match p with PRouterKey f k => [(f, k)] | _ => [] end) ps.

(** Data whose fields fit the wire fields (what the C types enforce). *)
Definition table_in_range (t : db_table) : Prop :=
  Forall vrp_in_range (t_roas t) /\ Forall rk_in_range (t_rks t).
Definition cycle_in_range (c : cycle) : Prop :=
  match c with Validated t => table_in_range t | _ => True end.
Definition intervals_in_range (iv : intervals) : Prop :=
  is_u32 (i_refresh iv) /\ is_u32 (i_retry iv) /\ is_u32 (i_expire iv).
Definition timers (version : Z) (iv : intervals) : option (Z * Z * Z) :=
  if version =? 1 then Some (i_refresh iv, i_retry iv, i_expire iv) else None.
