(** Model of src/rtr/db/db_table.c and src/rtr/db/delta.c. *)
From Verif Require Import Base Types HashSet.

(** src/rtr/db/db_table.c:19-22 [struct db_table]. *)
Record db_table := {
  t_roas : list vrp;
  t_rks : list router_key;
}.

(** src/rtr/db/db_table.c:24-34 [db_table_create]. *)
Definition db_table_create : db_table := {| t_roas := []; t_rks := [] |}.

(** src/rtr/db/db_table.c:58-76 [add_roa] (HASH_REPLACE; the out-of-memory
    branch is not modelled: uthash's allocator aborts, src/alloc.c). *)
Definition add_roa (t : db_table) (v : vrp) : db_table :=
  {| t_roas := hs_add vrp_equals (t_roas t) v; t_rks := t_rks t |}.

(** src/rtr/db/db_table.c:78-96 [add_router_key]. *)
Definition add_router_key (t : db_table) (k : router_key) : db_table :=
  {| t_roas := t_roas t; t_rks := hs_add rk_equals (t_rks t) k |}.

(** src/rtr/db/db_table.c:99-121 [db_table_join]: moves every node of [src]
    into [dst]. *)
Definition db_table_join (dst src : db_table) : db_table :=
  fold_left add_router_key (t_rks src) (fold_left add_roa (t_roas src) dst).

(** src/rtr/db/db_table.c:166-176 [db_table_remove_roa]. *)
Definition db_table_remove_roa (t : db_table) (v : vrp) : db_table :=
  {| t_roas := hs_del vrp_equals v (t_roas t); t_rks := t_rks t |}.

(** src/rtr/db/db_table.c:178-189 [db_table_remove_router_key]. *)
Definition db_table_remove_router_key (t : db_table) (k : router_key) : db_table :=
  {| t_roas := t_roas t; t_rks := hs_del rk_equals k (t_rks t) |}.

(** src/rtr/db/db_table.c:189-203, 205-219 [rtrhandler_handle_roa_v4/v6]. *)
Definition rtrhandler_handle_roa_v4 (t : db_table) (asn addr len maxlen : Z) : db_table :=
  add_roa t {| v_asn := asn; v_addr := addr; v_len := len; v_max := maxlen;
               v_fam := AF_INET |}.
Definition rtrhandler_handle_roa_v6 (t : db_table) (asn addr len maxlen : Z) : db_table :=
  add_roa t {| v_asn := asn; v_addr := addr; v_len := len; v_max := maxlen;
               v_fam := AF_INET6 |}.

(** src/rtr/db/db_table.c:221-237 [rtrhandler_handle_router_key]. *)
Definition rtrhandler_handle_router_key (t : db_table) (ski : list Z) (asn : Z)
  (spk : list Z) : db_table :=
  add_router_key t {| rk_ski := ski; rk_asn := asn; rk_spk := spk |}.

(** src/rtr/db/delta.c:31-46 [struct deltas]: six lists.  The v4/v6 lists keep
    whole [vrp]s whose family is implied by the list (the C structs drop the
    addr_fam field and __foreach_v4/6 put it back). *)
Record deltas := {
  d4_adds : list vrp; d4_removes : list vrp;
  d6_adds : list vrp; d6_removes : list vrp;
  dk_adds : list router_key; dk_removes : list router_key;
}.

(** src/rtr/db/delta.c:48-64 [deltas_create]. *)
Definition deltas_create : deltas :=
  {| d4_adds := []; d4_removes := []; d6_adds := []; d6_removes := [];
     dk_adds := []; dk_removes := [] |}.

(** src/rtr/db/delta.c:118-155 [deltas_add_roa] with get_deltas_array4/6
    (:91-119). *)
Definition deltas_add_roa (op : flag) (d : deltas) (v : vrp) : deltas :=
  match v_fam v, op with
  | AF_INET, ANNOUNCEMENT =>
      {| d4_adds := d4_adds d ++ [v]; d4_removes := d4_removes d;
         d6_adds := d6_adds d; d6_removes := d6_removes d;
         dk_adds := dk_adds d; dk_removes := dk_removes d |}
  | AF_INET, WITHDRAWAL =>
      {| d4_adds := d4_adds d; d4_removes := d4_removes d ++ [v];
         d6_adds := d6_adds d; d6_removes := d6_removes d;
         dk_adds := dk_adds d; dk_removes := dk_removes d |}
  | AF_INET6, ANNOUNCEMENT =>
      {| d4_adds := d4_adds d; d4_removes := d4_removes d;
         d6_adds := d6_adds d ++ [v]; d6_removes := d6_removes d;
         dk_adds := dk_adds d; dk_removes := dk_removes d |}
  | AF_INET6, WITHDRAWAL =>
      {| d4_adds := d4_adds d; d4_removes := d4_removes d;
         d6_adds := d6_adds d; d6_removes := d6_removes d ++ [v];
         dk_adds := dk_adds d; dk_removes := dk_removes d |}
  end.

(** src/rtr/db/delta.c:157-177 [deltas_add_router_key]. *)
Definition deltas_add_router_key (op : flag) (d : deltas) (k : router_key) : deltas :=
  match op with
  | ANNOUNCEMENT =>
      {| d4_adds := d4_adds d; d4_removes := d4_removes d;
         d6_adds := d6_adds d; d6_removes := d6_removes d;
         dk_adds := dk_adds d ++ [k]; dk_removes := dk_removes d |}
  | WITHDRAWAL =>
      {| d4_adds := d4_adds d; d4_removes := d4_removes d;
         d6_adds := d6_adds d; d6_removes := d6_removes d;
         dk_adds := dk_adds d; dk_removes := dk_removes d ++ [k] |}
  end.

(** src/rtr/db/delta.c:179-188 [deltas_is_empty]. *)
Definition deltas_is_empty (d : deltas) : bool :=
  match d with
  | {| d4_adds := []; d4_removes := []; d6_adds := []; d6_removes := [];
       dk_adds := []; dk_removes := [] |} => true
  | _ => false
  end.

(** src/rtr/db/db_table.c:244-266 [add_roa_deltas]: copies roas1 - roas2. *)
Definition add_roa_deltas (roas1 roas2 : list vrp) (d : deltas) (op : flag) : deltas :=
  fold_left (fun d n1 => if hs_mem vrp_equals n1 roas2 then d
                         else deltas_add_roa op d n1) roas1 d.

(** src/rtr/db/db_table.c:279-291 [add_router_key_deltas]. *)
Definition add_router_key_deltas (keys1 keys2 : list router_key) (d : deltas)
  (op : flag) : deltas :=
  fold_left (fun d n1 => if hs_mem rk_equals n1 keys2 then d
                         else deltas_add_router_key op d n1) keys1 d.

(** src/rtr/db/db_table.c:293-311 [compute_deltas]; [None] is NULL. *)
Definition compute_deltas (old new : db_table) : option deltas :=
  let d := deltas_create in
  let d := add_roa_deltas (t_roas new) (t_roas old) d ANNOUNCEMENT in
  let d := add_roa_deltas (t_roas old) (t_roas new) d WITHDRAWAL in
  let d := add_router_key_deltas (t_rks new) (t_rks old) d ANNOUNCEMENT in
  let d := add_router_key_deltas (t_rks old) (t_rks new) d WITHDRAWAL in
  if deltas_is_empty d then None else Some d.

(** src/rtr/db/delta.c:190-287 [__foreach_v4], [__foreach_v6], [__foreach_rk],
    [deltas_foreach]: the order in which the callbacks see the elements. VRP
    callbacks and router-key callbacks act on different lists, so the two
    streams are given separately. *)
Definition tag {A} (f : flag) (l : list A) : list (flag * A) := map (fun x => (f, x)) l.
Definition deltas_vrps (d : deltas) : list (flag * vrp) :=
  tag ANNOUNCEMENT (d4_adds d) ++ tag WITHDRAWAL (d4_removes d) ++
  tag ANNOUNCEMENT (d6_adds d) ++ tag WITHDRAWAL (d6_removes d).
Definition deltas_rks (d : deltas) : list (flag * router_key) :=
  tag ANNOUNCEMENT (dk_adds d) ++ tag WITHDRAWAL (dk_removes d).
