(** Payload types: src/types/vrp.h, src/types/router_key.h, src/types/delta.h. *)
From Verif Require Import Base.

(** addr_fam.  Every VRP in the program is created with AF_INET or AF_INET6
    (src/rtr/db/db_table.c:185-214, src/slurm/slurm_parser.c), so the
    "unknown family" pr_crit() branches are unreachable by construction. *)
Inductive family : Set := AF_INET | AF_INET6.

Definition family_eqb (a b : family) : bool :=
  match a, b with
  | AF_INET, AF_INET | AF_INET6, AF_INET6 => true
  | _, _ => false
  end.

(** src/types/vrp.h:17-26 [struct vrp].  The address is a number: 32 bits for
    AF_INET, 128 bits for AF_INET6 (most significant byte first).
    Simplification: the union's unused bytes and padding are not modelled (they
    are zeroed by pzalloc wherever a vrp is used as a hash key). *)
Record vrp := {
  v_asn : Z;
  v_addr : Z;
  v_len : Z;
  v_max : Z;
  v_fam : family;
}.

(** src/types/vrp.c:6-24 [vrp_equals]. *)
Definition vrp_equals (a b : vrp) : bool :=
  if negb (family_eqb (v_fam a) (v_fam b)) || negb (v_asn a =? v_asn b)
     || negb (v_len a =? v_len b) || negb (v_max a =? v_max b)
  then false
  else v_addr a =? v_addr b.

(** src/types/router_key.h:27-33 [struct router_key]: 20-byte SKI, AS, 91-byte
    SPKI, as byte lists. *)
Record router_key := {
  rk_ski : list Z;
  rk_asn : Z;
  rk_spk : list Z;
}.

(** The comparison of src/rtr/db/vrps.c:353-357 (memcmp of both arrays). *)
Definition rk_equals (a b : router_key) : bool :=
  (rk_asn a =? rk_asn b) && list_eqb Z.eqb (rk_ski a) (rk_ski b)
  && list_eqb Z.eqb (rk_spk a) (rk_spk b).

(** src/types/delta.h:7-8 FLAG_WITHDRAWAL, FLAG_ANNOUNCEMENT. *)
Inductive flag : Set := WITHDRAWAL | ANNOUNCEMENT.

Definition flag_eqb (a b : flag) : bool :=
  match a, b with
  | WITHDRAWAL, WITHDRAWAL | ANNOUNCEMENT, ANNOUNCEMENT => true
  | _, _ => false
  end.
