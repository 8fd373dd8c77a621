(** Which certificates have acceptable resources (C21, C69): RFC 3779, RFC 6487
    4.8.10 and 4.8.11, RFC 8360; as far as FORT goes along. *)
From Verif Require Import Base PduWireSpec Address AddressSpec SArray SArraySpec Asn1 Resources ResourcesSpec.

(** One family of IP addresses.  [parent]: what the issuer holds of it ([None]:
    there is no issuer); [force]: the certificate is obliged to inherit.  (RFC
    8360 would not mind claims while the issuer holds nothing.) *)
Definition ip_choice_acceptable (claims : aor -> Z * Z -> Prop) (p : policy) (force : bool)
    (parent : option (list (Z * Z))) (c : ip_choice) : Prop :=
  match c with
  | IPC_nothing => False
  | IPC_inherit => parent <> None
  | IPC_aors l => force = false /\ parent <> Some [] /\ exists held, granted claims p parent l held
  end.

(** IPAddrBlocks: IPv4, IPv6, or both in that order. *)
Definition ip_acceptable (p : policy) (force : bool) (p4 p6 : option (list (Z * Z))) (bl : list ip_family) : Prop :=
  (exists c, bl = [{| f_family := [0; 1]; f_choice := c |}] /\ ip_choice_acceptable claims4 p force p4 c) \/
  (exists c, bl = [{| f_family := [0; 2]; f_choice := c |}] /\ ip_choice_acceptable claims6 p force p6 c) \/
  (exists c c', bl = [{| f_family := [0; 1]; f_choice := c |}; {| f_family := [0; 2]; f_choice := c' |}] /\
     ip_choice_acceptable claims4 p force p4 c /\ ip_choice_acceptable claims6 p force p6 c').

(** ASIdentifiers: asnum and no rdi; a router certificate does not inherit. *)
Definition as_acceptable (p : policy) (force router : bool) (pa : option (list (Z * Z))) (ids : as_ids) : Prop :=
  as_rdi ids = false /\
  match as_num ids with
  | None | Some ASC_nothing => False
  | Some ASC_inherit => router = false /\ pa <> None
  | Some (ASC_iors l) => force = false /\ pa <> Some [] /\ exists held, granted claimsA p pa l held
  end.

Definition is_resource (e : extension) : bool := match e with ExtOther => false | _ => true end.

(** The certificate: one or both extensions, once, critical, of the kind its
    policy calls for. *)
Definition acceptable (p : policy) (force router : bool) (p4 p6 pa : option (list (Z * Z))) (exts : list extension) : Prop :=
  match filter is_resource exts with
  | [ExtIP v true (Some bl)] => v = p /\ ip_acceptable p force p4 p6 bl
  | [ExtAS v true (Some ids)] => v = p /\ as_acceptable p force router pa ids
  | [ExtIP v true (Some bl); ExtAS v' true (Some ids)]
  | [ExtAS v' true (Some ids); ExtIP v true (Some bl)] =>
      v = p /\ v' = p /\ ip_acceptable p force p4 p6 bl /\ as_acceptable p force router pa ids
  | _ => False
  end.

(** No AS number is negative (C52: the code misreads those). *)
Definition all_nonnegative (ids : as_ids) : Prop :=
  match as_num ids with Some (ASC_iors l) => Forall nonnegative l | _ => True end.
Definition ext_nonnegative (e : extension) : Prop :=
  match e with ExtAS _ _ (Some ids) => all_nonnegative ids | _ => True end.
