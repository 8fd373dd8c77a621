(** Specification of C92: the sockets that server.address, server.port and server.backlog ask for. *)
From Verif Require Import Base CString Listen.
Notation length := List.length.

(** An element of server.address: <address>[#<port>]. *)
Inductive means (port e : list Z) : list Z -> list Z -> Prop :=
| means_address : ~ In 35 e -> means port e e port
| means_both a p : e = a ++ [35] ++ p -> ~ In 35 p -> p <> [] -> means port e a p.

(** All the addresses, given what each name resolves to. *)
Inductive addresses (o : os) (port : list Z) : list (list Z) -> list address -> Prop :=
| ads_end : addresses o port [] []
| ads_more e es a p l1 l2 : means port e a p -> o_resolve o (Some a) p = inr l1 -> addresses o port es l2 -> addresses o port (e :: es) (l1 ++ l2).
Definition wanted (o : os) (port : list Z) (es : list (list Z)) (l : list address) : Prop :=
  match es with [] => o_resolve o None port = inr l | _ => addresses o port es l end.

(** It accepts connections to [a], and poll() then accept() can't block. *)
Definition listens (backlog : Z) (a : address) (s : sock) : Prop :=
  k_bound s = Some a /\ k_family s = a_family a /\ k_backlog s = Some backlog /\ k_nonblock s = true /\ k_reuse s = true.

(** Descriptors are not those of other files. *)
Definition sane_os (o : os) : Prop := (forall l, ~ In (o_fresh o l) l /\ 0 <= o_fresh o l) /\ (forall h p e, o_resolve o h p = inl e -> e <> 0).
