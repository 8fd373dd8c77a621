(** Specification vocabulary for certificate resources (C21, C52): what a
    certificate claims, and what it holds. *)
From Verif Require Import Base PduWireSpec Address AddressSpec SArray SArraySpec Asn1 Resources.

(** ** ASN.1 INTEGERs (X.690 8.3: two's complement) *)
Definition integer_value (b : list Z) : Z :=
  match b with
  | [] => 0
  | x :: _ => if x <? 128 then be b else be b - 256 ^ Z.of_nat (length b)
  end.
(** (No octets at all, which X.690 forbids but the decoder lets through, are zero.) *)
Definition integer_ok (b : list Z) : Prop := Forall is_byte b.

(** ** What a resource list says *)
Definition claims4 (a : aor) (r : Z * Z) : Prop :=
  match a with
  | AOR_prefix s => exists addr len, denotes 32 s addr len /\ r = prefix_range 32 addr len
  | AOR_range lo hi =>
      range_denotes 32 lo hi (fst r) (snd r) /\ fst r <= snd r /\ ~ is_one_prefix 32 (fst r) (snd r)
  | AOR_nothing => False
  end.
Definition claims6 (a : aor) (r : Z * Z) : Prop :=
  match a with
  | AOR_prefix s => exists addr len, denotes 128 s addr len /\ r = prefix_range 128 addr len
  | AOR_range lo hi =>
      range_denotes 128 lo hi (fst r) (snd r) /\ fst r <= snd r /\ ~ is_one_prefix 128 (fst r) (snd r)
  | AOR_nothing => False
  end.
Definition claimsA (a : asior) (r : Z * Z) : Prop :=
  match a with
  | ASI_id i => r = (integer_value i, integer_value i) /\ integer_value i < 2 ^ 32
  | ASI_range lo hi => r = (integer_value lo, integer_value hi) /\
                       integer_value lo <= integer_value hi < 2 ^ 32
  | ASI_nothing => False
  end.

(** Well-formed decoder output: bytes, and lists counted by an int. *)
Definition aor_ok (a : aor) : Prop :=
  match a with
  | AOR_prefix s => bit_string_ok s
  | AOR_range lo hi => bit_string_ok lo /\ bit_string_ok hi
  | AOR_nothing => True
  end.
Definition asior_ok (a : asior) : Prop :=
  match a with
  | ASI_id i => integer_ok i
  | ASI_range lo hi => integer_ok lo /\ integer_ok hi
  | ASI_nothing => True
  end.
Definition aors_ok (l : list aor) : Prop := Forall aor_ok l /\ Z.of_nat (length l) < 2 ^ 31.
Definition asiors_ok (l : list asior) : Prop := Forall asior_ok l /\ Z.of_nat (length l) < 2 ^ 31.
Definition family_ok (f : ip_family) : Prop :=
  match f_choice f with IPC_aors l => aors_ok l | _ => True end.
Definition as_ids_ok (i : as_ids) : Prop :=
  match as_num i with Some (ASC_iors l) => asiors_ok l | _ => True end.
Definition extension_ok (e : extension) : Prop :=
  match e with
  | ExtIP _ _ (Some l) => Forall family_ok l
  | ExtAS _ _ (Some i) => as_ids_ok i
  | _ => True
  end.
Definition op_ok (o : stack_op) : Prop :=
  match o with
  | OpPush _ _ exts | OpEE _ _ exts => Forall extension_ok exts
  | OpPop => True
  end.
Definition nonnegative (a : asior) : Prop :=
  match a with
  | ASI_id i => 0 <= integer_value i
  | ASI_range lo hi => 0 <= integer_value lo /\ 0 <= integer_value hi
  | ASI_nothing => True
  end.

(** ** What a certificate holds: ranges of numbers *)
Definition content {A} (num : A -> Z * Z) (cells : list (sarray A)) (p : ptr) : list (Z * Z) :=
  match p with
  | None => []
  | Some i => match nth_error cells i with
              | Some s => map num (sa_elems s)
              | None => []
              end
  end.
Definition holds4 (h : heap) (r : resources) : list (Z * Z) := content (fun x => x) (h4 h) (r_ip4s r).
Definition holds6 (h : heap) (r : resources) : list (Z * Z) :=
  content (fun x => (be (fst x), be (snd x))) (h6 h) (r_ip6s r).
Definition holdsA (h : heap) (r : resources) : list (Z * Z) := content (fun x => x) (ha h) (r_asns r).

(** Every number of the range [r] belongs to the set [l]. *)
Definition inside (l : list (Z * Z)) (r : Z * Z) : Prop :=
  forall x, fst r <= x <= snd r -> covered l x.
Definition included (l m : list (Z * Z)) : Prop := forall x, covered l x -> covered m x.

(** States of the certificate stack reachable from the empty one. *)
Definition empty_heap : heap := {| h4 := []; h6 := []; ha := [] |}.
Inductive reachable : heap * list resources -> Prop :=
| reach_init : reachable (empty_heap, [])
| reach_step s o s' : reachable s -> op_ok o -> stack_step s o = Ok s' -> reachable s'.

(** [selected P l m]: [m] is what remains of [l] after dropping whatever is not in [P]. *)
Inductive selected (P : Z * Z -> Prop) : list (Z * Z) -> list (Z * Z) -> Prop :=
| sel_nil : selected P [] []
| sel_keep x l m : P x -> selected P l m -> selected P (x :: l) (x :: m)
| sel_drop x l m : ~ P x -> selected P l m -> selected P (x :: l) m.

(** The IPAddressFamily of AFI [afi] (1: IPv4, 2: IPv6), and the asnum, that a
    certificate's extensions contain. *)
Definition ip_block (afi : Z) (exts : list extension) (b : ip_family) : Prop :=
  exists v c bl, In (ExtIP v c (Some bl)) exts /\ In b bl /\ f_family b = [0; afi].
Definition as_block (exts : list extension) (c : as_choice) : Prop :=
  exists v cr ids, In (ExtAS v cr (Some ids)) exts /\ as_num ids = Some c.

(** The claims [l] of a certificate, given what its parent holds ([None]: there
    is no parent), lead to its holding [held]. *)
Definition granted {I} (claims : I -> Z * Z -> Prop) (p : policy) (parent : option (list (Z * Z)))
    (l : list I) (held : list (Z * Z)) : Prop :=
  l <> [] /\
  exists rs, Forall2 claims l rs /\
    let allowed r := match parent with Some m => inside m r | None => True end in
    (p = RFC6484 -> Forall allowed rs) /\
    selected allowed rs held /\
    sorted_with_gaps held.

(** Something in the extension is marked "inherit". *)
Definition inherits (e : extension) : Prop :=
  match e with
  | ExtIP _ _ (Some l) => exists b, In b l /\ f_choice b = IPC_inherit
  | ExtAS _ _ (Some i) => as_num i = Some ASC_inherit
  | _ => False
  end.
