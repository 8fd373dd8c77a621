(** Specification vocabulary for resource sets (C20): a resource is a range of
    numbers, a resource set a list of ranges. *)
From Verif Require Import Base PduWireSpec Address AddressSpec.

(** A non-empty range of numbers below [N]. *)
Definition range_ok (N : Z) (r : Z * Z) : Prop := 0 <= fst r <= snd r /\ snd r < N.

(** [x] belongs to one of the ranges. *)
Definition covered (l : list (Z * Z)) (x : Z) : Prop :=
  exists r, In r l /\ fst r <= x <= snd r.

(** RFC 3779 2.2.3.6 / 3.2.3.4: sorted, disjoint, and not even adjacent. *)
Fixpoint sorted_with_gaps (l : list (Z * Z)) : Prop :=
  match l with
  | [] => True
  | r :: l' => fst r <= snd r /\ Forall (fun r' => snd r + 1 < fst r') l' /\ sorted_with_gaps l'
  end.

(** What may follow the ranges [l]. *)
Definition may_follow (l : list (Z * Z)) (r : Z * Z) : Prop :=
  forall r', In r' l -> snd r' + 1 < fst r.

(** The ranges kept from a history of additions: each addition takes effect iff
    it may follow the ones kept so far. *)
Inductive kept : list (Z * Z) -> list (Z * Z) -> Prop :=
| kept_nil : kept [] []
| kept_yes ops l r : kept ops l -> may_follow l r -> kept (ops ++ [r]) (l ++ [r])
| kept_no ops l r : kept ops l -> ~ may_follow l r -> kept (ops ++ [r]) l.

(** IPv6 addresses: 16 bytes, most significant first. *)
Definition addr6_ok (a : list Z) : Prop := length a = 16%nat /\ Forall is_byte a.
Definition range6_ok (r : list Z * list Z) : Prop :=
  addr6_ok (fst r) /\ addr6_ok (snd r) /\ be (fst r) <= be (snd r).
Definition num6 (r : list Z * list Z) : Z * Z := (be (fst r), be (snd r)).

(** A prefix without host bits, and its addresses as a range. *)
Definition prefix_ok (W addr len : Z) : Prop :=
  0 <= len <= W /\ 0 <= addr < 2 ^ W /\ addr mod 2 ^ (W - len) = 0.
Definition prefix_range (W addr len : Z) : Z * Z := (addr, addr + 2 ^ (W - len) - 1).

(** A history of additions, rejected ones included.  [step] returns the new
    state and a return code. *)
Definition run_history {S Op : Type} (step : S -> Op -> res (S * Z)) (s0 : S) (ops : list Op) : res S :=
  fold_left (fun r o => bind r (fun s => bind (step s o) (fun p => Ok (fst p)))) ops (Ok s0).

(** Additions of IP resources come as prefixes or as ranges. *)
Inductive op4 := Prefix4 (addr len : Z) | Range4 (min max : Z).
Inductive op6 := Prefix6 (addr : list Z) (len : Z) | Range6 (min max : list Z).
Definition op4_ok (o : op4) : Prop :=
  match o with
  | Prefix4 a l => prefix_ok 32 a l
  | Range4 a b => range_ok (2 ^ 32) (a, b)
  end.
Definition op4_range (o : op4) : Z * Z :=
  match o with
  | Prefix4 a l => prefix_range 32 a l
  | Range4 a b => (a, b)
  end.
Definition op6_ok (o : op6) : Prop :=
  match o with
  | Prefix6 a l => addr6_ok a /\ prefix_ok 128 (be a) l
  | Range6 a b => range6_ok (a, b)
  end.
Definition op6_range (o : op6) : Z * Z :=
  match o with
  | Prefix6 a l => prefix_range 128 (be a) l
  | Range6 a b => (be a, be b)
  end.
