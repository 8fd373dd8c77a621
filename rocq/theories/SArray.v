(** Model of src/sorted_array.c and of its three instances: src/resource/asn.c,
    src/resource/ip4.c and src/resource/ip6.c. *)
From Verif Require Import Base Address.

(** src/sorted_array.h:22-31 [enum sarray_comparison]. *)
Inductive sacmp : Set :=
| SACMP_EQUAL | SACMP_CHILD | SACMP_PARENT | SACMP_LEFT | SACMP_RIGHT
| SACMP_ADJACENT_LEFT | SACMP_ADJACENT_RIGHT | SACMP_INTERSECTION.

(** src/sorted_array.c:6-18 [struct sorted_array]. [sa_elems] are the first
    [count] elements; [sa_len] is the [len] field, which is also the number of
    slots actually allocated.  The comparison function is passed to each
    operation; reference counts are not modelled (the memory is shared, and
    never changed once shared: see Resources.v). *)
Record sarray (A : Type) := { sa_elems : list A; sa_len : Z }.
Arguments sa_elems {A} s.
Arguments sa_len {A} s.
Arguments Build_sarray {A} sa_elems sa_len.
Definition sa_count {A} (s : sarray A) : Z := Z.of_nat (length (sa_elems s)).

(** src/sorted_array.c:20-35 [sarray_create]. *)
Definition sarray_create (A : Type) : sarray A := Build_sarray [] 8.

(** src/sorted_array.h:39-45. *)
Definition EEQUAL := 7894.
Definition ECHILD2 := 7895.
Definition EPARENT := 7896.
Definition ELEFT := 7897.
Definition EADJLEFT := 7898.
Definition EADJRIGHT := 7899.
Definition EINTERSECTION := 7900.

(** src/sorted_array.c:65-94 [compare]. *)
Definition compare {A} (cmp : A -> A -> sacmp) (s : sarray A) (new : A) : res Z :=
  if sa_count s =? 0 then Ok 0
  else match nth_error (sa_elems s) (Z.to_nat (wrap32 (sa_count s - 1))) with
       | None => UB
       | Some e => Ok (match cmp e new with
                       | SACMP_EQUAL => - EEQUAL
                       | SACMP_CHILD => - ECHILD2
                       | SACMP_PARENT => - EPARENT
                       | SACMP_LEFT => - ELEFT
                       | SACMP_RIGHT => 0
                       | SACMP_ADJACENT_LEFT => - EADJLEFT
                       | SACMP_ADJACENT_RIGHT => - EADJRIGHT
                       | SACMP_INTERSECTION => - EINTERSECTION
                       end)
       end.

(** src/sorted_array.c:96-114 [sarray_add].  Returns the new state and the int
    result.  [2 * len] is computed in unsigned int.  A failing realloc() is not
    modelled. Writing past the allocation is [UB]. *)
Definition sarray_add {A} (cmp : A -> A -> sacmp) (s : sarray A) (e : A) : res (sarray A * Z) :=
  bind (compare cmp s e) (fun error =>
  if negb (error =? 0) then Ok (s, error)
  else
    let len := if sa_len s <=? sa_count s then wrap32 (2 * sa_len s) else sa_len s in
    if sa_count s <? len then Ok (Build_sarray (sa_elems s ++ [e]) len, 0)
    else UB).

(** src/sorted_array.c:116-120 [sarray_empty]. *)
Definition sarray_empty {A} (s : option (sarray A)) : bool :=
  match s with
  | None => true
  | Some s => sa_count s =? 0
  end.

(** src/sorted_array.c:134-159: the loop of [sarray_contains].  [fuel] bounds
    the iterations; running out of it is reported as [UB] (C20 shows it does
    not happen). *)
Fixpoint contains_loop {A} (cmp : A -> A -> sacmp) (s : sarray A) (elem : A)
    (fuel : nat) (left right : Z) : res bool :=
  match fuel with
  | O => UB
  | S fuel' =>
      if left <=? right then
        let mid := wrap32 (left + wrap32 (right - left) / 2) in
        match nth_error (sa_elems s) (Z.to_nat mid) with
        | None => UB
        | Some x =>
            match cmp x elem with
            | SACMP_LEFT | SACMP_ADJACENT_LEFT =>
                if mid =? 0 then Ok false
                else contains_loop cmp s elem fuel' left (wrap32 (mid - 1))
            | SACMP_RIGHT | SACMP_ADJACENT_RIGHT =>
                if mid =? wrap32 (sa_count s - 1) then Ok false
                else contains_loop cmp s elem fuel' (wrap32 (mid + 1)) right
            | SACMP_EQUAL | SACMP_CHILD => Ok true
            | SACMP_PARENT | SACMP_INTERSECTION => Ok false
            end
        end
      else Ok false
  end.

(** src/sorted_array.c:122-162 [sarray_contains]. *)
Definition sarray_contains {A} (cmp : A -> A -> sacmp) (s : option (sarray A)) (elem : A) : res bool :=
  match s with
  | None => Ok false
  | Some s =>
      if sa_count s =? 0 then Ok false
      else contains_loop cmp s elem (S (length (sa_elems s))) 0 (wrap32 (sa_count s - 1))
  end.

(** src/resource/asn.c:10-34 [asn_cmp] and src/resource/ip4.c:10-34 [r4_cmp]:
    the two functions are the same text over uint32_t min, max. *)
Definition u32_range_cmp (a b : Z * Z) : sacmp :=
  let '(n1min, n1max) := a in
  let '(n2min, n2max) := b in
  if (n1min =? n2min) && (n1max =? n2max) then SACMP_EQUAL
  else if (n1min <=? n2min) && (n2max <=? n1max) then SACMP_CHILD
  else if (n2min <=? n1min) && (n1max <=? n2max) then SACMP_PARENT
  else if negb (n2min =? 0) && (n1max =? wrap32 (n2min - 1)) then SACMP_ADJACENT_RIGHT
  else if n1max <? n2min then SACMP_RIGHT
  else if negb (n1min =? 0) && (n2max =? wrap32 (n1min - 1)) then SACMP_ADJACENT_LEFT
  else if n2max <? n1min then SACMP_LEFT
  else SACMP_INTERSECTION.
Definition asn_cmp := u32_range_cmp.
Definition r4_cmp := u32_range_cmp.

(** memcmp() of two byte strings of the same length: sign only. *)
Fixpoint memcmp (a b : list Z) : Z :=
  match a, b with
  | x :: a', y :: b' => if x =? y then memcmp a' b' else if x <? y then -1 else 1
  | _, _ => 0
  end.

(** src/resource/ip6.c:5-10 [addr_cmp], 13-17 [addr_equals], 20-24 [addr_le],
    27-31 [addr_lt]. *)
Definition addr_cmp := memcmp.
Definition addr_equals (a b : list Z) : bool := addr_cmp a b =? 0.
Definition addr_le (a b : list Z) : bool := addr_cmp a b <=? 0.
Definition addr_lt (a b : list Z) : bool := addr_cmp a b <? 0.

(** src/resource/ip6.c:41-47: the increment loop, from byte [i - 1] down to 0;
    [None]: overflowed. *)
Fixpoint increment (i : nat) (a : list Z) : option (list Z) :=
  match i with
  | O => None
  | S k =>
      if negb (nth k a 0 =? 255) then Some (upd a k (nth k a 0 + 1))
      else increment k (upd a k 0)
  end.

(** src/resource/ip6.c:34-50 [addr_is_successor]. *)
Definition addr_is_successor (a b : list Z) : bool :=
  match increment 16 a with
  | Some a1 => memcmp a1 b =? 0
  | None => false
  end.

(** src/resource/ip6.c:52-76 [r6_cmp]. *)
Definition r6_cmp (a b : list Z * list Z) : sacmp :=
  let '(a1min, a1max) := a in
  let '(a2min, a2max) := b in
  if addr_equals a1min a2min && addr_equals a1max a2max then SACMP_EQUAL
  else if addr_le a1min a2min && addr_le a2max a1max then SACMP_CHILD
  else if addr_le a2min a1min && addr_le a1max a2max then SACMP_PARENT
  else if addr_is_successor a1max a2min then SACMP_ADJACENT_RIGHT
  else if addr_lt a1max a2min then SACMP_RIGHT
  else if addr_is_successor a2max a1min then SACMP_ADJACENT_LEFT
  else if addr_lt a2max a1min then SACMP_LEFT
  else SACMP_INTERSECTION.

(** src/resource/asn.c:36-41, 55-59, 61-65, 67-71 [rasn_create], [rasn_add],
    [rasn_empty], [rasn_contains]. *)
Definition resources_asn := sarray (Z * Z).
Definition rasn_create : resources_asn := sarray_create (Z * Z).
Definition rasn_add (s : resources_asn) (r : Z * Z) := sarray_add asn_cmp s r.
Definition rasn_empty (s : option resources_asn) := sarray_empty s.
Definition rasn_contains (s : option resources_asn) (r : Z * Z) := sarray_contains asn_cmp s r.

(** src/resource/ip4.c:36-41 [pton], 43-48 [rton]. *)
Definition pton (p : Z * Z) : Z * Z := let '(addr, len) := p in (addr, Z.lor addr (u32_suffix_mask len)).
Definition rton (r : Z * Z) : Z * Z := r.
(** src/resource/ip4.c:50-55, 69-75, 77-83, 85-89, 91-102, 104-110. *)
Definition resources_ipv4 := sarray (Z * Z).
Definition res4_create : resources_ipv4 := sarray_create (Z * Z).
Definition res4_add_prefix (s : resources_ipv4) (p : Z * Z) := sarray_add r4_cmp s (pton p).
Definition res4_add_range (s : resources_ipv4) (r : Z * Z) := sarray_add r4_cmp s (rton r).
Definition res4_empty (s : option resources_ipv4) := sarray_empty s.
Definition res4_contains_prefix (s : option resources_ipv4) (p : Z * Z) : res bool :=
  match s with
  | None => Ok false
  | Some _ => sarray_contains r4_cmp s (pton p)
  end.
Definition res4_contains_range (s : option resources_ipv4) (r : Z * Z) := sarray_contains r4_cmp s (rton r).

(** src/resource/ip6.c:78-84 [ptor]. *)
Definition ptor (p : list Z * Z) : list Z * list Z :=
  let '(addr, len) := p in (addr, ipv6_suffix_mask len addr).
(** src/resource/ip6.c:86-91, 105-111, 113-117, 119-123, 125-132, 134-138. *)
Definition resources_ipv6 := sarray (list Z * list Z).
Definition res6_create : resources_ipv6 := sarray_create (list Z * list Z).
Definition res6_add_prefix (s : resources_ipv6) (p : list Z * Z) := sarray_add r6_cmp s (ptor p).
Definition res6_add_range (s : resources_ipv6) (r : list Z * list Z) := sarray_add r6_cmp s r.
Definition res6_empty (s : option resources_ipv6) := sarray_empty s.
Definition res6_contains_prefix (s : option resources_ipv6) (p : list Z * Z) := sarray_contains r6_cmp s (ptor p).
Definition res6_contains_range (s : option resources_ipv6) (r : list Z * list Z) := sarray_contains r6_cmp s r.
