(** Model of src/types/address.c and src/types/vrp.c:28-47. *)
From Verif Require Import Base Types.

(** struct in_addr is represented by ntohl(s_addr) (the masks and comparisons
    applied to s_addr act byte by byte, so they commute with the byte swap).
    struct in6_addr is represented by its 16 bytes, s6_addr[0] first. *)

(** src/types/address.c:35-40 [u32_suffix_mask]. *)
Definition u32_suffix_mask (prefix_len : Z) : Z :=
  if prefix_len <? 32 then Z.shiftr 4294967295 prefix_len else 0.

(** Network byte order of a uint32_t. *)
Definition u32_bytes (v : Z) : list Z :=
  [ Z.shiftr v 24; Z.land (Z.shiftr v 16) 255; Z.land (Z.shiftr v 8) 255; Z.land v 255 ].

(** src/types/address.c:59-66 [addr6_get_quadrant]. *)
Definition addr6_get_quadrant (a : list Z) (q : nat) : Z :=
  let b i := nth (4 * q + i) a 0 in
  Z.lor (Z.shiftl (b 0%nat) 24) (Z.lor (Z.shiftl (b 1%nat) 16) (Z.lor (Z.shiftl (b 2%nat) 8) (b 3%nat))).

(** src/types/address.c:68-90 [V6_QUADRANT_EDIT], [addr6_set_quadrant],
    [addr6_or_quadrant]. *)
Fixpoint zip_with (f : Z -> Z -> Z) (l m : list Z) : list Z :=
  match l with
  | [] => []
  | x :: l' => match m with [] => x :: l' | y :: m' => f x y :: zip_with f l' m' end
  end.
Definition quadrant_edit (op : Z -> Z -> Z) (a : list Z) (q : nat) (value : Z) : list Z :=
  firstn (4 * q) a ++ zip_with op (skipn (4 * q) a) (u32_bytes value).
Definition addr6_set_quadrant := quadrant_edit (fun _ v => v).
Definition addr6_or_quadrant := quadrant_edit Z.lor.

(** src/types/address.c:96-106 [addr6_bitwise_and]. *)
Fixpoint addr6_bitwise_and (a b : list Z) : bool :=
  match a with
  | [] => false
  | x :: a' => match b with
               | [] => false
               | y :: b' => if negb (Z.land x y =? 0) then true else addr6_bitwise_and a' b'
               end
  end.

(** src/types/address.c:113-131 [ipv6_suffix_mask]. *)
Definition ipv6_suffix_mask (prefix_len : Z) (result : list Z) : list Z :=
  let F := 4294967295 in
  if prefix_len <? 32 then
    let r := addr6_or_quadrant result 0 (u32_suffix_mask prefix_len) in
    let r := addr6_set_quadrant r 1 F in
    let r := addr6_set_quadrant r 2 F in addr6_set_quadrant r 3 F
  else if prefix_len <? 64 then
    let r := addr6_or_quadrant result 1 (u32_suffix_mask (prefix_len - 32)) in
    let r := addr6_set_quadrant r 2 F in addr6_set_quadrant r 3 F
  else if prefix_len <? 96 then
    let r := addr6_or_quadrant result 2 (u32_suffix_mask (prefix_len - 64)) in
    addr6_set_quadrant r 3 F
  else addr6_or_quadrant result 3 (u32_suffix_mask (prefix_len - 96)).

(** asn1c BIT STRING: buf[size] and bits_unused. *)
Record bit_string := { bs_buf : list Z; bs_unused : Z }.
Definition bs_size (s : bit_string) : Z := Z.of_nat (length (bs_buf s)).

(** memset to zero, then memcpy() of the string: an address of [n] bytes. *)
Definition zero_padded (n : nat) (buf : list Z) : list Z := buf ++ repeat 0 (n - length buf).

(** ntohl() of four bytes. *)
Definition ntohl (b : list Z) : Z := addr6_get_quadrant b 0.

(** src/types/address.c:159-190 [prefix4_decode]. *)
Definition prefix4_decode (s : bit_string) : res (Z * Z) :=
  if 4 <? bs_size s then Err EINVAL
  else if (bs_unused s <? 0) || (7 <? bs_unused s) then Err EINVAL
  else
    let addr := ntohl (zero_padded 4 (bs_buf s)) in
    let len := 8 * bs_size s - bs_unused s in
    if (len <? 0) || (32 <? len) then Err EINVAL
    else if negb (Z.land addr (u32_suffix_mask len) =? 0) then Err EINVAL
    else Ok (addr, len).

(** src/types/address.c:195-229 [prefix6_decode]. *)
Definition prefix6_decode (s : bit_string) : res (list Z * Z) :=
  if 16 <? bs_size s then Err EINVAL
  else if (bs_unused s <? 0) || (7 <? bs_unused s) then Err EINVAL
  else
    let addr := zero_padded 16 (bs_buf s) in
    let len := 8 * bs_size s - bs_unused s in
    if (len <? 0) || (128 <? len) then Err EINVAL
    else if addr6_bitwise_and addr (ipv6_suffix_mask len (repeat 0 16)) then Err EINVAL
    else Ok (addr, len).

(** src/types/address.c:231-240 [check_order4]. *)
Definition check_order4 (min max : Z) : res unit :=
  if max <? min then Err EINVAL else Ok tt.

(** The masks 0x80000000 >> (32 - n): [mask_of 32] = 0x80000000, [mask_of 0] = 0. *)
Definition mask_of (n : nat) : Z := match n with O => 0 | S k => 2 ^ Z.of_nat k end.

(** src/types/address.c:258-260 (and 336-338): the second loop.
    [true]: ran to the end. *)
Fixpoint suffix_loop (n : nat) (min max : Z) : bool :=
  match n with
  | O => true
  | S k =>
      if negb (Z.land min (mask_of n) =? 0) || (Z.land max (mask_of n) =? 0)
      then false else suffix_loop k min max
  end.
(** src/types/address.c:254-256: the first loop, falling into the second. *)
Fixpoint encoding_loop4 (n : nat) (min max : Z) : bool :=
  match n with
  | O => true
  | S k =>
      if negb (Z.land min (mask_of n) =? Z.land max (mask_of n))
      then suffix_loop n min max else encoding_loop4 k min max
  end.
(** src/types/address.c:247-264 [check_encoding4]. *)
Definition check_encoding4 (min max : Z) : res unit :=
  if encoding_loop4 32 min max then Err EINVAL else Ok tt.

(** src/types/address.c:269-290 [range4_decode]. *)
Definition range4_decode (min max : bit_string) : res (Z * Z) :=
  bind (prefix4_decode min) (fun '(a, _) =>
  bind (prefix4_decode max) (fun '(b, len) =>
  let hi := Z.lor b (u32_suffix_mask len) in
  bind (check_order4 a hi) (fun _ =>
  bind (check_encoding4 a hi) (fun _ => Ok (a, hi))))).

(** src/types/address.c:292-312 [check_order6].  [n]: quadrants left. *)
Fixpoint order_loop6 (n q : nat) (min max : list Z) : res unit :=
  match n with
  | O => Ok tt
  | S n' =>
      let a := addr6_get_quadrant min q in
      let b := addr6_get_quadrant max q in
      if b <? a then Err EINVAL else if a <? b then Ok tt else order_loop6 n' (S q) min max
  end.
Definition check_order6 (min max : list Z) : res unit := order_loop6 4 0 min max.

(** src/types/address.c:321-338 [__check_encoding6]: starts at quadrant [q],
    mask [mask_of m]; [n]: quadrants left. *)
Fixpoint encoding_tail6 (n q m : nat) (min max : list Z) : bool :=
  match n with
  | O => true
  | S n' =>
      if suffix_loop m (addr6_get_quadrant min q) (addr6_get_quadrant max q)
      then encoding_tail6 n' (S q) 32 min max else false
  end.
(** src/types/address.c:349-353: the first difference in a quadrant. *)
Fixpoint first_diff (n : nat) (min max : Z) : option nat :=
  match n with
  | O => None
  | S k => if negb (Z.land min (mask_of n) =? Z.land max (mask_of n)) then Some n
           else first_diff k min max
  end.
(** src/types/address.c:340-357 [check_encoding6]. *)
Fixpoint encoding_loop6 (n q : nat) (min max : list Z) : bool :=
  match n with
  | O => true
  | S n' =>
      match first_diff 32 (addr6_get_quadrant min q) (addr6_get_quadrant max q) with
      | Some m => encoding_tail6 n q m min max
      | None => encoding_loop6 n' (S q) min max
      end
  end.
Definition check_encoding6 (min max : list Z) : res unit :=
  if encoding_loop6 4 0 min max then Err EINVAL else Ok tt.

(** src/types/address.c:362-384 [range6_decode]. *)
Definition range6_decode (min max : bit_string) : res (list Z * list Z) :=
  bind (prefix6_decode min) (fun '(a, _) =>
  bind (prefix6_decode max) (fun '(b, len) =>
  let hi := ipv6_suffix_mask len b in
  bind (check_order6 a hi) (fun _ =>
  bind (check_encoding6 a hi) (fun _ => Ok (a, hi))))).

(** src/types/address.c:462-471, 473-489 [ipv4_prefix_validate],
    [ipv6_prefix_validate]. *)
Definition ipv4_prefix_validate (addr len : Z) : res unit :=
  if negb (Z.land addr (u32_suffix_mask len) =? 0) then Err EINVAL else Ok tt.
Definition ipv6_prefix_validate (addr : list Z) (len : Z) : res unit :=
  if addr6_bitwise_and addr (ipv6_suffix_mask len (repeat 0 16)) then Err EINVAL else Ok tt.

(** src/types/address.c:490-495 [ipv4_covered]; s_addr & ~mask, 32 bits. *)
Definition ipv4_covered (f_addr f_len son_addr : Z) : bool :=
  Z.ldiff son_addr (u32_suffix_mask f_len) =? f_addr.

(** src/types/address.c:500-516 [ipv6_covered]. *)
Fixpoint covered_loop (son suffix f : list Z) : bool :=
  match son with
  | [] => true
  | x :: son' =>
      match suffix with
      | [] => false
      | m :: suffix' =>
          match f with
          | [] => false
          | y :: f' => if negb (Z.ldiff x m =? y) then false else covered_loop son' suffix' f'
          end
      end
  end.
Definition ipv6_covered (f_addr : list Z) (f_len : Z) (son_addr : list Z) : bool :=
  covered_loop son_addr (ipv6_suffix_mask f_len (repeat 0 16)) f_addr.

(** The 16 bytes of a 128-bit number (the [v_addr] of an AF_INET6 vrp). *)
Fixpoint to_bytes (n : nat) (v : Z) : list Z :=
  match n with
  | O => []
  | S k => Z.land (Z.shiftr v (8 * Z.of_nat k)) 255 :: to_bytes k v
  end.

(** src/types/vrp.c:27-44 [vrp_prefix_cov]. *)
Definition vrp_prefix_cov (a b : vrp) : bool :=
  if negb (family_eqb (v_fam a) (v_fam b)) then false
  else match v_fam a with
       | AF_INET => ipv4_covered (v_addr a) (v_len a) (v_addr b) && (v_len a <=? v_len b)
       | AF_INET6 => ipv6_covered (to_bytes 16 (v_addr a)) (v_len a) (to_bytes 16 (v_addr b))
                     && (v_len a <=? v_len b)
       end.
