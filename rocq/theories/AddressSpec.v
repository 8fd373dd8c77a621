(** Specification vocabulary for addresses (C17-C19): addresses are numbers of
    [W] bits, prefixes are sets of numbers. *)
From Verif Require Import Base Types PduWireSpec Address.

(** [x] belongs to the prefix addr/len of a [W]-bit family. *)
Definition in_prefix (W addr len x : Z) : Prop :=
  0 <= x < 2 ^ W /\ x / 2 ^ (W - len) = addr / 2 ^ (W - len).

(** RFC 3779 2.1.1-2.2.3.8: a BIT STRING denotes the prefix addr/len iff its
    bits are the [len] leading bits of [addr], the others being zero. *)
Definition denotes (W : Z) (s : bit_string) (addr len : Z) : Prop :=
  8 * Z.of_nat (length (bs_buf s)) <= W /\
  0 <= bs_unused s <= 7 /\
  len = 8 * Z.of_nat (length (bs_buf s)) - bs_unused s /\ 0 <= len /\
  addr = be (bs_buf s) * 2 ^ (W - 8 * Z.of_nat (length (bs_buf s))) /\
  addr mod 2 ^ (W - len) = 0.

(** RFC 3779 2.1.2: lower bound padded with zeros, upper bound with ones. *)
Definition range_denotes (W : Z) (lo hi : bit_string) (min max : Z) : Prop :=
  exists la b lb, denotes W lo min la /\ denotes W hi b lb /\ max = b + 2 ^ (W - lb) - 1.

(** [min, max] is exactly the set of addresses of one prefix. *)
Definition is_one_prefix (W min max : Z) : Prop :=
  exists addr len, 0 <= len <= W /\ forall x, min <= x <= max <-> in_prefix W addr len x.

Definition bit_string_ok (s : bit_string) : Prop := Forall is_byte (bs_buf s).
Definition width (f : family) : Z := match f with AF_INET => 32 | AF_INET6 => 128 end.

(** No host bit set. *)
Definition canonical (v : vrp) : Prop :=
  0 <= v_len v <= width (v_fam v) /\ 0 <= v_addr v < 2 ^ width (v_fam v) /\
  v_addr v mod 2 ^ (width (v_fam v) - v_len v) = 0.
