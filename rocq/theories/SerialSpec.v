From Verif Require Import Base.

(** Specification (RFC 1982, 3.1/3.2, SERIAL_BITS = 32): s2 is greater than s1
    iff it is obtained by adding some n, 0 < n < 2^31, modulo 2^32. *)
Definition rfc1982_lt (s1 s2 : Z) : Prop :=
  exists n, 0 < n < 2147483648 /\ s2 = (s1 + n) mod 4294967296.

