(** C01: serial comparison is RFC 1982 order. *)
From Verif Require Import Base BaseLemmas Serial SerialSpec SerialProofs.

Theorem C01_serial_lt_is_rfc1982 : forall s1 s2, is_u32 s1 -> is_u32 s2 ->
  (serial_lt s1 s2 = true <-> rfc1982_lt s1 s2).
Proof. exact serial_lt_iff. Qed.
Print Assumptions C01_serial_lt_is_rfc1982.

Theorem C01_serial_lt_asymmetric : forall s1 s2, is_u32 s1 -> is_u32 s2 ->
  serial_lt s1 s2 = true -> serial_lt s2 s1 = false.
Proof. exact serial_lt_asym_lem. Qed.
Print Assumptions C01_serial_lt_asymmetric.

Theorem C01_serial_incomparable_iff : forall s1 s2, is_u32 s1 -> is_u32 s2 ->
  ((serial_lt s1 s2 = false /\ serial_lt s2 s1 = false) <->
   (s1 = s2 \/ (s1 + 2147483648) mod 4294967296 = s2)).
Proof. exact serial_lt_incomparable_lem. Qed.
Print Assumptions C01_serial_incomparable_iff.

(** Non-vacuity: a wrap-around pair, ordered; and an incomparable pair. *)
Example C01_wrap : is_u32 4294967295 /\ is_u32 3 /\
  serial_lt 4294967295 3 = true /\ rfc1982_lt 4294967295 3.
Proof.
  repeat split; try (unfold is_u32; lia). exists 4. split; [lia|reflexivity].
Qed.
Example C01_incomparable : serial_lt 1 2147483649 = false /\
  serial_lt 2147483649 1 = false.
Proof. split; reflexivity. Qed.
