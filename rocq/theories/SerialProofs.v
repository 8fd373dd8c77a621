From Verif Require Import Base BaseLemmas Serial SerialSpec.

Lemma serial_lt_iff s1 s2 : is_u32 s1 -> is_u32 s2 ->
  serial_lt s1 s2 = true <-> rfc1982_lt s1 s2.
Proof.
  unfold serial_lt, rfc1982_lt, is_u32. intros H1 H2. split.
  - intros H. destruct (Z.eqb_spec s1 s2); [discriminate|].
    destruct (Z.ltb_spec s1 s2).
    + exists (s2 - s1). split; lia.
    + exists (s2 - s1 + 4294967296). split; lia.
  - intros (n & Hn & E). destruct (Z.eqb_spec s1 s2); lia.
Qed.

Lemma serial_lt_incomparable_lem s1 s2 : is_u32 s1 -> is_u32 s2 ->
  (serial_lt s1 s2 = false /\ serial_lt s2 s1 = false) <->
  (s1 = s2 \/ (s1 + 2147483648) mod 4294967296 = s2).
Proof.
  unfold serial_lt, is_u32. intros H1 H2.
  destruct (Z.eqb_spec s1 s2), (Z.eqb_spec s2 s1); try lia.
Qed.

Lemma serial_lt_asym_lem s1 s2 : is_u32 s1 -> is_u32 s2 ->
  serial_lt s1 s2 = true -> serial_lt s2 s1 = false.
Proof.
  unfold serial_lt, is_u32. intros H1 H2.
  destruct (Z.eqb_spec s1 s2), (Z.eqb_spec s2 s1); try lia; try discriminate.
Qed.

