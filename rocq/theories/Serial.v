(** Model of src/types/serial.c. *)
From Verif Require Import Base.

(** src/types/serial.c:6-14 [serial_lt].  [serial_t] is uint32_t
    (src/types/serial.h); the subtractions below never wrap because each is
    guarded by the comparison on its left, exactly as in the C. *)
Definition serial_lt (s1 s2 : Z) : bool :=
  if s1 =? s2 then false
  else ((s1 <? s2) && (s2 - s1 <? 2147483648))
       || ((s1 >? s2) && (s1 - s2 >? 2147483648)).
