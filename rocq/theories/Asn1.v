(** Model of the asn1c integer conversions used by the validator
    (src/asn1/asn1c/INTEGER.c). *)
From Verif Require Import Base.

(** src/asn1/asn1c/INTEGER.c:350-357: "If all extra leading bytes are zeroes,
    ignore them".  [None]: errno = ERANGE. *)
Fixpoint skip_extra (b : list Z) : option (list Z) :=
  match b with
  | [] => Some []
  | x :: b' => if 8 <? Z.of_nat (length b)
               then if negb (x =? 0) then None else skip_extra b'
               else Some b
  end.

(** src/asn1/asn1c/INTEGER.c:337-367 [asn_INTEGER2umax] (uintmax_t: 64 bits;
    [buf] is never NULL in a decoded INTEGER), 471-482 [asn_INTEGER2ulong]
    (unsigned long: 64 bits, so its range check never fires). *)
Definition asn_INTEGER2umax (buf : list Z) : option Z :=
  match skip_extra buf with
  | None => None
  | Some b => Some (fold_left (fun value x => Z.lor (Z.shiftl value 8 mod 18446744073709551616) x) b 0)
  end.
Definition asn_INTEGER2ulong (buf : list Z) : option Z := asn_INTEGER2umax buf.
