(** Model of object identifiers (src/asn1/asn1c/OBJECT_IDENTIFIER.c, src/asn1/oid.c).
    A decoded OBJECT IDENTIFIER is the list of its content bytes; arcs are
    uint32_t ([asn_oid_arc_t]). *)
From Verif Require Import Base.

(** src/asn1/asn1c/OBJECT_IDENTIFIER.c:106-120: the loop of
    OBJECT_IDENTIFIER_get_single_arc; the shift is on 32 bits. *)
Fixpoint single_arc_loop (b : list Z) (accum : Z) (n : nat) : res (Z * nat) :=
  match b with
  | [] => Err EINVAL
  | x :: b' =>
      let accum := Z.lor (wrap32 (Z.shiftl accum 7)) (Z.land x 127) in
      if Z.land x 128 =? 0
      then if accum <=? UINT_MAX then Ok (accum, S n) else Err (EOTHER 34)
      else single_arc_loop b' accum (S n)
  end.

(** src/asn1/asn1c/OBJECT_IDENTIFIER.c:95-122 [OBJECT_IDENTIFIER_get_single_arc]:
    [Ok None] is the return value 0. *)
Definition OBJECT_IDENTIFIER_get_single_arc (b : list Z) : res (option (Z * nat)) :=
  match b with
  | [] => Ok None
  | _ => match single_arc_loop b 0 0 with
         | Ok r => Ok (Some r)
         | Err e => Err e
         | UB => UB
         end
  end.

(** src/asn1/asn1c/OBJECT_IDENTIFIER.c:73-93 [OBJECT_IDENTIFIER_get_first_arcs]. *)
Definition OBJECT_IDENTIFIER_get_first_arcs (b : list Z) : res (option (Z * Z * nat)) :=
  match OBJECT_IDENTIFIER_get_single_arc b with
  | Ok (Some (value, rd)) =>
      Ok (Some (if 80 <=? value then (2, value - 80, rd)
                else if 40 <=? value then (1, value - 40, rd)
                else (0, value, rd)))
  | Ok None => Ok None
  | Err e => Err e
  | UB => UB
  end.

(** src/asn1/asn1c/OBJECT_IDENTIFIER.c:321-343: the loop over the remaining
    arcs.  Each turn consumes a byte at least. *)
Fixpoint arcs_loop (fuel : nat) (b : list Z) : res (list Z) :=
  match fuel with
  | O => Ok []
  | S fuel' =>
      match OBJECT_IDENTIFIER_get_single_arc b with
      | Ok None => Ok []
      | Ok (Some (arc, rd)) =>
          match arcs_loop fuel' (skipn rd b) with
          | Ok arcs => Ok (arc :: arcs)
          | r => r
          end
      | Err e => Err e
      | UB => UB
      end
  end.

(** src/asn1/asn1c/OBJECT_IDENTIFIER.c:292-345 [OBJECT_IDENTIFIER_get_arcs]:
    (number of arcs, what is written to the array of [arc_slots] slots).
    Since the loop only ends well at the end of the bytes, the test
    [off != st->size] never fails and is left out. *)
Definition OBJECT_IDENTIFIER_get_arcs (b : list Z) (arc_slots : nat) : res (nat * list Z) :=
  match OBJECT_IDENTIFIER_get_first_arcs b with
  | Ok (Some (arc0, arc1, rd)) =>
      match arcs_loop (length b) (skipn rd b) with
      | Ok arcs => let all := arc0 :: arc1 :: arcs in Ok (length all, firstn arc_slots all)
      | Err e => Err e
      | UB => UB
      end
  | Ok None => Err EINVAL
  | Err e => Err e
  | UB => UB
  end.

(** src/asn1/oid.h:8-13 [struct oid_arcs]. *)
Record oid_arcs : Set := { oa_arcs : list Z; oa_count : nat }.

(** src/asn1/oid.c:22-55 [oid2arcs]. *)
Definition MAX_ARCS : nat := 9.
Definition oid2arcs (b : list Z) : res oid_arcs :=
  match OBJECT_IDENTIFIER_get_arcs b MAX_ARCS with
  | Ok (count, arcs) =>
      if (MAX_ARCS <? count)%nat then
        match OBJECT_IDENTIFIER_get_arcs b count with
        | Ok (count2, arcs) =>
            if (count =? count2)%nat then Ok {| oa_arcs := arcs; oa_count := count |} else Err EINVAL
        | _ => Err EINVAL
        end
      else Ok {| oa_arcs := arcs; oa_count := count |}
  | Err e => Err e
  | UB => UB
  end.

(** src/asn1/oid.c:60-63 [oid_equal]. *)
Definition oid_equal (a b : list Z) : bool :=
  (length a =? length b)%nat && list_eqb Z.eqb a b.

(** src/asn1/oid.c:74-77: the loop of __arcs_equal, backwards from [n]. *)
Fixpoint arcs_equal_loop (a b : list Z) (n : nat) : res bool :=
  match n with
  | O => Ok true
  | S n' =>
      match nth_error a n', nth_error b n' with
      | Some x, Some y => if x =? y then arcs_equal_loop a b n' else Ok false
      | _, _ => UB
      end
  end.

(** src/asn1/oid.c:65-80 [__arcs_equal]. *)
Definition arcs_equal (a : list Z) (a_count : nat) (b : list Z) (b_count : nat) : res bool :=
  if (a_count =? b_count)%nat then arcs_equal_loop a b a_count else Ok false.

(** src/asn1/oid.c:87-91 [arcs_equal_oids] and 82-85: "is [b] the identifier
    whose arcs are [oid]?", as the callers ask (oid2arcs, then the
    comparison). *)
Definition is_oid (b : list Z) (oid : list Z) : res bool :=
  match oid2arcs b with
  | Ok a => arcs_equal (oa_arcs a) (oa_count a) oid (length oid)
  | Err e => Err e
  | UB => UB
  end.

(** src/asn1/oid.h:29-36. *)
Definition OID_SIGNED_DATA : list Z := [1; 2; 840; 113549; 1; 7; 2].
Definition OID_CONTENT_TYPE_ATTR : list Z := [1; 2; 840; 113549; 1; 9; 3].
Definition OID_MESSAGE_DIGEST_ATTR : list Z := [1; 2; 840; 113549; 1; 9; 4].
Definition OID_SIGNING_TIME_ATTR : list Z := [1; 2; 840; 113549; 1; 9; 5].
Definition OID_ROA : list Z := [1; 2; 840; 113549; 1; 9; 16; 1; 24].
Definition OID_MANIFEST : list Z := [1; 2; 840; 113549; 1; 9; 16; 1; 26].
Definition OID_GHOSTBUSTERS : list Z := [1; 2; 840; 113549; 1; 9; 16; 1; 35].

(** ** Text *)

(** printf("%u"), for the output of which ten digits are enough. *)
Fixpoint udec_loop (fuel : nat) (n : Z) (acc : list Z) : list Z :=
  match fuel with
  | O => acc
  | S fuel' =>
      let acc := (48 + n mod 10) :: acc in
      if n / 10 =? 0 then acc else udec_loop fuel' (n / 10) acc
  end.
Definition udec (n : Z) : list Z := udec_loop 20 n [].

(** src/asn1/asn1c/OBJECT_IDENTIFIER.c:240-251 [bytes2str]; the buffer has 64
    bytes (OID_STR_MAXLEN).  [buf] is what is in it so far. *)
Definition OID_STR_MAXLEN : nat := 64.
Definition bytes2str (buf addend : list Z) : option (list Z) :=
  if (OID_STR_MAXLEN <? length buf + length addend + 1)%nat then None else Some (buf ++ addend).

(** src/asn1/asn1c/OBJECT_IDENTIFIER.c:144-166: the loop of
    OBJECT_IDENTIFIER__dump_body with that callback.  The 32 bytes of
    [scratch] are always enough for one arc. *)
Fixpoint dump_loop (fuel : nat) (b buf : list Z) : option (list Z) :=
  match fuel with
  | O => Some buf
  | S fuel' =>
      match OBJECT_IDENTIFIER_get_single_arc b with
      | Ok None => Some buf
      | Ok (Some (arc, rd)) =>
          match bytes2str buf (46 :: udec arc) with
          | Some buf => dump_loop fuel' (skipn rd b) buf
          | None => None
          end
      | _ => None
      end
  end.

(** src/asn1/asn1c/OBJECT_IDENTIFIER.c:124-174 [OBJECT_IDENTIFIER__dump_body],
    253-266 [OBJECT_IDENTIFIER_to_literal]: the string, or NULL. *)
Definition OBJECT_IDENTIFIER_to_literal (b : list Z) : option (list Z) :=
  match OBJECT_IDENTIFIER_get_first_arcs b with
  | Ok (Some (arc0, arc1, rd)) =>
      match bytes2str [] (udec arc0 ++ 46 :: udec arc1) with
      | Some buf => dump_loop (length b) (skipn rd b) buf
      | None => None
      end
  | _ => None
  end.
