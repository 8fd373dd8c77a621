(** Model of the BER/DER header code the validator runs on signed objects
    (src/asn1/asn1c/ber_tlv_length.c, ber_tlv_tag.c) and of the code that digs
    the signed attributes out of a SignedData to verify its signature
    (src/object/certificate.c:572-823).

    A pointer into a buffer is the list of the bytes that can be read from it
    on; the [size] argument the C code is given is separate, so that reading
    outside of [size] is not hidden by the model, and reading outside of the
    list is [UB]. *)
From Verif Require Import Base.

(** What the functions of this family return: 0 ("want more"), -1, or the
    number of bytes used (plus the value stored through the pointer). *)
Inductive fetch (A : Type) : Type :=
| More
| Bad
| Got (n : nat) (a : A).
Arguments More {A}.
Arguments Bad {A}.
Arguments Got {A} n a.

(** src/asn1/asn1c/asn_system.h:55-63: SIZE_MAX / 4 on a 64-bit platform. *)
Definition RSSIZE_MAX : Z := 4611686018427387903.

(** src/asn1/asn1c/ber_tlv_length.c:42-64: the loop over the bytes of a long
    length, and what follows it.  [ber_tlv_len_t] is ssize_t, 64 bits. *)
Fixpoint fetch_length_loop (oct : nat) (mem : list Z) (size skipped : nat) (len : Z) : res (fetch Z) :=
  match oct with
  | O => if (len <? 0) || (RSSIZE_MAX <? len) then Ok Bad else Ok (Got skipped len)
  | S oct' =>
      if (S skipped <=? size)%nat then
        match mem with
        | [] => UB
        | b :: mem' =>
            if Z.shiftr len 55 =? 0
            then fetch_length_loop oct' mem' size (S skipped) (Z.lor (Z.shiftl len 8) b)
            else Ok Bad
        end
      else Ok More
  end.

(** src/asn1/asn1c/ber_tlv_length.c:10-66 [ber_fetch_length]; the value -1
    stands for the indefinite length, as in the C code. *)
Definition ber_fetch_length (is_constructed : bool) (mem : list Z) (size : nat) : res (fetch Z) :=
  if (size =? 0)%nat then Ok More else
  match mem with
  | [] => UB
  | oct :: mem' =>
      if Z.land oct 128 =? 0 then Ok (Got 1 oct) else
      if is_constructed && (oct =? 128) then Ok (Got 1 (-1)) else
      if oct =? 255 then Ok Bad else
      fetch_length_loop (Z.to_nat (Z.land oct 127)) mem' size 1 0
  end.

(** src/asn1/asn1c/ber_tlv_tag.c:33-56: the octets of a long tag.
    [ber_tlv_tag_t] is unsigned, 32 bits. *)
Fixpoint fetch_tag_loop (mem : list Z) (size skipped : nat) (val tclass : Z) (fuel : nat) {struct fuel} : res (fetch Z) :=
  match fuel with
  | O => Ok More
  | S fuel' =>
      if (skipped <=? size)%nat then
        match mem with
        | [] => UB
        | oct :: mem' =>
            if negb (Z.land oct 128 =? 0) then
              let val := Z.lor (wrap32 (Z.shiftl val 7)) (Z.land oct 127) in
              if negb (Z.shiftr val 23 =? 0) then Ok Bad
              else fetch_tag_loop mem' size (S skipped) val tclass fuel'
            else
              let val := Z.lor (wrap32 (Z.shiftl val 7)) oct in
              Ok (Got skipped (Z.lor (wrap32 (Z.shiftl val 2)) tclass))
        end
      else Ok More
  end.

(** src/asn1/asn1c/ber_tlv_tag.c:10-59 [ber_fetch_tag].  The loop runs at most
    [size] times, which is the fuel. *)
Definition ber_fetch_tag (mem : list Z) (size : nat) : res (fetch Z) :=
  if (size =? 0)%nat then Ok More else
  match mem with
  | [] => UB
  | val :: mem' =>
      let tclass := Z.shiftr val 6 in
      let val := Z.land val 31 in
      if negb (val =? 31) then Ok (Got 1 (Z.lor (wrap32 (Z.shiftl val 2)) tclass))
      else fetch_tag_loop mem' size 2 0 tclass size
  end.

(** src/asn1/asn1c/ber_tlv_tag.h [BER_TLV_CONSTRUCTED]. *)
Definition constructed_bit (b : Z) : bool := negb (Z.land b 32 =? 0).

(** src/asn1/asn1c/ber_tlv_length.c:102-129: the loop over the elements of an
    indefinite-length value.  [rec] is the recursive call.  Each turn uses two
    bytes at least, so [size] turns are never exhausted (proved). *)
Fixpoint skip_contents (rec : bool -> list Z -> nat -> res (fetch unit)) (fuel : nat)
  (mem : list Z) (size skip : nat) : res (fetch unit) :=
  match fuel with
  | O => UB
  | S fuel' =>
      match ber_fetch_tag mem size with
      | Ok (Got tl _) =>
          match mem with
          | [] => UB
          | b0 :: _ =>
              match rec (constructed_bit b0) (skipn tl mem) (size - tl)%nat with
              | Ok (Got ll _) =>
                  match nth_error mem 1 with
                  | None => UB
                  | Some b1 =>
                      let skip := (skip + (tl + ll))%nat in
                      if (b0 =? 0) && (b1 =? 0) then Ok (Got skip tt)
                      else skip_contents rec fuel' (skipn (tl + ll) mem) (size - (tl + ll))%nat skip
                  end
              | r => r
              end
          end
      | Ok More => Ok More
      | Ok Bad => Ok Bad
      | Err e => Err e
      | UB => UB
      end
  end.

(** src/asn1/asn1c/ber_tlv_length.c:68-130 [ber_skip_length], called without
    codec context, so that ASN__STACK_OVERFLOW_CHECK
    (src/asn1/asn1c/asn_internal.h:94-109) never fires.  [frames] is the
    number of nested calls the program's stack has room for; needing one more
    is [UB]. *)
Fixpoint ber_skip_length (frames : nat) (is_constructed : bool) (mem : list Z) (size : nat) : res (fetch unit) :=
  match frames with
  | O => UB
  | S frames' =>
      match ber_fetch_length is_constructed mem size with
      | Ok (Got ll vlen) =>
          if 0 <=? vlen then
            let skip := Z.of_nat ll + vlen in
            if Z.of_nat size <? skip then Ok More else Ok (Got (Z.to_nat skip) tt)
          else skip_contents (ber_skip_length frames') (S size) (skipn ll mem) (size - ll)%nat ll
      | Ok More => Ok More
      | Ok Bad => Ok Bad
      | Err e => Err e
      | UB => UB
      end
  end.

(** src/asn1/asn1c/ber_tlv_length.c:149-154: "Compute the size of the
    subsequent bytes": (required_size, i). *)
Fixpoint required_loop (fuel : nat) (v : Z) (step limit required i : Z) : Z * Z :=
  match fuel with
  | O => (required, i)
  | S fuel' =>
      if i <? limit then
        if negb (Z.shiftr v i =? 0) then required_loop fuel' v step limit (required + 1) (i + step)
        else (required, i)
      else (required, i)
  end.

(** src/asn1/asn1c/ber_tlv_length.c:164-166 and ber_tlv_tag.c:129-131: one byte
    per turn, most significant first. *)
Fixpoint emit (n : nat) (f : Z -> Z) (step i : Z) : list Z :=
  match n with
  | O => []
  | S n' => f i :: emit n' f step (i - step)
  end.

(** src/asn1/asn1c/ber_tlv_length.c:132-168 [der_tlv_length_serialize]:
    (returned value, bytes written at the beginning of the buffer).
    [len] is not negative. *)
Definition der_tlv_length_serialize (len : Z) (size : nat) : nat * list Z :=
  if len <=? 127 then (1%nat, if (size =? 0)%nat then [] else [len mod 256])
  else
    let '(required, i) := required_loop 7 len 8 64 1 8 in
    let r := Z.to_nat required in
    if (size <=? r)%nat then (S r, [])
    else (S r, Z.lor 128 required :: emit r (fun i => Z.shiftr len i mod 256) 8 (i - 8)).

(** src/asn1/asn1c/ber_tlv_tag.c:104-144 [ber_tlv_tag_serialize]. *)
Definition ber_tlv_tag_serialize (tag : Z) (size : nat) : nat * list Z :=
  let tclass := Z.land tag 3 in
  let tval := Z.shiftr tag 2 in
  if tval <=? 30 then (1%nat, if (size =? 0)%nat then [] else [Z.lor (Z.shiftl tclass 6) tval])
  else
    let first := if (size =? 0)%nat then [] else [Z.lor (Z.shiftl tclass 6) 31] in
    let size := (size - 1)%nat in
    let '(required, i) := required_loop 4 tval 7 32 1 7 in
    let r := Z.to_nat required in
    if (size <? r)%nat then (S r, first)
    else (S r, first ++ emit (r - 1) (fun i => Z.lor 128 (Z.land (Z.shiftr tval i) 127)) 7 (i - 7)
                     ++ [Z.land tval 127]).

(** ** Finding the signed attributes *)

(** src/object/certificate.c:570-573 [struct progress]. *)
Record progress : Set := { p_offset : nat; p_remaining : nat }.

(** src/object/certificate.c:578-592 [skip_t]: the byte is read before the
    remaining length is looked at. *)
Definition skip_t (mem : list Z) (p : progress) (tag : Z) : res progress :=
  match nth_error mem (p_offset p) with
  | None => UB
  | Some b =>
      if negb (b =? tag) then Err EINVAL else
      if (p_remaining p =? 0)%nat then Err EINVAL else
      Ok {| p_offset := S (p_offset p); p_remaining := (p_remaining p - 1)%nat |}
  end.

(** src/object/certificate.c:597-616 [skip_tl]. *)
Definition skip_tl (mem : list Z) (p : progress) (tag : Z) : res progress :=
  match skip_t mem p tag with
  | Ok p =>
      match ber_fetch_length true (skipn (p_offset p) mem) (p_remaining p) with
      | Ok (Got len_len _) =>
          Ok {| p_offset := (p_offset p + len_len)%nat; p_remaining := (p_remaining p - len_len)%nat |}
      | Ok _ => Err EINVAL
      | Err e => Err e
      | UB => UB
      end
  | Err _ => Err EINVAL
  | UB => UB
  end.

(** src/object/certificate.c:618-639 [skip_tlv].  [skip] is an int, while
    ber_skip_length returns ssize_t: 2 GB or more is reported as [UB] (the
    conversion is implementation-defined). *)
Definition skip_tlv (frames : nat) (mem : list Z) (p : progress) (tag : Z) : res progress :=
  match nth_error mem (p_offset p) with
  | None => UB
  | Some b0 =>
      match skip_t mem p tag with
      | Ok p =>
          match ber_skip_length frames (constructed_bit b0) (skipn (p_offset p) mem) (p_remaining p) with
          | Ok (Got skip _) =>
              if Z.of_nat skip <=? 2147483647
              then Ok {| p_offset := (p_offset p + skip)%nat; p_remaining := (p_remaining p - skip)%nat |}
              else UB
          | Ok _ => Err EINVAL
          | Err e => Err e
          | UB => UB
          end
      | Err _ => Err EINVAL
      | UB => UB
      end
  end.

(** src/object/certificate.c:649-714 [find_signedAttrs]: (offset of the LV part
    of the signed attributes, number of bytes to digest). *)
Definition find_signedAttrs (frames : nat) (mem : list Z) (size : nat) : res (nat * Z) :=
  let p := {| p_offset := 0; p_remaining := size |} in
  (do p <- skip_tl mem p 48;
   do p <- skip_tlv frames mem p 2;
   do p <- skip_tlv frames mem p 49;
   do p <- skip_tlv frames mem p 48;
   do p <- skip_tlv frames mem p 160;
   do p <- skip_tl mem p 49;
   do p <- skip_tl mem p 48;
   do p <- skip_tlv frames mem p 2;
   do p <- skip_tlv frames mem p 128;
   do p <- skip_tlv frames mem p 48;
   do p <- skip_t mem p 160;
   do r <- ber_fetch_length true (skipn (p_offset p) mem) (p_remaining p);
   match r with
   | Got len_len v => Ok (p_offset p, v + Z.of_nat len_len)
   | _ => Err EINVAL
   end)%res.

(** src/object/certificate.c:721-823 [certificate_validate_signature]: the
    bytes handed to EVP_DigestVerifyUpdate, in two pieces. *)
Definition digested (frames : nat) (mem : list Z) (size : nat) : res (list Z) :=
  match find_signedAttrs frames mem size with
  | Ok (offset, n) =>
      if n <? 0 then UB else
      if (length mem <? offset + Z.to_nat n)%nat then UB else
      Ok (49 :: firstn (Z.to_nat n) (skipn offset mem))
  | Err e => Err e
  | UB => UB
  end.

(** The same function: [verify] is EVP_DigestVerifyFinal with the certificate's
    public key (data, signature).  The failures of EVP_DigestVerifyInit and of
    the allocations are not modelled. *)
Definition certificate_validate_signature (verify : list Z -> list Z -> bool)
  (frames : nat) (mem : list Z) (size : nat) (signature : list Z) : res unit :=
  match digested frames mem size with
  | Ok data => if verify data signature then Ok tt else Err EINVAL
  | Err e => Err e
  | UB => UB
  end.
