(** Model of the constraint checks that run after the asn1c decoder
    (src/asn1/asn1c/constraints.c, constr_SEQUENCE.c, constr_SET_OF.c,
    constr_CHOICE.c, BIT_STRING.c, OBJECT_IDENTIFIER.c, IA5String.c,
    GeneralizedTime.c, UTCTime.c), and of src/asn1/decode.c. *)
From Verif Require Import Base Manifest Asn1Dec.
Notation length := List.length.

(** The constraint functions.  [KSize], [KAtLeast] and [KNonNegative] are the
    memb_..._constraint_1 functions the ASN.1 compiler wrote. *)
Inductive constraint : Type :=
| KNone
| KBits
| KOid
| KIA5
| KTime
| KUTCTime
| KSize (lo hi : nat)
| KNonNegative
| KAtLeast (lo : nat) (k : constraint)
| KSeq (ms : list kmember)
| KOf (k : constraint)
| KChoice (ms : list kmember)
with kmember : Type :=
| KMember (optional : nat) (own : option constraint) (k : constraint).

(** Zero, -1, or the process is gone. *)
Inductive verdict : Set := Pass | Reject | Aborts.

(** The checks.  A value of the wrong shape cannot come out of the decoder;
    [Reject] stands for that.  An empty bit string may have a NULL buffer (when
    it was read from a constructed encoding without contents), which the value
    does not show: [nobuf] says whether those have.

    src/asn1/asn1c/constr_SEQUENCE.c:808-848 [SEQUENCE_constraint] ("return" in
    its last else: the members after the first one without a constraint of its
    own are not looked at),
    src/asn1/asn1c/constr_SET_OF.c:740-773 [SET_OF_constraint],
    src/asn1/asn1c/constr_CHOICE.c:479-524 [CHOICE_constraint],
    src/asn1/asn1c/BIT_STRING.c:52-74 [BIT_STRING_constraint],
    src/asn1/asn1c/OBJECT_IDENTIFIER.c:49-71 [OBJECT_IDENTIFIER_constraint],
    src/asn1/asn1c/IA5String.c:39-71 [IA5String_constraint],
    src/asn1/asn1c/GeneralizedTime.c:99-113 [GeneralizedTime_constraint],
    src/asn1/asn1c/UTCTime.c:56-72 [UTCTime_constraint] (abort),
    src/asn1/asn1c/constraints.c:5-16 [asn_generic_no_constraint]. *)
Fixpoint check (nobuf : bool) (k : constraint) (v : value) {struct k} : verdict :=
  match k, v with
  | KNone, _ => Pass
  | KBits, VBits bs unused =>
      if (length bs =? 0)%nat && nobuf then Reject
      else if ((length bs =? 0)%nat && negb (unused =? 0)) || (unused <? 0) || (7 <? unused) then Reject else Pass
  | KOid, VBytes bs => if (length bs <? 1)%nat then Reject else Pass
  | KIA5, VBytes bs =>
      if (length bs =? 0)%nat && nobuf then Reject
      else if forallb (fun b => negb (127 <? b)) bs then Pass else Reject
  | KTime, VBytes bs => match asn_GT2time bs with Ok (Some _) => Pass | Ok None => Reject | _ => Aborts end
  | KUTCTime, _ => Aborts
  | KSize lo hi, VBytes bs => if (lo <=? length bs)%nat && (length bs <=? hi)%nat then Pass else Reject
  | KNonNegative, VBytes bs => match bs with [] => Pass | b :: _ => if Z.land b 128 =? 0 then Pass else Reject end
  | KAtLeast lo k', VOf vs => if (lo <=? length vs)%nat then check nobuf k' v else Reject
  | KSeq ms, VSeq vs =>
      (fix members (ms : list kmember) (vs : list (option value)) : verdict :=
         match ms, vs with
         | [], _ => Pass
         | KMember optional own k' :: ms', None :: vs' =>
             if (optional =? 0)%nat then Reject else members ms' vs'
         | KMember optional own k' :: ms', Some v' :: vs' =>
             match own with
             | Some k'' => match check nobuf k'' v' with Pass => members ms' vs' | r => r end
             | None => check nobuf k' v'
             end
         | _ :: _, [] => Reject
         end) ms vs
  | KOf k', VOf vs =>
      (fix elements (vs : list value) : verdict :=
         match vs with
         | [] => Pass
         | v' :: vs' => match check nobuf k' v' with Pass => elements vs' | r => r end
         end) vs
  | KChoice ms, VChoice present v' =>
      (fix alternatives (ms : list kmember) (n : nat) : verdict :=
         match ms, n with
         | [], _ => Reject
         | KMember _ own k' :: _, O => match own with Some k'' => check nobuf k'' v' | None => check nobuf k' v' end
         | _ :: ms', S n' => alternatives ms' n'
         end) ms present
  | _, _ => Reject
  end.

(** What a caller of asn1_decode gets: the structure, -EINVAL, or nothing: the
    process died, or it is still in there. *)
Inductive answer : Type := Accepted (v : value) | Refused | Crash | Hang.

(** src/asn1/decode.c:33-59 [asn1_decode], with src/asn1/decode.c:15-31
    [validate] and src/asn1/asn1c/constraints.c:77-93 [asn_check_constraints]. *)
Definition asn1_decode (nobuf : bool) (turns : nat) (t : ty) (k : constraint) (bs : list Z) : answer :=
  match ber_decode turns t bs with
  | Done _ v =>
      match check nobuf k v with
      | Pass => Accepted v
      | Reject => Refused
      | Aborts => Crash
      end
  | Failed => Refused
  | Fault => Crash
  | Spin => Hang
  end.
