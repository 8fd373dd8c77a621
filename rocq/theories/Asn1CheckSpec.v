(** What an ASN.1 module demands of the values of its types, besides their
    encoding.  Nothing of the checks' code is used here. *)
From Verif Require Import Base BerSpec ManifestSpec Asn1Dec Asn1DecSpec Asn1Check.
Notation length := List.length.

(** The values of a type. *)
Fixpoint shaped (t : ty) (v : value) {struct t} : Prop :=
  match t, v with
  | TPrim _, VBytes bs => bytes bs
  | TNull _, VNull => True
  | TBool _, VBool b => is_byte b
  | TString BIT _ _, VBits bs unused => bytes bs /\ exists raw, bit_string raw unused bs
  | TString BIT _ _, _ => False
  | TString _ _ _, VBytes bs => bytes bs
  | TSeq _ _ ms, VSeq vs =>
      (fix members (ms : list member) (vs : list (option value)) : Prop :=
         match ms, vs with
         | [], [] => True
         | Member _ _ opt _ t' :: ms', None :: vs' => (0 < opt)%nat /\ members ms' vs'
         | Member _ _ _ _ t' :: ms', Some v' :: vs' => shaped t' v' /\ members ms' vs'
         | _, _ => False
         end) ms vs
  | TOf _ _ t', VOf vs =>
      (fix elements (vs : list value) : Prop :=
         match vs with [] => True | v' :: vs' => shaped t' v' /\ elements vs' end) vs
  | TChoice _ _ ms, VChoice k v' =>
      (fix alternatives (ms : list member) (n : nat) : Prop :=
         match ms, n with
         | [], _ => False
         | Member _ _ _ _ t' :: _, O => shaped t' v'
         | _ :: ms', S n' => alternatives ms' n'
         end) ms k
  | _, _ => False
  end.

(** The value satisfies all the constraints, at every level. *)
Fixpoint satisfies (k : constraint) (v : value) {struct k} : Prop :=
  match k, v with
  | KNone, _ => True
  | KBits, VBits bs unused => 0 <= unused <= 7
  | KOid, VBytes bs => bs <> []
  | KIA5, VBytes bs => Forall (fun b => b < 128) bs
  | KTime, VBytes bs => exists y mo d h mi s, gt_text bs y mo d h mi s /\ 1 <= mo <= 12 /\ 1 <= d <= 31 /\ h <= 23 /\ s <= 60
  | KUTCTime, _ => True
  | KSize lo hi, VBytes bs => (lo <= length bs <= hi)%nat
  | KNonNegative, VBytes bs => bs = [] \/ exists b bs', bs = b :: bs' /\ b < 128
  | KAtLeast lo k', VOf vs => (lo <= length vs)%nat /\ satisfies k' v
  | KSeq ms, VSeq vs =>
      (fix members (ms : list kmember) (vs : list (option value)) : Prop :=
         match ms, vs with
         | KMember optional _ _ :: ms', None :: vs' => (0 < optional)%nat /\ members ms' vs'
         | KMember _ own k' :: ms', Some v' :: vs' =>
             match own with Some k'' => satisfies k'' v' | None => True end /\ satisfies k' v' /\ members ms' vs'
         | [], [] => True
         | _, _ => False
         end) ms vs
  | KOf k', VOf vs =>
      (fix elements (vs : list value) : Prop :=
         match vs with [] => True | v' :: vs' => satisfies k' v' /\ elements vs' end) vs
  | KChoice ms, VChoice n v' =>
      (fix alternatives (ms : list kmember) (n : nat) : Prop :=
         match ms, n with
         | [], _ => False
         | KMember _ own k' :: _, O => match own with Some k'' => satisfies k'' v' | None => True end /\ satisfies k' v'
         | _ :: ms', S n' => alternatives ms' n'
         end) ms n
  | _, _ => False
  end.
