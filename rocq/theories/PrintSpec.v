(** What the first octets of an RPKI object look like (X.690, RFC 5280, RFC 5652). *)
From Coq Require Import ZArith List Bool Lia.
From Verif Require Import Base BerSpec Print.
Import ListNotations.
Open Scope Z_scope.

(** Length octets of a constructed value. *)
Definition len_octets (L : list Z) : Prop := exists v, accepted_length true L v /\ length_fits v.
(** A value's length octets and contents, in the definite form. *)
Definition len_and_contents (X : list Z) : Prop :=
  exists L n V, X = L ++ V /\ accepted_length false L (Some n) /\ length_fits (Some n) /\ Z.of_nat (length V) = n.

(** A SEQUENCE that starts with an OBJECT IDENTIFIER (ContentInfo); one that starts with a SEQUENCE
    (tbsCertificate, tbsCertList) whose second element is an INTEGER or a SEQUENCE. *)
Inductive begins : list Z -> file_type -> Prop :=
| begins_object L r : len_octets L -> begins (48 :: L ++ 6 :: r) FT_ROA
| begins_certificate L1 L2 t X r : len_octets L1 -> len_octets L2 -> len_and_contents X ->
    begins (48 :: L1 ++ 48 :: L2 ++ t :: X ++ 2 :: r) FT_CER
| begins_crl L1 L2 t X r : len_octets L1 -> len_octets L2 -> len_and_contents X ->
    begins (48 :: L1 ++ 48 :: L2 ++ t :: X ++ 48 :: r) FT_CRL.
(** The octet that tells is the one after the last of these. *)
Inductive just_short : list Z -> Prop :=
| short_1 L : len_octets L -> just_short (48 :: L)
| short_2 L1 L2 t X : len_octets L1 -> len_octets L2 -> len_and_contents X -> just_short (48 :: L1 ++ 48 :: L2 ++ t :: X).

(** What a decoder says and has in the end, but for how much of its last input it took. *)
Definition outcome {X} (r : rval X) : rval X := match r with RC_WMORE y _ => RC_WMORE y 0 | r => r end.
(** A decoder that doesn't mind where its input is cut: it takes all that it's given, until it has
    what it wants. *)
Definition takes_all {X} (decode : X -> list Z -> rval X) : Prop :=
  forall x a b, a <> [] ->
    match decode x a with
    | RC_OK y => decode x (a ++ b) = RC_OK y
    | RC_WMORE y n => n = length a /\ (b <> [] -> outcome (decode x (a ++ b)) = outcome (decode y b))
    | RC_FAIL => decode x (a ++ b) = RC_FAIL
    end.
(** A decoder that expects to be given again what it didn't take (as ber_decode() documents). *)
Definition restartable {X} (decode : X -> list Z -> rval X) : Prop :=
  forall x a b, a <> [] ->
    match decode x a with
    | RC_OK y => decode x (a ++ b) = RC_OK y
    | RC_WMORE y n => (n <= length a)%nat /\ (b <> [] -> outcome (decode x (a ++ b)) = outcome (decode y (skipn n a ++ b)))
    | RC_FAIL => decode x (a ++ b) = RC_FAIL
    end.
