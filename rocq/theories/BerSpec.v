(** The vocabulary of X.690 (BER) used by C59-C61, independent of the model. *)
From Verif Require Import Base.

(** Base-256 and base-128 numerals, most significant first. *)
Definition be256 (bs : list Z) : Z := fold_left (fun v b => v * 256 + b) bs 0.
Definition be128 (bs : list Z) : Z := fold_left (fun v b => v * 128 + b) bs 0.
Definition bytes (bs : list Z) : Prop := Forall is_byte bs.

(** X.690 8.1.3: length octets, and the length they announce ([None] is the
    indefinite form, only for constructed values). *)
Inductive length_octets (constructed : bool) : list Z -> option Z -> Prop :=
| short_form b : 0 <= b < 128 -> length_octets constructed [b] (Some b)
| long_form bs : bytes bs -> (1 <= length bs <= 126)%nat ->
    length_octets constructed ((128 + Z.of_nat (length bs)) :: bs) (Some (be256 bs))
| indefinite_form : constructed = true -> length_octets constructed [128] None.

(** What the decoder accepts besides: in a primitive value, 0x80 (which X.690
    forbids) is taken as the length zero. *)
Definition accepted_length (constructed : bool) (bs : list Z) (v : option Z) : Prop :=
  length_octets constructed bs v \/ (constructed = false /\ bs = [128] /\ v = Some 0).

(** The largest length the decoder represents. *)
Definition length_fits (v : option Z) : Prop :=
  match v with Some n => n < 4611686018427387904 | None => True end.

(** X.690 8.1.2: identifier octets: class, constructed bit, number. *)
Inductive tag_octets : list Z -> Z -> bool -> Z -> Prop :=
| low_tag cl (pc : bool) num : 0 <= cl < 4 -> 0 <= num < 31 ->
    tag_octets [cl * 64 + (if pc then 32 else 0) + num] cl pc num
| high_tag cl (pc : bool) cont last : 0 <= cl < 4 ->
    Forall (fun c => 0 <= c < 128) cont -> 0 <= last < 128 ->
    tag_octets ((cl * 64 + (if pc then 32 else 0) + 31) :: map (fun c => 128 + c) cont ++ [last])
               cl pc (be128 (cont ++ [last])).

(** The largest tag number the decoder represents. *)
Definition tag_fits (num : Z) : Prop := num < 1073741824.

(** X.690 8.1.1: length and contents octets of a value; in the indefinite form
    the contents are encodings followed by the two end-of-contents octets. *)
Inductive lv : bool -> list Z -> Prop :=
| lv_definite c L v V : accepted_length c L (Some v) -> length_fits (Some v) ->
    bytes V -> Z.of_nat (length V) = v -> lv c (L ++ V)
| lv_indefinite es : elements es -> lv true (128 :: es ++ [0; 0])
with elements : list Z -> Prop :=
| elements_nil : elements []
| elements_cons T X es : tlv T X -> elements es -> elements (T ++ X ++ es)
with tlv : list Z -> list Z -> Prop :=
| tlv_intro T cl c num X : tag_octets T cl c num -> tag_fits num -> lv c X ->
    firstn 2 (T ++ X) <> [0; 0] -> tlv T X.

(** One field: the tag byte [t] and its length and contents. *)
Definition field (t : Z) (c : bool) (bs : list Z) : Prop := exists X, bs = t :: X /\ lv c X.
(** The tag byte [t] and the length octets of a value. *)
Definition header (t : Z) (bs : list Z) : Prop :=
  exists L v, bs = t :: L /\ length_octets true L v /\ length_fits v.

(** RFC 5652, 12.1: the parts of a SignedData up to the signed attributes of its
    first signer, in order; [L] and [V] are the length and contents octets of
    the signed attributes. *)
Definition signed_attributes_at (bs L : list Z) (v : option Z) (rest : list Z) : Prop :=
  exists sd version digests content certs infos info iversion sid alg,
    bs = sd ++ version ++ digests ++ content ++ certs ++ infos ++ info ++ iversion ++ sid ++ alg
         ++ 160 :: L ++ rest
    /\ header 48 sd /\ field 2 false version /\ field 49 true digests /\ field 48 true content
    /\ field 160 true certs /\ header 49 infos /\ header 48 info /\ field 2 false iversion
    /\ field 128 false sid /\ field 48 true alg
    /\ length_octets true L v /\ length_fits v.
