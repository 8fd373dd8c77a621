(** C59-C61: BER headers, nested values, and what a signature covers. *)
From Verif Require Import Base BaseLemmas Ber BerSpec BerProofs BerProofs2 BerProofs3 BerProofs4 BerProofs5.

Notation length := List.length.

(** The value stored for a length: -1 stands for "indefinite". *)
Definition stored (v : option Z) : Z := match v with Some n => n | None => -1 end.

(** ** C59: lengths and tags *)

(** For every buffer of at least [size] bytes (so: no byte outside of [size]
    is read, since the buffer may have exactly [size]), the length decoder
    answers, and its three answers mean what they should. *)
Theorem C59_length c mem size : bytes mem -> (size <= length mem)%nat ->
  (exists n v, ber_fetch_length c mem size = Ok (Got n (stored v)) /\ (1 <= n <= size)%nat /\
     accepted_length c (firstn n mem) v /\ length_fits v)
  \/ (ber_fetch_length c mem size = Ok More /\
      (exists ext v, bytes ext /\ ext <> [] /\ accepted_length c (firstn size mem ++ ext) v) /\
      (forall n v, (n <= size)%nat -> accepted_length c (firstn n mem) v -> False))
  \/ (ber_fetch_length c mem size = Ok Bad /\
      (forall ext n v, bytes ext -> accepted_length c (firstn n (firstn size mem ++ ext)) v -> ~ length_fits v)).
Proof.
  intros Hb Hs. destruct (fetch_length_total c mem size Hb Hs) as [r Er]. destruct r as [| |n v].
  - right; left. split; [exact Er|]. split; [exact (fetch_length_more c mem size Hb Hs Er)|].
    intros n v Hn Ha. rewrite <- (firstn_skipn n mem) in Er.
    rewrite (fetch_length_complete c _ v _ size Ha) in Er; [|apply bytes_skipn; assumption|].
    + destruct (match v with Some m => m <? 4611686018427387904 | None => true end); discriminate.
    + rewrite firstn_skipn, firstn_length. lia.
  - right; right. split; [exact Er|]. intros ext n v Hext Ha.
    exact (fetch_length_bad c mem size ext n v Hb Hs Er Hext Ha).
  - left. destruct (fetch_length_sound c mem size n v Hb Hs Er) as (o & -> & Ha & Hf & Hn).
    exists n, o. auto.
Qed.

(** Every encoding of a length is decoded to its value, whatever follows it
    (or refused if the value is too large to represent). *)
Theorem C59_length_complete c L v rest size : accepted_length c L v -> bytes rest ->
  (length L <= size <= length (L ++ rest))%nat ->
  (length_fits v -> ber_fetch_length c (L ++ rest) size = Ok (Got (length L) (stored v))) /\
  (~ length_fits v -> ber_fetch_length c (L ++ rest) size = Ok Bad).
Proof.
  intros Ha Hr Hs. rewrite (fetch_length_complete c L v rest size Ha Hr Hs).
  destruct v as [v|]; cbn [length_fits]; [|split; [reflexivity|tauto]].
  destruct (Z.ltb_spec v 4611686018427387904); split; try reflexivity; lia.
Qed.

(** Tags. *)
Theorem C59_tag mem size : bytes mem -> (size <= length mem)%nat ->
  (exists n cl pc num, ber_fetch_tag mem size = Ok (Got n (num * 4 + cl)) /\ (1 <= n <= size)%nat /\
     tag_octets (firstn n mem) cl pc num /\ tag_fits num /\ constructed_bit (nth 0 mem 0) = pc)
  \/ ((ber_fetch_tag mem size = Ok More \/ ber_fetch_tag mem size = Ok Bad) /\
      (forall n cl pc num, (n <= size)%nat -> tag_octets (firstn n mem) cl pc num -> ~ tag_fits num)).
Proof.
  intros Hb Hs. destruct (fetch_tag_total mem size Hs) as [r Er].
  assert (Hno : forall n cl pc num, (n <= size)%nat -> tag_octets (firstn n mem) cl pc num -> tag_fits num ->
    ber_fetch_tag mem size = Ok (Got (length (firstn n mem)) (num * 4 + cl))).
  { intros n cl pc num Hn Ht Hf.
    rewrite <- (firstn_skipn n mem) at 1. apply (fetch_tag_complete _ cl pc num); [assumption|assumption|].
    rewrite firstn_length. lia. }
  destruct r as [| |n v].
  - right. split; [left; exact Er|]. intros n cl pc num Hn Ht Hf. rewrite (Hno n cl pc num Hn Ht Hf) in Er. discriminate.
  - right. split; [right; exact Er|]. intros n cl pc num Hn Ht Hf. rewrite (Hno n cl pc num Hn Ht Hf) in Er. discriminate.
  - left. destruct (fetch_tag_sound mem size n v Hb Hs Er) as (cl & pc & num & Ht & Hf & -> & Hn & Hc).
    exists n, cl, pc, num. auto.
Qed.

Theorem C59_tag_complete T cl pc num rest size : tag_octets T cl pc num -> tag_fits num -> (length T <= size)%nat ->
  ber_fetch_tag (T ++ rest) size = Ok (Got (length T) (num * 4 + cl)).
Proof. apply fetch_tag_complete. Qed.

(** The serialisers never write more than [size] bytes; given room, they write
    an encoding of the number, no longer than any other, whose length they
    return. *)
Theorem C59_der_length c len size : 0 <= len < 4611686018427387904 ->
  let '(ret, bs) := der_tlv_length_serialize len size in
  (1 <= ret <= 9)%nat /\ (length bs <= size)%nat /\
  ((ret <= size)%nat -> length bs = ret /\ length_octets c bs (Some len)) /\
  (forall bs', length_octets c bs' (Some len) -> (ret <= length bs')%nat).
Proof. apply der_length_ok. Qed.

Theorem C59_der_tag cl num size : 0 <= cl < 4 -> 0 <= num < 1073741824 ->
  let '(ret, bs) := ber_tlv_tag_serialize (num * 4 + cl) size in
  (1 <= ret <= 6)%nat /\ (length bs <= size)%nat /\
  ((ret <= size)%nat -> length bs = ret /\ tag_octets bs cl false num) /\
  (forall bs' pc, tag_octets bs' cl pc num -> (ret <= length bs')%nat).
Proof. apply tag_serialize_ok. Qed.

(** Decoding what was serialised. *)
Theorem C59_roundtrip c len cl num rest : 0 <= len < 4611686018427387904 -> 0 <= cl < 4 -> 0 <= num < 1073741824 ->
  bytes rest ->
  let '(rl, L) := der_tlv_length_serialize len 9 in
  let '(rt, T) := ber_tlv_tag_serialize (num * 4 + cl) 6 in
  ber_fetch_length c (L ++ rest) (length (L ++ rest)) = Ok (Got rl len) /\
  ber_fetch_tag (T ++ rest) (length (T ++ rest)) = Ok (Got rt (num * 4 + cl)).
Proof.
  intros Hl Hcl Hn Hr. pose proof (der_length_ok c len 9 Hl) as A. pose proof (tag_serialize_ok cl num 6 Hcl Hn) as B.
  destruct (der_tlv_length_serialize len 9) as [rl L]. destruct (ber_tlv_tag_serialize (num * 4 + cl) 6) as [rt T].
  destruct A as (A1 & _ & A2 & _). destruct B as (B1 & _ & B2 & _).
  destruct (A2 ltac:(lia)) as [<- A3]. destruct (B2 ltac:(lia)) as [<- B3]. split.
  - destruct (C59_length_complete c L (Some len) rest (length (L ++ rest))) as [E _];
      [left; exact A3|exact Hr|rewrite app_length; lia|]. apply E. cbn. lia.
  - apply (fetch_tag_complete T cl false num); [exact B3|unfold tag_fits; lia|rewrite app_length; lia].
Qed.

(** X.690 8.1.3.2 forbids the indefinite form in a primitive value; the decoder
    takes it as the length zero. *)
Theorem C59_primitive_refuted :
  ~ (forall mem size n v, bytes mem -> (size <= length mem)%nat ->
       ber_fetch_length false mem size = Ok (Got n v) -> exists o, length_octets false (firstn n mem) o).
Proof.
  intros H. destruct (H [128] 1%nat 1%nat 0) as [o Ho];
    [repeat constructor; unfold is_byte; lia|cbn; lia|reflexivity|].
  clear H. cbn [firstn] in Ho. inversion Ho as [b Hb|bs Hbs Hn|Hc]; subst; [lia|cbn [length] in Hn; lia|discriminate].
Qed.

Example C59_ex1 : ber_fetch_length true [130; 1; 0; 7] 4 = Ok (Got 3 256) /\
  ber_fetch_length true [130; 1; 0; 7] 2 = Ok More /\
  ber_fetch_length true [137; 255; 255; 255; 255; 255; 255; 255; 255; 255] 10 = Ok Bad /\
  ber_fetch_tag [191; 132; 1; 5] 4 = Ok (Got 3 (513 * 4 + 2)) /\
  der_tlv_length_serialize 256 5 = (3%nat, [130; 1; 0]) /\
  ber_tlv_tag_serialize (513 * 4 + 2) 5 = (3%nat, [159; 132; 1]).
Proof. repeat split; vm_compute; reflexivity. Qed.

Example C59_ex2 : accepted_length true [130; 1; 0] (Some 256) /\ length_fits (Some 256).
Proof.
  split; [left|cbn; lia]. apply (long_form true [1; 0]); [repeat constructor; unfold is_byte; lia|cbn; lia].
Qed.

(** ** C60: skipping a value *)

(** With enough stack, for every buffer of at least [size] bytes, skipping
    succeeds exactly on the values of the BER grammar that fit, uses exactly
    their bytes, and never misbehaves. *)
Theorem C60_skip frames c mem size : bytes mem -> (size <= length mem)%nat -> (size < frames)%nat ->
  (exists r, ber_skip_length frames c mem size = Ok r) /\
  (forall n, ber_skip_length frames c mem size = Ok (Got n tt) <->
     (n <= size)%nat /\ lv c (firstn n mem) /\ length (firstn n mem) = n).
Proof.
  intros Hb Hs Hf. split; [apply skip_total; assumption|]. intros n. split.
  - intros E. apply skip_sound in E; [|assumption|assumption]. destruct E as [E1 E2].
    split; [exact E1|]. split; [exact E2|]. apply firstn_length_le. lia.
  - intros (Hn & Hlv & Hlen). rewrite <- (firstn_skipn n mem) at 1.
    rewrite (proj1 skip_complete c _ Hlv); [rewrite Hlen; reflexivity|apply bytes_skipn; assumption|lia|].
    rewrite firstn_skipn. lia.
Qed.

(** The grammar is unambiguous: where a value ends does not depend on what
    follows it. *)
Theorem C60_unambiguous c X Y r1 r2 : lv c X -> lv c Y -> bytes r1 -> bytes r2 ->
  X ++ r1 = Y ++ r2 -> X = Y /\ r1 = r2.
Proof. apply lv_prefix. Qed.

(** [n] values of indefinite length, one inside the other. *)
Fixpoint nested (n : nat) : list Z :=
  match n with
  | O => [128; 0; 0]
  | S n' => 128 :: (48 :: nested n') ++ [0; 0]
  end.

Lemma nested_lv n : lv true (nested n).
Proof.
  induction n as [|n IH]; cbn [nested].
  - apply (lv_indefinite []). constructor.
  - apply (lv_indefinite (48 :: nested n)).
    replace (48 :: nested n) with ([48] ++ nested n ++ []) by (rewrite app_nil_r; reflexivity).
    apply elements_cons; [|constructor].
    apply (tlv_intro [48] 0 true 16); [exact (low_tag 0 true 16 ltac:(lia) ltac:(lia))|unfold tag_fits; lia|exact IH|].
    destruct n; discriminate.
Qed.

(** Without a stack limit (which is how the code that validates signatures
    calls it), no stack is enough for every value. *)
Theorem C60_stack_refuted : forall frames, exists mem, bytes mem /\ lv true mem /\
  ber_skip_length frames true mem (length mem) = UB.
Proof.
  intros frames. exists (nested frames). split; [apply (proj1 lv_facts true), nested_lv|]. split; [apply nested_lv|].
  enough (G : forall rest size, (length (nested frames) <= size)%nat ->
            ber_skip_length frames true (nested frames ++ rest) size = UB).
  { specialize (G [] (length (nested frames)) ltac:(lia)). rewrite app_nil_r in G. exact G. }
  induction frames as [|frames IH]; intros rest size Hs; [reflexivity|].
  cbn [nested] in *. cbn [length app] in Hs. rewrite app_length in Hs. cbn [length] in Hs.
  destruct size as [|size]; [lia|]. cbn [ber_skip_length].
  change ((128 :: (48 :: nested frames) ++ [0; 0]) ++ rest) with (128 :: ((48 :: nested frames) ++ [0; 0]) ++ rest).
  assert (E : ber_fetch_length true (128 :: ((48 :: nested frames) ++ [0; 0]) ++ rest) (S size) = Ok (Got 1 (-1))) by reflexivity.
  rewrite E. change (0 <=? -1) with false. cbn iota. cbn [skipn skip_contents].
  rewrite <- app_assoc.
  assert (E2 : ber_fetch_tag ((48 :: nested frames) ++ [0; 0] ++ rest) (S size - 1) = Ok (Got 1 (16 * 4 + 0))).
  { change ((48 :: nested frames) ++ [0; 0] ++ rest) with ([48] ++ (nested frames ++ [0; 0] ++ rest)).
    apply (fetch_tag_complete [48] 0 true 16); [exact (low_tag 0 true 16 ltac:(lia) ltac:(lia))|unfold tag_fits; lia|cbn [length]; lia]. }
  rewrite E2. cbn [app skipn]. change (constructed_bit 48) with true.
  rewrite IH; [reflexivity|lia].
Qed.

Example C60_ex : ber_skip_length 20 true [128; 48; 128; 2; 1; 5; 0; 0; 4; 0; 0; 0; 99] 13 = Ok (Got 12 tt) /\
  lv true [128; 48; 128; 2; 1; 5; 0; 0; 4; 0; 0; 0].
Proof.
  assert (E : ber_skip_length 20 true [128; 48; 128; 2; 1; 5; 0; 0; 4; 0; 0; 0; 99] 13 = Ok (Got 12 tt)) by (vm_compute; reflexivity).
  split; [exact E|]. apply skip_sound in E; [apply (proj2 E)|repeat constructor; unfold is_byte; lia|cbn; lia].
Qed.

(** ** C61: what the signature of a signed object covers *)

(** [content] is the object as decoded; the decoder leaves a zero byte (at
    least) after it. *)
Definition stored_as (content mem : list Z) : Prop :=
  bytes content /\ exists slack, bytes slack /\ mem = content ++ 0 :: slack.

(** If the object is a SignedData whose signed attributes have a definite
    length, the signature is checked against exactly the SET OF encoding of
    those attributes: nothing less, nothing more. *)
Theorem C61_covers verify frames content mem sig L V rest : stored_as content mem ->
  (length content < frames)%nat -> Z.of_nat (length content) <= 2147483647 ->
  signed_attributes_at content L (Some (Z.of_nat (length V))) (V ++ rest) ->
  (certificate_validate_signature verify frames mem (length content) sig = Ok tt
   <-> verify (49 :: L ++ V) sig = true) /\
  certificate_validate_signature verify frames mem (length content) sig <> UB.
Proof.
  intros [Hb [slack [Hsl ->]]] Hfr Hi Hat. unfold certificate_validate_signature, digested.
  assert (Hn : bytes (0 :: slack)) by (constructor; [unfold is_byte; lia|exact Hsl]).
  destruct (find_complete frames content (0 :: slack) L _ _ Hb Hn ltac:(discriminate) Hfr Hi Hat) as [off [-> Hoff]].
  cbn [code].
  destruct (Z.ltb_spec (Z.of_nat (length V) + Z.of_nat (length L)) 0); [lia|].
  assert (Ln : Z.to_nat (Z.of_nat (length V) + Z.of_nat (length L)) = length (L ++ V)) by (rewrite app_length; lia).
  rewrite Ln.
  assert (Hlen : (off + length (L ++ V) <= length (content ++ 0%Z :: slack))%nat).
  { pose proof (f_equal (@length Z) Hoff) as F. rewrite skipn_length in F.
    assert (Q : length (L ++ (V ++ rest) ++ 0 :: slack) = (length L + (length V + length rest + S (length slack)))%nat)
      by (rewrite !app_length; reflexivity).
    assert (Q2 : length (L ++ V) = (length L + length V)%nat) by apply app_length. lia. }
  destruct (Nat.ltb_spec (length (content ++ 0 :: slack)) (off + length (L ++ V))); [lia|].
  rewrite Hoff, <- app_assoc, app_assoc, firstn_app_exact.
  destruct (verify (49 :: L ++ V) sig); split; try split; try discriminate; reflexivity.
Qed.

(** Whatever is accepted has the shape of a SignedData, and a signature over
    its signed attributes that verifies -- or else the attributes have no
    definite length, or a length that overruns the object. *)
Theorem C61_accepted verify frames content mem sig : stored_as content mem ->
  certificate_validate_signature verify frames mem (length content) sig = Ok tt ->
  exists L v rest, signed_attributes_at content L v rest /\
    (forall V rest', rest = V ++ rest' -> v = Some (Z.of_nat (length V)) -> verify (49 :: L ++ V) sig = true).
Proof.
  intros [Hb [slack [Hsl ->]]]. unfold certificate_validate_signature, digested.
  assert (Hn : bytes (0 :: slack)) by (constructor; [unfold is_byte; lia|exact Hsl]).
  destruct (find_signedAttrs frames (content ++ 0 :: slack) (length content)) as [[off n]| |] eqn:E; try discriminate.
  destruct (find_sound frames content (0 :: slack) n off Hb Hn ltac:(discriminate) E) as (L & v & rest & Hat & -> & Hoff).
  destruct (Z.ltb_spec (code v + Z.of_nat (length L)) 0); [discriminate|].
  destruct (Nat.ltb_spec (length (content ++ 0 :: slack)) (off + Z.to_nat (code v + Z.of_nat (length L)))); [discriminate|].
  destruct (verify _ sig) eqn:Ev; [|discriminate]. intros _. exists L, v, rest. split; [exact Hat|].
  intros V rest' -> ->. cbn [code] in Ev.
  assert (Ln : Z.to_nat (Z.of_nat (length V) + Z.of_nat (length L)) = length (L ++ V)) by (rewrite app_length; lia).
  rewrite Ln, Hoff, <- app_assoc, app_assoc, firstn_app_exact in Ev. exact Ev.
Qed.

(** Anything that is not such a SignedData is refused, without reading outside
    of the object and its terminator. *)
Theorem C61_refused verify frames content mem sig : stored_as content mem ->
  (length content < frames)%nat -> Z.of_nat (length content) <= 2147483647 ->
  (forall L v rest, ~ signed_attributes_at content L v rest) ->
  certificate_validate_signature verify frames mem (length content) sig = Err EINVAL.
Proof.
  intros [Hb [slack [Hsl ->]]] Hfr Hi Hno. unfold certificate_validate_signature, digested.
  assert (Hn : bytes (0 :: slack)) by (constructor; [unfold is_byte; lia|exact Hsl]).
  destruct (find_no_ub frames content (0 :: slack) Hb Hn ltac:(discriminate) Hfr Hi) as [->|[[off n] E]]; [reflexivity|].
  exfalso. destruct (find_sound frames content (0 :: slack) n off Hb Hn ltac:(discriminate) E) as (L & v & rest & Hat & _).
  exact (Hno _ _ _ Hat).
Qed.

(** The parts of an object before its signed attributes. *)
Definition ex_prefix : list Z :=
  [48; 128] ++ [2; 1; 3] ++ [49; 2; 5; 0] ++ [48; 3; 6; 1; 9] ++ [160; 2; 7; 7] ++ [49; 128] ++ [48; 128]
  ++ [2; 1; 3] ++ [128; 2; 9; 9] ++ [48; 2; 6; 0].

Lemma lv_short c n V : Z.of_nat (length V) = n -> n < 128 -> bytes V -> lv c (n :: V).
Proof.
  intros Hn Hl HV. apply (lv_definite c [n] n V); [left; constructor; lia|cbn; lia|exact HV|exact Hn].
Qed.

Lemma ex_shape L v rest : length_octets true L v -> length_fits v ->
  signed_attributes_at (ex_prefix ++ 160 :: L ++ rest) L v rest.
Proof.
  intros HL Hf. exists [48; 128], [2; 1; 3], [49; 2; 5; 0], [48; 3; 6; 1; 9], [160; 2; 7; 7], [49; 128], [48; 128], [2; 1; 3], [128; 2; 9; 9], [48; 2; 6; 0].
  split; [unfold ex_prefix; rewrite <- !app_assoc; reflexivity|].
  assert (Hh : forall t, header t [t; 128]) by (intros t; exists [128], None; split; [reflexivity|]; split; [constructor; reflexivity|exact I]).
  assert (Hfi : forall t c n V, Z.of_nat (length V) = n -> n < 128 -> bytes V -> field t c (t :: n :: V)).
  { intros t c n V A B C. exists (n :: V). split; [reflexivity|]. apply lv_short; assumption. }
  repeat match goal with |- _ /\ _ => split end; try apply Hh; try exact HL; try exact Hf;
    (apply Hfi; [reflexivity|lia|repeat constructor; unfold is_byte; lia]).
Qed.

Example C61_ex : exists L V, L = [3] /\ V = [1; 2; 3] /\
  stored_as (ex_prefix ++ 160 :: L ++ V ++ [77]) (ex_prefix ++ [160; 3; 1; 2; 3; 77; 0]) /\
  signed_attributes_at (ex_prefix ++ 160 :: L ++ V ++ [77]) L (Some (Z.of_nat (length V))) (V ++ [77]) /\
  digested 100 (ex_prefix ++ [160; 3; 1; 2; 3; 77; 0]) (length (ex_prefix ++ 160 :: L ++ V ++ [77])) = Ok [49; 3; 1; 2; 3].
Proof.
  exists [3], [1; 2; 3]. split; [reflexivity|]. split; [reflexivity|]. split.
  - split; [repeat constructor; unfold is_byte; lia|]. exists []. split; [constructor|reflexivity].
  - split; [|vm_compute; reflexivity]. apply (ex_shape [3] (Some 3) [1; 2; 3; 77]); [constructor; lia|cbn; lia].
Qed.

(** When the signed attributes have the indefinite length, the signature is
    checked against the single byte 0x31, whatever the attributes are. *)
Theorem C61_indefinite_refuted verify sig attrs : elements attrs -> Z.of_nat (length attrs) < 1000000 ->
  let content := ex_prefix ++ 160 :: 128 :: attrs ++ [0; 0] in
  lv true (128 :: attrs ++ [0; 0]) /\
  forall mem, stored_as content mem ->
  (certificate_validate_signature verify (S (length content)) mem (length content) sig = Ok tt <-> verify [49] sig = true).
Proof.
  intros He Hl content. split; [apply lv_indefinite; exact He|]. intros mem [Hb [slack [Hsl ->]]].
  assert (Hn : bytes (0 :: slack)) by (constructor; [unfold is_byte; lia|exact Hsl]).
  assert (Hat : signed_attributes_at content [128] None (attrs ++ [0; 0])).
  { apply (ex_shape [128] None (attrs ++ [0; 0])); [constructor; reflexivity|exact I]. }
  assert (Lc : length content = (length ex_prefix + S (S (length attrs + 2)))%nat).
  { unfold content. rewrite app_length. cbn [length]. rewrite app_length. reflexivity. }
  change (length ex_prefix) with 33%nat in Lc.
  unfold certificate_validate_signature, digested.
  destruct (find_complete (S (length content)) content (0 :: slack) [128] None _ Hb Hn ltac:(discriminate) ltac:(lia) ltac:(lia) Hat) as [off [-> Hoff]].
  cbn [code]. change (-1 + Z.of_nat (length [128])) with 0. change (0 <? 0) with false. cbn iota.
  change (Z.to_nat 0) with 0%nat.
  assert (Hlen : (off <= length (content ++ 0%Z :: slack))%nat).
  { destruct (Nat.le_gt_cases off (length (content ++ 0 :: slack))); [assumption|].
    rewrite skipn_all2 in Hoff by lia. discriminate. }
  destruct (Nat.ltb_spec (length (content ++ 0 :: slack)) (off + 0)); [lia|]. cbn [firstn].
  destruct (verify [49] sig); split; try discriminate; reflexivity.
Qed.

Example C61_indefinite_ex : elements [4; 1; 7].
Proof.
  apply (elements_cons [4] [1; 7] []); [|constructor].
  apply (tlv_intro [4] 0 false 4); [exact (low_tag 0 false 4 ltac:(lia) ltac:(lia))|unfold tag_fits; lia| |discriminate].
  apply lv_short; [reflexivity|lia|repeat constructor; unfold is_byte; lia].
Qed.

(** And a length that overruns the object makes the digest read past its end. *)
Theorem C61_overread_refuted : exists content mem, stored_as content mem /\
  (exists L v rest, signed_attributes_at content L v rest) /\
  forall verify sig, certificate_validate_signature verify 100 mem (length content) sig = UB.
Proof.
  exists (ex_prefix ++ [160; 127; 1]), (ex_prefix ++ [160; 127; 1; 0]). split.
  - split; [repeat constructor; unfold is_byte; lia|]. exists []. split; [constructor|reflexivity].
  - split; [exists [127], (Some 127), [1]; apply (ex_shape [127] (Some 127) [1]); [constructor; lia|cbn; lia]|].
    intros verify sig. reflexivity.
Qed.
