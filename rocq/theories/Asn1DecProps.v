(** C64 and C65: the asn1c decoder, on the types the validator decodes. *)
From Coq Require Import Lia.
From Verif Require Import Base Ber BerSpec BerProofs BerProofs2 BerProofs4.
From Verif Require Import Asn1Dec Asn1DecSpec Asn1Types Asn1DecProofs6 Asn1DecProofs7 Asn1DecProofs9.

Lemma decoded_ok t : In t decoded_types -> wf t = true /\ usable t 0.
Proof.
  intros H. split.
  - assert (F : forallb wf decoded_types = true) by (vm_compute; reflexivity). rewrite forallb_forall in F. apply F. assumption.
  - cbn [decoded_types In] in H. repeat (destruct H as [<-|H]; [exact I|]). contradiction.
Qed.

(** C64.  The decoder accepts exactly the encodings of the type: it succeeds,
    with the value [v] and [n] bytes consumed, if and only if the first [n]
    bytes are an encoding of [v].  (Two turns are enough for the loop of a
    CHOICE inside an EXPLICIT tag whenever it ends.) *)
Theorem C64_decoder_exact t turns bs n v : In t decoded_types -> bytes bs -> (2 <= turns)%nat ->
  ber_decode turns t bs = Done n v <-> (n <= length bs)%nat /\ enc t 0 (firstn n bs) v.
Proof.
  intros Ht Hb Hturns. destruct (decoded_ok t Ht) as (Hwf & Hu). split.
  - intros E. apply (decode_sound turns t 0 Hwf Hu bs n v Hb E).
  - intros (Hn & Henc). pose proof (decode_complete turns Hturns t 0 Hwf Hu _ _ (skipn n bs) Henc) as H.
    rewrite firstn_skipn, firstn_length_le in H by assumption. apply H. assumption.
Qed.

(** It never reads outside of the buffer. *)
Theorem C64_decoder_in_bounds t turns bs : In t decoded_types -> bytes bs -> ber_decode turns t bs <> Fault.
Proof. intros Ht Hb. destruct (decoded_ok t Ht) as (Hwf & Hu). apply (decode_no_fault turns t 0 Hwf Hu bs Hb). Qed.

(** No bytes encode two values, and no encoding is the beginning of another. *)
Theorem C64_unambiguous t b b' r r' v v' : In t decoded_types -> bytes (b ++ r) ->
  enc t 0 b v -> enc t 0 b' v' -> b ++ r = b' ++ r' -> b = b' /\ v = v'.
Proof.
  intros Ht Hb H H' E. destruct (decoded_ok t Ht) as (Hwf & Hu).
  pose proof (decode_complete 2 (le_n 2) t 0 Hwf Hu _ _ r H Hb) as D.
  rewrite E in Hb. pose proof (decode_complete 2 (le_n 2) t 0 Hwf Hu _ _ r' H' Hb) as D'.
  rewrite E, D' in D. injection D as D1 D2. split; [|congruence].
  assert (Q : firstn (length b) (b ++ r) = firstn (length b') (b' ++ r')) by (rewrite E, D1; reflexivity).
  rewrite !firstn_app_exact in Q. assumption.
Qed.

(** What follows the encoding is ignored. *)
Theorem C64_trailing_ignored t turns b v rest : In t decoded_types -> bytes (b ++ rest) -> (2 <= turns)%nat ->
  enc t 0 b v -> ber_decode turns t (b ++ rest) = Done (length b) v.
Proof. intros Ht Hb Hturns H. destruct (decoded_ok t Ht) as (Hwf & Hu). apply (decode_complete turns Hturns t 0 Hwf Hu _ _ rest H Hb). Qed.

(** A ROA for AS 65536, 10.0.0.0/8 up to /24. *)
Definition ex_roa_bytes : list Z :=
  [48; 25; 2; 3; 1; 0; 0; 48; 18; 48; 16; 4; 2; 0; 1; 48; 10; 48; 8; 3; 2; 0; 10; 2; 2; 0; 24].
Definition ex_roa_value : value :=
  VSeq [None; Some (VBytes [1; 0; 0]);
        Some (VOf [VSeq [Some (VBytes [0; 1]);
                         Some (VOf [VSeq [Some (VBits [10] 0); Some (VBytes [0; 24])]])]])].

Example C64_example : bytes ex_roa_bytes /\ enc t_RouteOriginAttestation 0 ex_roa_bytes ex_roa_value
  /\ forall rest, bytes rest -> ber_decode 2 t_RouteOriginAttestation (ex_roa_bytes ++ rest) = Done 27 ex_roa_value.
Proof.
  assert (Hb : bytes ex_roa_bytes) by (repeat (constructor; [unfold is_byte; lia|]); constructor).
  assert (Henc : enc t_RouteOriginAttestation 0 ex_roa_bytes ex_roa_value).
  { assert (D : ber_decode 2 t_RouteOriginAttestation ex_roa_bytes = Done 27 ex_roa_value) by (vm_compute; reflexivity).
    apply C64_decoder_exact in D; [|left; reflexivity|assumption|lia]. apply D. }
  split; [assumption|]. split; [assumption|]. intros rest Hr.
  apply (C64_trailing_ignored t_RouteOriginAttestation 2 ex_roa_bytes); [left; reflexivity|apply Forall_app; split; assumption|lia|assumption].
Qed.

(** Neither is it a prefix of itself with a byte missing; a wrong tag, or a
    length that does not fit, and it is refused. *)
Example C64_example_refused :
  (forall n, (n < 27)%nat -> ber_decode 2 t_RouteOriginAttestation (firstn n ex_roa_bytes) = Failed)
  /\ ber_decode 2 t_RouteOriginAttestation (48 :: 24 :: skipn 2 ex_roa_bytes) = Failed
  /\ ber_decode 2 t_RouteOriginAttestation (49 :: 25 :: skipn 2 ex_roa_bytes) = Failed.
Proof.
  split; [|split; vm_compute; reflexivity]. intros n Hn.
  do 27 (destruct n as [|n]; [vm_compute; reflexivity|]). lia.
Qed.

(** C65.  The decoder ends, whatever the bytes, for all these types but one. *)
Theorem C65_decoder_ends_partial t turns bs : In t decoded_types -> t <> t_ASIdentifiers -> bytes bs ->
  ber_decode turns t bs <> Spin.
Proof.
  intros Ht Hne Hb. destruct (decoded_ok t Ht) as (Hwf & Hu). apply (decode_no_spin bytes turns bytes_closed t 0 Hwf Hu); [|assumption].
  left. cbn [decoded_types In] in Ht.
  repeat (destruct Ht as [<-|Ht]; [first [vm_compute; reflexivity|congruence]|]). contradiction.
Qed.

(** And for that one too, unless the octet 0x80 (which starts every indefinite
    length) is somewhere. *)
Theorem C65_ASIdentifiers_ends_partial turns bs : bytes bs -> ~ In 128 bs -> (0 < turns)%nat ->
  ber_decode turns t_ASIdentifiers bs <> Spin.
Proof.
  intros Hb Hn Ht. destruct (decoded_ok t_ASIdentifiers) as (Hwf & Hu); [cbn; tauto|].
  apply (decode_no_spin no_indefinite turns no_indefinite_closed t_ASIdentifiers 0 Hwf Hu); [|split; assumption].
  right. auto.
Qed.

(** AS resources 64496 to 64511: they are decoded. *)
Example C65_example : let bs := [48; 16; 160; 14; 48; 12; 48; 10; 2; 3; 0; 251; 240; 2; 3; 0; 251; 255] in
  bytes bs /\ ~ In 128 bs
  /\ ber_decode 1 t_ASIdentifiers bs = Done 18 (VSeq [Some (VChoice 1 (VOf [VChoice 1 (VSeq [Some (VBytes [0; 251; 240]); Some (VBytes [0; 251; 255])])])); None]).
Proof.
  split; [repeat (constructor; [unfold is_byte; lia|]); constructor|]. split; [cbn; lia|]. vm_compute. reflexivity.
Qed.

(** The AS resources of a certificate: asnum, in an EXPLICIT [0] of indefinite
    length, inherited; then a zero, and a byte that is not one. *)
Definition ex_hang : list Z := [48; 6; 160; 128; 5; 0; 0; 1].

(** The full property (for every type) is false: with these bytes the decoder
    is still running after any number of turns. *)
Theorem C65_ASIdentifiers_hang_refuted : In t_ASIdentifiers decoded_types /\ bytes ex_hang
  /\ forall turns, ber_decode turns t_ASIdentifiers ex_hang = Spin.
Proof.
  split; [cbn; tauto|]. split; [repeat (constructor; [unfold is_byte; lia|]); constructor|]. intros turns.
  assert (S : forall k v, choice_eocs turns 1 [0; 1] k v = Spin) by (induction turns as [|turns IH]; intros k v; [reflexivity|cbn; apply IH]).
  assert (Q : exists r, forall turns, ber_decode turns t_ASIdentifiers ex_hang
    = match choice_eocs turns 1 [0; 1] 4 (VChoice 0 VNull) with Done n v => r turns n v | Failed => Failed | Fault => Fault | Spin => Spin end).
  { exists (fun turns n v => seq_loop [(2, 0%nat); (6, 1%nat)] (fields turns [Member (Some 6) 1 1 false t_ASIdentifierChoice]) 1 None
      (advance 6 n) (skipn n (skipn 2 ex_hang)) (2 + n) [Some v]). intros turns'. reflexivity. }
  destruct Q as (r & Q). rewrite Q, S. reflexivity.
Qed.

(** The dialect, by example.  A BIT STRING without even the octet that counts
    the unused bits is the empty one; the header of an EXPLICIT tag around a
    CHOICE may be primitive (tag [0] of class context: 0x80); the segments of
    a constructed OCTET STRING are concatenated. *)
Example C64_dialect :
  ber_decode 2 t_IPAddrBlocks [48; 10; 48; 8; 4; 2; 0; 1; 48; 2; 3; 0]
    = Done 12 (VOf [VSeq [Some (VBytes [0; 1]); Some (VChoice 1 (VOf [VChoice 0 (VBits [] 0)]))]])
  /\ ber_decode 2 t_ASIdentifiers [48; 4; 128; 2; 5; 0] = Done 6 (VSeq [Some (VChoice 0 VNull); None])
  /\ ber_decode 2 t_MessageDigest [36; 128; 4; 1; 7; 36; 3; 4; 1; 8; 0; 0] = Done 12 (VBytes [7; 8]).
Proof. repeat split; vm_compute; reflexivity. Qed.

Print Assumptions C64_decoder_exact.
Print Assumptions C64_decoder_in_bounds.
Print Assumptions C64_unambiguous.
Print Assumptions C64_trailing_ignored.
Print Assumptions C65_decoder_ends_partial.
Print Assumptions C65_ASIdentifiers_ends_partial.
Print Assumptions C65_ASIdentifiers_hang_refuted.
