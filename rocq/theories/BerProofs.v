(** Lemmas about the BER model (no property is stated here). *)
From Verif Require Import Base BaseLemmas PduWireProofs Ber BerSpec.

Notation length := List.length.

(** ** Bytes by enumeration *)
Lemma byte_enum (P : Z -> bool) : forallb P (map Z.of_nat (seq 0 256)) = true ->
  forall b, is_byte b -> P b = true.
Proof.
  intros H b Hb. rewrite forallb_forall in H. apply H. apply in_map_iff.
  exists (Z.to_nat b). split; [unfold is_byte in Hb; lia|]. apply in_seq. unfold is_byte in Hb; lia.
Qed.

Lemma land128 b : is_byte b -> (Z.land b 128 =? 0) = (b <? 128).
Proof.
  intros H. apply (byte_enum (fun b => Bool.eqb (Z.land b 128 =? 0) (b <? 128))) in H; [|vm_compute; reflexivity].
  apply eqb_prop; exact H.
Qed.
Lemma land127 b : is_byte b -> Z.land b 127 = if b <? 128 then b else b - 128.
Proof.
  intros H. apply (byte_enum (fun b => Z.land b 127 =? if b <? 128 then b else b - 128)) in H; [|vm_compute; reflexivity].
  lia.
Qed.
Lemma land31 b : is_byte b -> Z.land b 31 = b mod 32.
Proof.
  intros H. apply (byte_enum (fun b => Z.land b 31 =? b mod 32)) in H; [|vm_compute; reflexivity]. lia.
Qed.
Lemma land32 b : is_byte b -> constructed_bit b = ((b / 32) mod 2 =? 1).
Proof.
  intros H. apply (byte_enum (fun b => Bool.eqb (constructed_bit b) ((b / 32) mod 2 =? 1))) in H; [|vm_compute; reflexivity].
  apply eqb_prop; exact H.
Qed.
Lemma shift6 b : Z.shiftr b 6 = b / 64.
Proof. rewrite Z.shiftr_div_pow2 by lia. reflexivity. Qed.

Lemma shiftr_zero a k : 0 <= a -> 0 <= k -> (Z.shiftr a k =? 0) = (a <? 2 ^ k).
Proof.
  intros Ha Hk. rewrite Z.shiftr_div_pow2 by lia.
  assert (0 < 2 ^ k) by (apply Z.pow_pos_nonneg; lia).
  destruct (Z.ltb_spec a (2 ^ k)); [rewrite Z.div_small by lia; reflexivity|].
  assert (1 <= a / 2 ^ k) by (apply Z.div_le_lower_bound; lia). lia.
Qed.

(** ** Numerals *)
Lemma be256_app a b v : fold_left (fun v b => v * 256 + b) (a ++ b) v
  = fold_left (fun v b => v * 256 + b) b (fold_left (fun v b => v * 256 + b) a v).
Proof. apply fold_left_app. Qed.
Lemma fold256_mono bs : forall v, bytes bs -> 0 <= v -> v <= fold_left (fun v b => v * 256 + b) bs v.
Proof.
  induction bs as [|b bs IH]; cbn [fold_left]; intros v H Hv; [lia|].
  inversion H; subst. unfold is_byte in *.
  specialize (IH (v * 256 + b) H3). lia.
Qed.
Lemma fold128_mono bs : forall v, Forall (fun c => 0 <= c < 128) bs -> 0 <= v -> v <= fold_left (fun v b => v * 128 + b) bs v.
Proof.
  induction bs as [|b bs IH]; cbn [fold_left]; intros v H Hv; [lia|].
  inversion H; subst. specialize (IH (v * 128 + b) H3). lia.
Qed.

(** ** Length octets *)
Lemma fetch_loop_spec mem : forall oct size skipped len, bytes mem -> (size <= length mem + skipped)%nat ->
  0 <= len ->
  fetch_length_loop oct mem size skipped len =
    (if (oct + skipped <=? size)%nat
     then let v := fold_left (fun v b => v * 256 + b) (firstn oct mem) len in
          if v <? 4611686018427387904 then Ok (Got (oct + skipped) v) else Ok Bad
     else fetch_length_loop oct mem size skipped len).
Proof.
  induction mem as [|b mem IH]; intros oct size skipped len Hb Hs Hl.
  - destruct oct; cbn [fetch_length_loop plus].
    + destruct (Nat.leb_spec skipped size); [|reflexivity]. cbn [firstn fold_left].
      unfold RSSIZE_MAX. destruct (Z.ltb_spec len 0); [lia|]. cbn [orb].
      destruct (Z.ltb_spec 4611686018427387903 len), (Z.ltb_spec len 4611686018427387904); try lia; reflexivity.
    + cbn [length] in Hs. destruct (Nat.leb_spec (S (oct + skipped)) size); [lia|reflexivity].
  - destruct oct; cbn [fetch_length_loop plus].
    + destruct (Nat.leb_spec skipped size); [|reflexivity]. cbn [firstn fold_left].
      unfold RSSIZE_MAX. destruct (Z.ltb_spec len 0); [lia|]. cbn [orb].
      destruct (Z.ltb_spec 4611686018427387903 len), (Z.ltb_spec len 4611686018427387904); try lia; reflexivity.
    + destruct (Nat.leb_spec (S (oct + skipped)) size) as [Hle|]; [|reflexivity].
      destruct (Nat.leb_spec (S skipped) size); [|lia].
      inversion Hb as [|? ? Hb1 Hb2]; subst.
      rewrite shiftr_zero by lia. change (2 ^ 55) with 36028797018963968.
      cbn [firstn fold_left].
      assert (Hstep : Z.lor (Z.shiftl len 8) b = len * 256 + b).
      { rewrite lor_shift_add by (unfold is_byte in Hb1; lia). reflexivity. }
      destruct (Z.ltb_spec len 36028797018963968).
      * rewrite Hstep, IH; [|assumption|cbn [length] in Hs; lia|unfold is_byte in Hb1; lia].
        destruct (Nat.leb_spec (oct + S skipped) size); [|lia].
        rewrite Nat.add_succ_r. reflexivity.
      * pose proof (fold256_mono (firstn oct mem) (len * 256 + b)) as M.
        assert (bytes (firstn oct mem)) by (apply Forall_forall; intros x Hx;
          apply (proj1 (Forall_forall _ _) Hb2); rewrite <- (firstn_skipn oct mem); apply in_app_iff; auto).
        cbn zeta. unfold is_byte in Hb1.
        destruct (Z.ltb_spec (fold_left (fun v b0 => v * 256 + b0) (firstn oct mem) (len * 256 + b)) 4611686018427387904); [lia|reflexivity].
Qed.

(** Too short for the announced number of bytes: either "want more" or an
    overflow that no continuation can mend. *)
Lemma fetch_loop_short mem : forall oct size skipped len, bytes mem -> (size <= length mem + skipped)%nat ->
  0 <= len -> (skipped <= size)%nat -> (size < oct + skipped)%nat ->
  fetch_length_loop oct mem size skipped len = Ok More \/
  (fetch_length_loop oct mem size skipped len = Ok Bad /\
   4611686018427387904 <= fold_left (fun v b => v * 256 + b) (firstn (size - skipped) mem) len).
Proof.
  induction mem as [|b mem IH]; intros oct size skipped len Hb Hs Hl Hk Ho.
  - destruct oct; [cbn [plus] in Ho; lia|]. cbn [length plus] in *. cbn [fetch_length_loop].
    destruct (Nat.leb_spec (S skipped) size); [lia|]. left; reflexivity.
  - destruct oct; [cbn [plus] in Ho; lia|]. cbn [fetch_length_loop].
    destruct (Nat.leb_spec (S skipped) size) as [Hlt|]; [|left; reflexivity].
    inversion Hb as [|? ? Hb1 Hb2]; subst.
    assert (Hf : firstn (size - skipped) (b :: mem) = b :: firstn (size - S skipped) mem)
      by (replace (size - skipped)%nat with (S (size - S skipped)) by lia; reflexivity).
    rewrite Hf. cbn [fold_left].
    rewrite shiftr_zero by lia. change (2 ^ 55) with 36028797018963968.
    assert (Hstep : Z.lor (Z.shiftl len 8) b = len * 256 + b).
    { rewrite lor_shift_add by (unfold is_byte in Hb1; lia). reflexivity. }
    destruct (Z.ltb_spec len 36028797018963968).
    + rewrite Hstep. apply IH; [assumption|cbn [length] in Hs; lia|unfold is_byte in Hb1; lia|lia|lia].
    + right. split; [reflexivity|].
      pose proof (fold256_mono (firstn (size - S skipped) mem) (len * 256 + b)) as M.
      assert (bytes (firstn (size - S skipped) mem)) by (apply Forall_forall; intros x Hx;
          apply (proj1 (Forall_forall _ _) Hb2); rewrite <- (firstn_skipn (size - S skipped) mem); apply in_app_iff; auto).
      unfold is_byte in Hb1. lia.
Qed.

Lemma bytes_firstn n l : bytes l -> bytes (firstn n l).
Proof.
  intros H. apply Forall_forall. intros x Hx. apply (proj1 (Forall_forall _ _) H).
  rewrite <- (firstn_skipn n l). apply in_app_iff; auto.
Qed.
Lemma bytes_skipn n l : bytes l -> bytes (skipn n l).
Proof.
  intros H. apply Forall_forall. intros x Hx. apply (proj1 (Forall_forall _ _) H).
  rewrite <- (firstn_skipn n l). apply in_app_iff; auto.
Qed.

Definition code (v : option Z) : Z := match v with Some n => n | None => -1 end.

Lemma fetch_length_sound c mem size n v : bytes mem -> (size <= length mem)%nat ->
  ber_fetch_length c mem size = Ok (Got n v) ->
  exists o, v = code o /\ accepted_length c (firstn n mem) o /\ length_fits o /\ (1 <= n <= size)%nat.
Proof.
  unfold ber_fetch_length. intros Hb Hs.
  destruct (Nat.eqb_spec size 0); [discriminate|].
  destruct mem as [|oct mem]; [discriminate|]. inversion Hb as [|? ? Hb1 Hb2]; subst.
  rewrite land128 by assumption. unfold is_byte in Hb1.
  destruct (Z.ltb_spec oct 128).
  - intros E; injection E as <- <-. exists (Some oct). cbn [firstn code length_fits].
    split; [reflexivity|]. split; [left; constructor; lia|]. split; [lia|lia].
  - destruct c; cbn [andb].
    + destruct (Z.eqb_spec oct 128).
      * intros E; injection E as <- <-. exists None. subst oct. cbn [firstn code length_fits].
        split; [reflexivity|]. split; [left; constructor; reflexivity|]. split; [exact I|lia].
      * destruct (Z.eqb_spec oct 255); [discriminate|].
        rewrite land127 by (unfold is_byte; lia). destruct (Z.ltb_spec oct 128); [lia|].
        destruct (Nat.le_gt_cases (Z.to_nat (oct - 128) + 1) size).
        -- rewrite fetch_loop_spec by (cbn [length] in Hs; try assumption; lia).
           destruct (Nat.leb_spec (Z.to_nat (oct - 128) + 1) size); [|lia]. cbn zeta.
           destruct (Z.ltb_spec (fold_left (fun v b => v * 256 + b) (firstn (Z.to_nat (oct - 128)) mem) 0) 4611686018427387904);
             [|discriminate].
           intros E; injection E as <- <-. exists (Some (be256 (firstn (Z.to_nat (oct - 128)) mem))).
           split; [reflexivity|]. rewrite Nat.add_1_r. cbn [firstn].
           assert (L : length (firstn (Z.to_nat (oct - 128)) mem) = Z.to_nat (oct - 128))
             by (apply firstn_length_le; cbn [length] in Hs; lia).
           split; [|split; [assumption|lia]]. left.
           replace oct with (128 + Z.of_nat (length (firstn (Z.to_nat (oct - 128)) mem))) at 1 by (rewrite L; lia).
           apply long_form; [apply bytes_firstn; assumption|rewrite L; lia].
        -- destruct (fetch_loop_short mem (Z.to_nat (oct - 128)) size 1 0) as [E|[E _]];
             try assumption; try lia; [cbn [length] in Hs; lia|rewrite E; discriminate|rewrite E; discriminate].
    + destruct (Z.eqb_spec oct 255); [discriminate|].
      rewrite land127 by (unfold is_byte; lia). destruct (Z.ltb_spec oct 128); [lia|].
      destruct (Nat.le_gt_cases (Z.to_nat (oct - 128) + 1) size).
      * rewrite fetch_loop_spec by (cbn [length] in Hs; try assumption; lia).
        destruct (Nat.leb_spec (Z.to_nat (oct - 128) + 1) size); [|lia]. cbn zeta.
        destruct (Z.ltb_spec (fold_left (fun v b => v * 256 + b) (firstn (Z.to_nat (oct - 128)) mem) 0) 4611686018427387904);
          [|discriminate].
        intros E; injection E as <- <-. exists (Some (be256 (firstn (Z.to_nat (oct - 128)) mem))).
        split; [reflexivity|]. rewrite Nat.add_1_r. cbn [firstn].
        assert (L : length (firstn (Z.to_nat (oct - 128)) mem) = Z.to_nat (oct - 128))
          by (apply firstn_length_le; cbn [length] in Hs; lia).
        split; [|split; [assumption|lia]].
        destruct (Z.eqb_spec oct 128).
        -- right. subst oct. cbn [Z.sub Z.opp Z.add Z.pos_sub Z.to_nat firstn]. auto.
        -- left. replace oct with (128 + Z.of_nat (length (firstn (Z.to_nat (oct - 128)) mem))) at 1 by (rewrite L; lia).
           apply long_form; [apply bytes_firstn; assumption|rewrite L; lia].
      * destruct (fetch_loop_short mem (Z.to_nat (oct - 128)) size 1 0) as [E|[E _]];
          try assumption; try lia; [cbn [length] in Hs; lia|rewrite E; discriminate|rewrite E; discriminate].
Qed.

Lemma accepted_bytes c L o : accepted_length c L o -> bytes L /\ (1 <= length L)%nat.
Proof.
  intros [H|[_ [-> _]]].
  - destruct H.
    + split; [|cbn; lia]. repeat constructor; unfold is_byte; lia.
    + split; [|cbn; lia]. constructor; [unfold is_byte; lia|assumption].
    + split; [|cbn; lia]. repeat constructor; unfold is_byte; lia.
  - split; [|cbn; lia]. repeat constructor; unfold is_byte; lia.
Qed.

Lemma firstn_app_exact {A} (a b : list A) : firstn (length a) (a ++ b) = a.
Proof. rewrite firstn_app, Nat.sub_diag, firstn_all. cbn [firstn]. apply app_nil_r. Qed.
Lemma skipn_app_exact {A} (a b : list A) : skipn (length a) (a ++ b) = b.
Proof. rewrite skipn_app, Nat.sub_diag, skipn_all. reflexivity. Qed.

Lemma fetch_length_complete c L o rest size : accepted_length c L o -> bytes rest ->
  (length L <= size <= length (L ++ rest))%nat ->
  ber_fetch_length c (L ++ rest) size =
    Ok (if match o with Some n => n <? 4611686018427387904 | None => true end then Got (length L) (code o) else Bad).
Proof.
  intros H Hr Hs. unfold ber_fetch_length.
  pose proof (accepted_bytes c L o H) as [Hb Hl].
  destruct (Nat.eqb_spec size 0); [lia|].
  destruct H as [H|[-> [-> ->]]].
  - destruct H as [b Hb'|bs Hbs Hn|E]; cbn [app].
    + rewrite land128 by (unfold is_byte; lia). destruct (Z.ltb_spec b 128); [|lia].
      destruct (Z.ltb_spec b 4611686018427387904); [reflexivity|lia].
    + rewrite land128 by (unfold is_byte; lia). destruct (Z.ltb_spec (128 + Z.of_nat (length bs)) 128); [lia|].
      destruct (Z.eqb_spec (128 + Z.of_nat (length bs)) 128); [lia|]. rewrite andb_false_r.
      destruct (Z.eqb_spec (128 + Z.of_nat (length bs)) 255); [lia|].
      rewrite land127 by (unfold is_byte; lia). destruct (Z.ltb_spec (128 + Z.of_nat (length bs)) 128); [lia|].
      replace (Z.to_nat (128 + Z.of_nat (length bs) - 128)) with (length bs) by lia.
      cbn [length app] in Hs. rewrite fetch_loop_spec; [|apply Forall_app; auto|lia|lia].
      destruct (Nat.leb_spec (length bs + 1) size); [|lia]. cbn zeta.
      rewrite firstn_app_exact. fold (be256 bs). cbn [length code]. rewrite Nat.add_1_r.
      destruct (be256 bs <? 4611686018427387904); reflexivity.
    + rewrite E. rewrite land128 by (unfold is_byte; lia). cbn [Z.ltb Z.compare Pos.compare Pos.compare_cont andb Z.eqb Pos.eqb]. reflexivity.
  - cbn [app]. rewrite land128 by (unfold is_byte; lia).
    change (128 <? 128) with false. cbn [andb]. change (128 =? 255) with false. cbn iota.
    rewrite land127 by (unfold is_byte; lia). change (128 <? 128) with false. cbn iota.
    change (Z.to_nat (128 - 128)) with 0%nat. destruct rest; reflexivity.
Qed.

Lemma fetch_length_total c mem size : bytes mem -> (size <= length mem)%nat ->
  exists r, ber_fetch_length c mem size = Ok r.
Proof.
  intros Hb Hs. unfold ber_fetch_length. destruct (Nat.eqb_spec size 0); [eauto|].
  destruct mem as [|oct mem]; [cbn in Hs; lia|]. inversion Hb as [|? ? Hb1 Hb2]; subst.
  destruct (Z.land oct 128 =? 0); [eauto|]. destruct (c && (oct =? 128)); [eauto|].
  destruct (oct =? 255); [eauto|].
  destruct (Nat.le_gt_cases (Z.to_nat (Z.land oct 127) + 1) size).
  - rewrite fetch_loop_spec by (cbn [length] in Hs; try assumption; lia).
    destruct (Nat.leb_spec (Z.to_nat (Z.land oct 127) + 1) size); [|lia]. cbn zeta.
    destruct (_ <? _); eauto.
  - destruct (fetch_loop_short mem (Z.to_nat (Z.land oct 127)) size 1 0) as [E|[E _]];
          try assumption; try lia; [cbn [length] in Hs; lia|rewrite E; eauto|rewrite E; eauto].
Qed.
