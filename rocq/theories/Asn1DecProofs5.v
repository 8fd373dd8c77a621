(** Strings: OCTET_STRING_decode_ber accepts exactly the encodings of
    Asn1DecSpec.v. *)
From Coq Require Import Lia.
From Verif Require Import Base Ber BerSpec BerProofs BerProofs2 BerProofs4.
From Verif Require Import Asn1Dec Asn1DecSpec Asn1DecProofs Asn1DecProofs2 Asn1DecProofs3 Asn1DecProofs4.

Definition start (bs : list Z) : machine :=
  {| k_stack := []; k_bs := bs; k_acc := []; k_unused := 0; k_consumed := 0 |}.

(** The first turn: the outermost header. *)
Lemma first_turn v mode all bs tl ll tag o : bytes bs -> sees bs tl ll tag (code o) true ->
  (code o =? -1) = match o with None => true | Some _ => false end -> -1 <= code o -> (2 <= tl + ll)%nat ->
  string_turn v mode all (start bs) =
  let h := (tl + ll)%nat in
  match (match v with ANY => if mode =? 1 then Some [] else append [] (firstn h bs) | _ => Some [] end) with
  | None => Leave Failed
  | Some acc => Next {| k_stack := [{| f_left := code o; f_got := Z.of_nat h; f_nulls := match o with None => true | _ => false end |}];
      k_bs := skipn h bs; k_acc := acc; k_unused := 0; k_consumed := h |}
  end.
Proof.
  intros Hb Hs Hcode H0 N2.
  rewrite (turn_sees v mode all (start bs) tl ll tag (code o) true Hb I Hs).
  unfold after_header, start. cbn [k_stack]. unfold string_push. cbn [k_stack k_bs k_acc k_unused k_consumed length].
  destruct (Z.ltb_spec (code o + Z.of_nat (tl + ll)) 0); [lia|]. cbn zeta.
  change (negb (-1 =? -1)) with false. cbn [andb]. change (negb (0 =? 0)%nat) with false. rewrite orb_false_r, Hcode.
  destruct v; try reflexivity; destruct (mode =? 1); reflexivity.
Qed.

Lemma machine_sound v mode all turns bs b0 bs' n acc u : bs = b0 :: bs' -> constructed_bit b0 = true -> bytes bs ->
  string_run turns v mode all (start bs) = Done n (acc, u) ->
  exists inner cs, (n <= length bs)%nat /\ constructed_string (tgs v all) (firstn n bs) inner cs
    /\ acc = gain v cs (if mode =? 1 then inner else firstn n bs) /\ small acc /\ u = unused_after v 0 cs.
Proof.
  intros E0 Hc0 Hb Hrun. destruct turns as [|turns]; [discriminate|]. cbn [string_run] in Hrun.
  destruct (sees_or_blind bs Hb) as [(tl & ll & tag & len & c & Hs)|Hbl].
  2:{ rewrite turn_blind in Hrun; [discriminate|exact Hb|exact I|exact Hbl]. }
  assert (c = true).
  { destruct Hs as (_ & (b & r & E & <-) & _). rewrite E0 in E. injection E as <- _. assumption. }
  subst c.
  destruct (hdr_sound _ _ _ _ _ _ Hb Hs) as (o & -> & Hh & Hle & N1 & N2 & _ & Hcode).
  assert (H0 : -1 <= code o) by (destruct o as [l|]; cbn [code]; [apply hdr_nonneg in Hh; lia|lia]).
  rewrite (first_turn v mode all bs tl ll tag o Hb Hs Hcode H0) in Hrun by lia. cbn zeta in Hrun.
  set (h := (tl + ll)%nat) in *.
  match type of Hrun with context [match ?x with None => Leave Failed | _ => _ end] => set (A := x) in Hrun end.
  assert (HA : forall a, A = Some a -> a = gain v [] (if mode =? 1 then [] else firstn h bs) /\ small a).
  { intros a E. unfold A in E. destruct v; cbn [gain]; try (injection E as <-; split; [reflexivity|unfold small; cbn; lia]).
    destruct (mode =? 1); [injection E as <-; split; [reflexivity|unfold small; cbn; lia]|apply append_spec in E; assumption]. }
  destruct A as [a|]; [|discriminate]. destruct (HA a eq_refl) as (Ea & Sa). clear HA.
  eapply run_frame in Hrun; [|reflexivity|cbn [k_bs]; apply bytes_skipn; assumption|exact Sa|cbn [f_left]; lia
    |cbn [f_nulls f_left]; destruct o as [l|]; [apply hdr_nonneg in Hh; cbn [code]; lia|discriminate]].
  destruct Hrun as (t' & k' & f' & ss & cs & T' & R' & K' & F1 & F2 & B' & LL & GG & CC & SS & AA & SA & UU).
  cbn [f_nulls f_left f_got k_bs k_acc k_consumed k_unused length] in *.
  destruct t' as [|t']; [discriminate|]. cbn [string_run] in R'.
  rewrite (turn_pop v mode all k' f' [] K') in R' by (unfold complete; rewrite F1, F2; reflexivity).
  cbn [string_pop] in R'. injection R' as <- <- <-.
  change (0 =? 0)%nat with true in AA. rewrite andb_true_r in AA.
  set (indef := match o with None => true | Some _ => false end) in *.
  set (tail := if indef then [0; 0] else []) in *.
  assert (Ebs : bs = (firstn h bs ++ ss ++ tail) ++ k_bs k').
  { rewrite <- !app_assoc, <- B'. symmetry. apply firstn_skipn. }
  assert (Lh : length (firstn h bs) = h) by (apply firstn_length_le; assumption).
  assert (En : k_consumed k' = length (firstn h bs ++ ss ++ tail)) by (rewrite CC, !app_length; lia).
  assert (Ef : firstn (k_consumed k') bs = firstn h bs ++ ss ++ tail).
  { rewrite En. rewrite Ebs at 2. apply firstn_app_exact. }
  exists ss, cs. split; [pose proof (f_equal (@length Z) Ebs) as Q; rewrite app_length in Q; lia|].
  rewrite Ef. split; [|split; [|split; [assumption|exact UU]]].
  - exists indef. split; [|exact SS]. apply hdr_weaken in Hh.
    destruct o as [l|]; unfold tail, indef.
    + rewrite app_nil_r. apply framed_definite. constructor. rewrite <- LL by reflexivity. exact Hh.
    + apply (framed_indefinite [None] true); [reflexivity|]. constructor. exact Hh.
  - rewrite AA, Ea, gain_raw. destruct (mode =? 1); reflexivity.
Qed.

Lemma machine_complete v mode all whole inner cs rest : constructed_string (tgs v all) whole inner cs -> bytes (whole ++ rest) ->
  small (gain v cs (if mode =? 1 then inner else whole)) ->
  exists turns, string_run turns v mode all (start (whole ++ rest))
    = Done (length whole) (gain v cs (if mode =? 1 then inner else whole), unused_after v 0 cs).
Proof.
  intros (indef & Hf & Hs) Hb Hsm.
  destruct (framed_one _ _ _ _ _ Hf) as (h & o & Hh & Ew & Eo & _).
  set (tail := if indef then [0; 0] else []) in *. subst whole.
  rewrite <- !app_assoc in *.
  assert (Bx : bytes (inner ++ tail ++ rest)) by (apply Forall_app in Hb; apply Hb).
  assert (Bt : bytes (tail ++ rest)) by (apply Forall_app in Bx; apply Bx).
  destruct (hdr_complete _ _ _ _ _ Hh Bx) as (tl & ll & tag & See & _ & Hn & N1 & N2 & _ & Hcode).
  destruct (hdr_bytes _ _ _ _ Hh) as (Bh & L2).
  assert (H0 : -1 <= code o) by (subst o; destruct indef; cbn [code]; lia).
  pose proof (first_turn v mode all (h ++ inner ++ tail ++ rest) tl ll tag o Hb See Hcode H0 ltac:(lia)) as T.
  cbn zeta in T. rewrite Hn, firstn_app_exact, skipn_app_exact in T.
  assert (EA : (match v with ANY => if mode =? 1 then Some [] else append [] h | _ => Some [] end)
    = Some (gain v [] (if mode =? 1 then [] else h))).
  { destruct v; try reflexivity. cbn [gain] in *. destruct (mode =? 1); [reflexivity|]. apply append_some.
    cbn [app]. apply small_app in Hsm. exact Hsm. }
  rewrite EA in T. clear EA.
  set (acc0 := gain v [] (if mode =? 1 then [] else h)) in *.
  match type of T with _ = Next ?q => set (k1 := q) in T end.
  match eval cbv delta [k1] in k1 with {| k_stack := [?g]; k_bs := _; k_acc := _; k_unused := _; k_consumed := _ |} => set (g0 := g) in k1 end.
  assert (Hgn : f_nulls g0 = indef) by (unfold g0; cbn [f_nulls]; subst o; destruct indef; reflexivity).
  assert (R1 : reach v mode all k1 (after k1 g0 [] v inner (tail ++ rest) cs)).
  { apply (proj2 (reach_segments v mode all) indef O inner cs Hs k1 g0 [] (tail ++ rest)); try reflexivity; try assumption.
    - unfold frame_ok, g0. cbn [f_left f_nulls]. subst o. destruct indef; cbn [code]; split; lia || discriminate.
    - unfold room, g0. cbn [f_left]. subst o. destruct indef; cbn [code]; lia.
    - cbn [k1 k_acc]. unfold acc0. rewrite gain_raw. destruct (mode =? 1); [exact Hsm|].
      destruct v; cbn [gain] in *; try assumption. rewrite app_assoc in Hsm. apply small_app in Hsm. exact Hsm. }
  assert (R2 : reach v mode all (start (h ++ inner ++ tail ++ rest)) (after k1 g0 [] v inner (tail ++ rest) cs)).
  { eapply reach_trans; [apply reach_step; exact T|exact R1]. }
  set (k2 := after k1 g0 [] v inner (tail ++ rest) cs) in *.
  assert (R3 : reach v mode all k2 {| k_stack := [{| f_left := 0; f_got := Z.of_nat (length (h ++ inner ++ tail)); f_nulls := false |}];
     k_bs := rest; k_acc := gain v cs (if mode =? 1 then inner else h ++ inner ++ tail); k_unused := unused_after v 0 cs;
     k_consumed := length (h ++ inner ++ tail) |}).
  { destruct indef; unfold tail in *.
    - apply reach_step. unfold k2, after.
      match goal with |- string_turn _ _ _ ?q = _ => set (k3 := q) end.
      assert (Hg3 : f_nulls (moved g0 (length inner)) = true) by (unfold moved; cbn [f_nulls]; exact Hgn).
      assert (Hsee : exists tl ll tag, sees (string_window k3) tl ll tag (code (Some 0)) false /\ (tl + ll = 2)%nat).
      { destruct (window_sees None false (Some 0) [0; 0] k3 (moved g0 (length inner)) [] rest) as (tl' & ll' & tag' & S & N & _).
        - reflexivity.
        - exists [0], [0], 0, 0. split; [reflexivity|]. split; [apply (low_tag 0 false 0); lia|]. split; [reflexivity|].
          split; [discriminate|]. split; [left; constructor; lia|]. reflexivity.
        - reflexivity.
        - exact Bt.
        - unfold moved, g0. cbn [f_left]. subst o. left. reflexivity.
        - exists tl', ll', tag'. split; assumption. }
      destruct Hsee as (tl' & ll' & tag' & Hsee & _).
      rewrite (turn_sees v mode all k3 tl' ll' tag' (code (Some 0)) false Bt); [|unfold k3; cbn [k_stack]; unfold complete; rewrite Hg3; apply andb_false_r|exact Hsee].
      unfold after_header, k3. cbn [k_stack k_bs]. rewrite Hg3. cbn [andb app zeros]. change ((0 =? 0) && (0 =? 0)) with true. cbn iota.
      unfold string_eoc. cbn [k_stack k_bs k_acc k_unused k_consumed length]. change (negb (0 =? 0)%nat) with false. rewrite orb_false_r.
      replace (match v with ANY => if negb (mode =? 1) then append (k_acc k1 ++ gain v cs inner) [0; 0] else Some (k_acc k1 ++ gain v cs inner)
                       | _ => Some (k_acc k1 ++ gain v cs inner) end)
        with (Some (gain v cs (if mode =? 1 then inner else h ++ inner ++ [0; 0]))).
      2:{ cbn [k1 k_acc]. unfold acc0. rewrite gain_raw. destruct (mode =? 1); destruct v; cbn [gain negb app] in *; try reflexivity.
          symmetry. rewrite append_some; [f_equal; rewrite <- !app_assoc; reflexivity|rewrite <- !app_assoc; exact Hsm]. }
      f_equal. unfold moved, g0. cbn [f_got]. f_equal.
      + f_equal. f_equal. rewrite !app_length. cbn [length]. lia.
      + cbn [k1 k_consumed]. rewrite !app_length. cbn [length]. lia.
    - assert (E2 : k2 = {| k_stack := [{| f_left := 0; f_got := Z.of_nat (length (h ++ inner ++ [])); f_nulls := false |}];
         k_bs := rest; k_acc := gain v cs (if mode =? 1 then inner else h ++ inner ++ []); k_unused := unused_after v 0 cs;
         k_consumed := length (h ++ inner ++ []) |}); [|rewrite E2; apply reach_refl].
      unfold k2, after. rewrite app_nil_r. cbn [k1 k_acc k_unused k_consumed app]. f_equal.
      + f_equal. unfold moved, g0. cbn [f_left f_got f_nulls]. subst o. rewrite app_length. cbn [code].
        destruct (Z.eqb_spec (Z.of_nat (length inner)) (-1)); [lia|]. f_equal; lia.
      + unfold acc0. rewrite gain_raw. destruct (mode =? 1); reflexivity.
      + rewrite app_length. lia. }
  destruct (reach_trans _ _ _ _ _ _ R2 R3) as (a & Ha). exists (a + 1)%nat. rewrite Ha.
  cbn [string_run]. rewrite (turn_pop v mode all _ {| f_left := 0; f_got := Z.of_nat (length (h ++ inner ++ tail)); f_nulls := false |} []) by reflexivity.
  reflexivity.
Qed.

Lemma weight_start bs : (weight (start bs) < 2 * length bs + 2)%nat.
Proof. unfold weight, start. cbn [k_bs k_stack length]. lia. Qed.

(** ** The last byte of a BIT STRING *)

Lemma mask_byte b u : is_byte b -> 0 <= u <= 7 -> Z.land b (Z.land (Z.shiftl 255 u) 255) = b / 2 ^ u * 2 ^ u.
Proof.
  intros Hb Hu.
  assert (u = 0 \/ u = 1 \/ u = 2 \/ u = 3 \/ u = 4 \/ u = 5 \/ u = 6 \/ u = 7) as Hcases by lia.
  destruct Hcases as [->|[->|[->|[->|[->|[->|[->| ->]]]]]]];
  match goal with |- Z.land b ?m = b / ?d * ?d =>
    apply (byte_enum (fun b => Z.land b m =? b / d * d)) in Hb; [apply Z.eqb_eq; exact Hb|vm_compute; reflexivity] end.
Qed.

Lemma mask_spec acc u v : bytes acc -> 0 <= u <= 7 -> acc <> [] -> (bit_string acc u v <-> v = mask_last acc u).
Proof.
  intros Hb Hu Hne. destruct (exists_last Hne) as (bs & b & ->).
  assert (Hbb : is_byte b) by (apply Forall_app in Hb; destruct Hb as (_ & Hb); inversion Hb; assumption).
  unfold mask_last. rewrite removelast_last, last_last, mask_byte by assumption. split.
  - intros H. inversion H as [E|bs' b' u' Hu' E]; [destruct bs; discriminate|].
    apply app_inj_tail in E. destruct E as (-> & ->). reflexivity.
  - intros ->. constructor. assumption.
Qed.

Lemma bit_string_empty u v : bit_string [] u v <-> u = 0 /\ v = [].
Proof.
  split.
  - intros H. inversion H as [E|bs b u' Hu E]; [split; reflexivity|]. destruct bs; discriminate.
  - intros (-> & ->). constructor.
Qed.

Lemma bit_string_range bs u v : bit_string bs u v -> bs <> [] -> 0 <= u <= 7.
Proof. intros H Hne. inversion H; subst; [congruence|assumption]. Qed.

Lemma segment_contents tg :
  (forall d s cs, segment tg d s cs -> bytes s -> Forall bytes cs)
  /\ (forall indef d s cs, segments tg indef d s cs -> bytes s -> Forall bytes cs).
Proof.
  apply segment_mutind.
  - intros d h body Hh Hb. apply Forall_app in Hb. constructor; [apply Hb|constructor].
  - intros d indef body whole cs Hf Hs IH Hb. apply IH. destruct Hf as [p b _|p b _ _]; apply Forall_app in Hb; destruct Hb as (_ & Hb); [assumption|].
    apply Forall_app in Hb. apply Hb.
  - constructor.
  - intros indef d s ss cs cs' Hs IHs _ Hss IHss Hb. apply Forall_app in Hb. apply Forall_app. split; [apply IHs|apply IHss]; apply Hb.
Qed.

Lemma bits_bytes cs : Forall bytes cs -> bytes (bits_of cs).
Proof.
  induction 1 as [|c cs Hc H IH]; [constructor|]. unfold bits_of in *. cbn [map concat]. apply Forall_app. split; [|assumption].
  destruct c; cbn [tl]; [constructor|]. inversion Hc. assumption.
Qed.

Lemma constructed_contents tg whole inner cs : constructed_string tg whole inner cs -> bytes whole -> Forall bytes cs /\ bytes inner.
Proof.
  intros (indef & Hf & Hs) Hb.
  assert (Bi : bytes inner).
  { destruct Hf as [p b _|p b _ _]; apply Forall_app in Hb; destruct Hb as (_ & Hb); [assumption|]. apply Forall_app in Hb. apply Hb. }
  split; [|assumption]. eapply (proj2 (segment_contents tg)); eassumption.
Qed.

(** ** The outer headers *)

(** The first header of a chain. *)
Lemma chain_first es p : ichain es p \/ (exists c len, dchain es c len p /\ (length es <> 1%nat \/ c = true)) ->
  exists b0 r, p = b0 :: r /\ constructed_bit b0 = true.
Proof.
  intros [H|(c & len & H & Hc)].
  - destruct H as [e h Hh|e es h p Hh _]; destruct (hdr_first _ _ _ _ Hh) as (b0 & r & -> & Cb); eexists _, _; split; try reflexivity; assumption.
  - destruct H as [e c len h Hh|e es c len h p Hh Hd]; destruct (hdr_first _ _ _ _ Hh) as (b0 & r & -> & Cb); eexists _, _; split; try reflexivity; try assumption.
    destruct Hc as [Hc| ->]; [cbn [length] in Hc; lia|assumption].
Qed.

(** The machine reads at least the indefinite headers. *)
Lemma chain_within tg : forall es p, ichain es p -> forall e indef d inner whole cs rest rest',
  framed [e] true indef inner whole -> segments tg indef d inner cs -> p ++ rest = whole ++ rest' -> bytes (whole ++ rest') ->
  (length p <= length whole)%nat.
Proof.
  induction 1 as [e0 h Hh|e0 es h p Hh Hd IH]; intros e indef d inner whole cs rest rest' Hf Hs E Hb.
  - destruct (framed_one _ _ _ _ _ Hf) as (h' & o & Hh' & -> & _). rewrite <- app_assoc in E.
    assert (B1 : bytes ((inner ++ (if indef then [0; 0] else [])) ++ rest')) by (rewrite <- app_assoc in Hb; apply Forall_app in Hb; apply Hb).
    assert (B2 : bytes rest) by (rewrite <- app_assoc, <- E in Hb; apply Forall_app in Hb; apply Hb).
    destruct (hdr_unique _ _ _ _ _ _ _ _ _ _ Hh Hh' E B2 B1) as (-> & _). rewrite app_length. lia.
  - destruct (framed_one _ _ _ _ _ Hf) as (h' & o & Hh' & -> & Eo & _). rewrite <- !app_assoc in E. rewrite <- !app_assoc in Hb.
    assert (B1 : bytes (inner ++ (if indef then [0; 0] else []) ++ rest')) by (apply Forall_app in Hb; apply Hb).
    assert (B2 : bytes (p ++ rest)) by (rewrite <- E in Hb; apply Forall_app in Hb; apply Hb).
    destruct (hdr_unique _ _ _ _ _ _ _ _ _ _ Hh Hh' E B2 B1) as (-> & _ & <- & Er).
    destruct indef; [|discriminate]. rewrite !app_length. cut (length p <= length inner)%nat; [lia|].
    inversion Hs as [i d0|i d0 s ss cs0 cs0' Hseg Hnz Hss]; subst.
    + exfalso. destruct (chain_first _ _ (or_introl Hd)) as (b0 & r & -> & Cb). cbn in Er. injection Er as -> _. discriminate.
    + rewrite <- app_assoc in Er, B1. rewrite app_length. cut (length p <= length s)%nat; [lia|].
      inversion Hseg as [d1 h1 body Hh1|d1 indef1 body1 whole1 cs1 Hf1 Hs1]; subst.
      * exfalso. destruct (hdr_first _ _ _ _ Hh1) as (b1 & r1 & -> & Cb1).
        destruct (chain_first _ _ (or_introl Hd)) as (b0 & r & -> & Cb). cbn in Er. injection Er as -> _. congruence.
      * eapply IH; [exact Hf1|exact Hs1|exact Er|assumption].
Qed.

Lemma opens_sound tg es bs m len inner cs n : bytes bs -> es <> [] ->
  (dchain es true len (firstn m bs) /\ 0 <= len \/ ichain es (firstn m bs)) -> (m <= length bs)%nat ->
  (n <= length bs)%nat -> constructed_string tg (firstn n bs) inner cs -> opens es (firstn n bs).
Proof.
  intros Hb He Hc Hm Hn (indef & Hf & Hs).
  assert (Ebs : bs = firstn n bs ++ skipn n bs) by (symmetry; apply firstn_skipn).
  assert (Eps : bs = firstn m bs ++ skipn m bs) by (symmetry; apply firstn_skipn).
  assert (Hmn : forall k, (k <= length bs)%nat -> length (firstn k bs) = k) by (intros; apply firstn_length_le; assumption).
  assert (Hpre : (m <= n)%nat -> firstn n bs = firstn m bs ++ skipn m (firstn n bs)).
  { intros H. rewrite <- (firstn_skipn m (firstn n bs)) at 1. rewrite firstn_firstn. f_equal. f_equal. lia. }
  destruct Hc as [(Hd & H0)|Hi].
  - left. exists (firstn m bs), (skipn m (firstn n bs)).
    assert (Hlen : Z.of_nat n = Z.of_nat m + len).
    { destruct (framed_one _ _ _ _ _ Hf) as (h & o & Hh & Ew & Eo & _).
      set (whole := firstn n bs) in *.
      assert (Bx : bytes (inner ++ (if indef then [0; 0] else []) ++ skipn n bs)).
      { rewrite Ebs, Ew, <- !app_assoc in Hb. apply Forall_app in Hb. apply Hb. }
      assert (Hd' : exists h' p', firstn m bs = h' ++ p' /\ hdr (hd None es) true (Some (Z.of_nat (length p') + len)) h').
      { inversion Hd as [e c l h0 Hh0|e es' c l h0 p0 Hh0 Hd0]; subst; cbn [hd].
        - eexists _, []. rewrite app_nil_r. split; [reflexivity|]. cbn [length]. exact Hh0.
        - eexists _, p0. split; [reflexivity|assumption]. }
      destruct Hd' as (h' & p' & Ep & Hh').
      assert (By : bytes (p' ++ skipn m bs)) by (rewrite Eps, Ep, <- app_assoc in Hb; apply Forall_app in Hb; apply Hb).
      destruct (hdr_unique _ _ _ _ _ _ _ _ (inner ++ (if indef then [0; 0] else []) ++ skipn n bs) (p' ++ skipn m bs) Hh Hh') as (-> & _ & Eo' & _).
      - rewrite !app_assoc. rewrite <- (app_assoc h), <- Ew, <- Ep, <- Ebs, <- Eps. reflexivity.
      - assumption.
      - assumption.
      - destruct indef; [congruence|]. rewrite Eo in Eo'. injection Eo' as Eo'.
        assert (A1 : length whole = (length h' + length inner)%nat) by (rewrite Ew, app_nil_r, app_length; reflexivity).
        assert (A2 : m = (length h' + length p')%nat) by (rewrite <- (Hmn m Hm), Ep, app_length; reflexivity).
        unfold whole in A1. rewrite (Hmn n Hn) in A1. lia. }
    split; [apply Hpre; lia|]. rewrite skipn_length, (Hmn n Hn). replace (Z.of_nat (n - m)) with len by lia. assumption.
  - right. exists (firstn m bs), (skipn m (firstn n bs)). split; [|assumption]. apply Hpre.
    assert (length (firstn m bs) <= length (firstn n bs))%nat.
    { eapply chain_within with (rest := skipn m bs) (rest' := skipn n bs); [exact Hi|exact Hf|exact Hs|rewrite <- Ebs, <- Eps; reflexivity|rewrite <- Ebs; assumption]. }
    rewrite !Hmn in H by assumption. assumption.
Qed.

(** ** OCTET_STRING_decode_ber *)

(** What the last step makes of the contents. *)
Lemma finish_bits acc u n r : bytes acc -> string_finish BIT (Done n (acc, u)) = r ->
  (forall m v, r = Done m v -> m = n /\ exists bs, v = VBits bs u /\ bit_string acc u bs)
  /\ (forall bs, bit_string acc u bs -> r = Done n (VBits bs u)) /\ r <> Fault /\ r <> Spin.
Proof.
  intros Hb <-. cbn [string_finish]. destruct acc as [|b acc].
  - change (length (@nil Z) =? 0)%nat with true. cbn iota. destruct (Z.eqb_spec u 0) as [->|Hu].
    + split; [intros m v E; injection E as <- <-; split; [reflexivity|]; exists []; split; [reflexivity|constructor]|].
      split; [intros bs H; apply bit_string_empty in H; destruct H as (_ & ->); reflexivity|split; discriminate].
    + split; [discriminate|]. split; [intros bs H; apply bit_string_empty in H; lia|split; discriminate].
  - change (length (b :: acc) =? 0)%nat with false. cbn iota. destruct ((u <? 0) || (7 <? u)) eqn:Hu.
    + apply orb_true_iff in Hu. rewrite !Z.ltb_lt in Hu. split; [discriminate|].
      split; [intros bs H; apply bit_string_range in H; [lia|discriminate]|split; discriminate].
    + apply orb_false_iff in Hu. rewrite !Z.ltb_ge in Hu. split.
      * intros m v E. injection E as <- <-. split; [reflexivity|]. eexists. split; [reflexivity|].
        apply mask_spec; [assumption|lia|discriminate|reflexivity].
      * split; [|split; discriminate]. intros bs H. apply mask_spec in H; [subst; reflexivity|assumption|lia|discriminate].
Qed.

Lemma prim_contents v lft bs acc consumed n a u : 0 <= lft -> small acc -> string_primitive v lft bs acc consumed = Done n (a, u) ->
  lft <= Z.of_nat (length bs) /\ n = (consumed + Z.to_nat lft)%nat /\ small a
  /\ (v = BIT -> a = acc ++ tl (firstn (Z.to_nat lft) bs) /\ u = hd 0 (firstn (Z.to_nat lft) bs))
  /\ (v <> BIT -> a = acc ++ firstn (Z.to_nat lft) bs).
Proof.
  intros H0 Hsm E. unfold string_primitive in E. destruct (Z.ltb_spec lft 0); [lia|].
  destruct (Z.ltb_spec (Z.of_nat (length bs)) lft); [discriminate|]. cbn zeta in E.
  set (chunk := firstn (Z.to_nat lft) bs) in *. split; [assumption|].
  destruct v; [|destruct chunk as [|b chunk]|];
    match type of E with context [append acc ?x] => destruct (append acc x) as [y|] eqn:Ea; [|discriminate] end;
    apply append_spec in Ea; destruct Ea as (-> & Sy); injection E as <- <- <-;
    (split; [reflexivity|split; [assumption|split; intros; try congruence; try (split; reflexivity); reflexivity]]).
Qed.

Lemma string_sound v tags all mode bs n x : bytes bs -> checkable tags mode None ->
  OCTET_STRING_decode_ber v tags all mode bs = Done n x ->
  (n <= length bs)%nat /\ enc (TString v tags all) mode (firstn n bs) x.
Proof.
  intros Hb Ht E. unfold OCTET_STRING_decode_ber in E.
  destruct (ber_check_tags tags mode None bs) as [m [len c]| | |] eqn:Ec; try discriminate.
  apply check_sound in Ec; [|assumption|assumption]. destruct Ec as (Hm & _ & Hch).
  destruct c.
  - (* constructed *)
    assert (Hopen : dchain (chain tags mode) true len (firstn m bs) /\ 0 <= len \/ ichain (chain tags mode) (firstn m bs))
      by (destruct Hch as [?|(_ & ? & _)]; [left; assumption|right; assumption]).
    destruct (string_run _ v mode all _) as [k [acc u]| | |] eqn:Er; try discriminate.
    assert (exists b0 bs', bs = b0 :: bs' /\ constructed_bit b0 = true) as (b0 & bs' & Eb & Cb).
    { destruct (chain_first (chain tags mode) (firstn m bs)) as (b0 & r & Ef & Cb).
      - destruct Hopen as [(Hd & _)|Hi]; [right; exists true, len; split; [assumption|right; reflexivity]|left; assumption].
      - exists b0, (r ++ skipn m bs). split; [|assumption]. rewrite <- (firstn_skipn m bs) at 1. rewrite Ef. reflexivity. }
    destruct (machine_sound v mode all _ bs b0 bs' k acc u Eb Cb Hb Er) as (inner & cs & Hk & Hcs & Ea & Sa & Eu).
    pose proof (opens_sound _ _ _ _ _ _ _ _ Hb (chain_nonempty tags mode) Hopen Hm Hk Hcs) as Ho.
    destruct (constructed_contents _ _ _ _ Hcs) as (Bcs & _); [apply bytes_firstn; assumption|].
    destruct v; cbn [gain unused_after] in Ea, Eu.
    + cbn [string_finish] in E. injection E as <- <-. split; [assumption|]. subst acc. eapply enc_octets_constructed; eassumption.
    + subst acc. destruct (finish_bits _ u k _ (bits_bytes _ Bcs) E) as (F & _). destruct (F n x eq_refl) as (-> & bs2 & -> & Hbits).
      split; [assumption|]. subst u. eapply enc_bits_constructed; eassumption.
    + cbn [string_finish] in E. injection E as <- <-. split; [assumption|]. subst acc. eapply enc_any_constructed; eassumption.
  - (* primitive *)
    destruct Hch as [(Hd & H0)|(? & _)]; [|discriminate].
    match type of E with string_finish v (match ?x with None => _ | _ => _ end) = _ => set (A := x) in E end.
    assert (HA : forall a, A = Some a -> a = (match v with ANY => if mode =? 1 then [] else firstn m bs | _ => [] end) /\ small a).
    { intros a Ea. unfold A in Ea. destruct v; try (injection Ea as <-; split; [reflexivity|unfold small; cbn; lia]).
      destruct (mode =? 1); cbn [negb] in Ea; [injection Ea as <-; split; [reflexivity|unfold small; cbn; lia]|apply append_spec in Ea; assumption]. }
    destruct A as [a|]; [|discriminate]. destruct (HA a eq_refl) as (Ea & Sa). clear HA.
    destruct (string_primitive v len (skipn m bs) a m) as [k [acc u]| | |] eqn:Er; try discriminate.
    apply prim_contents in Er; [|assumption|assumption]. destruct Er as (Hl & -> & Sacc & Hbit & Hoth).
    rewrite skipn_length in Hl.
    set (body := firstn (Z.to_nat len) (skipn m bs)) in *.
    assert (Lb : Z.of_nat (length body) = len) by (unfold body; rewrite firstn_length, skipn_length; lia).
    assert (Bb : bytes body) by (unfold body; apply bytes_firstn, bytes_skipn; assumption).
    rewrite <- Lb in Hd.
    destruct v.
    + cbn [string_finish] in E. injection E as <- <-. split; [lia|]. rewrite firstn_plus. fold body.
      rewrite (Hoth ltac:(discriminate)), Ea in *. constructor; assumption.
    + destruct (Hbit eq_refl) as (-> & ->). rewrite Ea in *. cbn [app] in *.
      assert (Bt : bytes (tl body)) by (destruct body; [constructor|inversion Bb; assumption]).
      destruct (finish_bits _ _ _ _ Bt E) as (F & _). destruct (F n x eq_refl) as (-> & bs2 & -> & Hbits).
      split; [lia|]. rewrite firstn_plus. fold body. constructor; assumption.
    + cbn [string_finish] in E. injection E as <- <-. split; [lia|]. rewrite firstn_plus. fold body.
      rewrite (Hoth ltac:(discriminate)), Ea in *.
      replace ((if mode =? 1 then [] else firstn m bs) ++ body) with (if mode =? 1 then body else firstn m bs ++ body) in *
        by (destruct (mode =? 1); reflexivity).
      constructor; assumption.
Qed.

Lemma prim_complete v body rest acc consumed :
  small (acc ++ match v with BIT => tl body | _ => body end) ->
  string_primitive v (Z.of_nat (length body)) (body ++ rest) acc consumed
  = Done (consumed + length body)%nat (acc ++ match v with BIT => tl body | _ => body end, match v with BIT => hd 0 body | _ => 0 end).
Proof.
  intros Hsm. unfold string_primitive. destruct (Z.ltb_spec (Z.of_nat (length body)) 0); [lia|].
  rewrite app_length. destruct (Z.ltb_spec (Z.of_nat (length body + length rest)) (Z.of_nat (length body))); [lia|].
  cbn zeta. rewrite Nat2Z.id, firstn_app_exact.
  destruct v; [|destruct body as [|b body]|]; cbn [tl hd] in *; rewrite append_some by assumption; reflexivity.
Qed.

Lemma machine_decode v tags all mode whole inner cs rest : checkable tags mode None -> opens (chain tags mode) whole ->
  constructed_string (tgs v all) whole inner cs -> bytes (whole ++ rest) -> small (gain v cs (if mode =? 1 then inner else whole)) ->
  OCTET_STRING_decode_ber v tags all mode (whole ++ rest)
  = string_finish v (Done (length whole) (gain v cs (if mode =? 1 then inner else whole), unused_after v 0 cs)).
Proof.
  intros Ht Ho Hcs Hb Hsm.
  destruct (machine_complete v mode all whole inner cs rest Hcs Hb Hsm) as (turns & Hrun).
  eapply run_same in Hrun; [|exact Hb|apply weight_start].
  unfold OCTET_STRING_decode_ber.
  assert (exists k len, ber_check_tags tags mode None (whole ++ rest) = Done k (len, true)) as (k & len & ->).
  { destruct Ho as [(p & body & Ew & Hd)|(p & r & Ew & Hi)].
    - eexists _, _. rewrite Ew, <- app_assoc in *. apply check_definite; [assumption|exact Hd|apply form_none|]. apply Forall_app in Hb. apply Hb.
    - eexists _, _. rewrite Ew, <- app_assoc in *. apply check_indefinite; [assumption|exact Hi|apply form_none|]. apply Forall_app in Hb. apply Hb. }
  cbn iota. fold (start (whole ++ rest)). rewrite Hrun. reflexivity.
Qed.

Lemma string_complete v tags all mode b x rest : checkable tags mode None -> enc (TString v tags all) mode b x -> bytes (b ++ rest) ->
  OCTET_STRING_decode_ber v tags all mode (b ++ rest) = Done (length b) x.
Proof.
  intros Ht H Hb.
  assert (Hprim : forall p body, dchain (chain tags mode) false (Z.of_nat (length body)) p -> bytes ((p ++ body) ++ rest) ->
    small ((match v with ANY => if mode =? 1 then [] else p | _ => [] end) ++ match v with BIT => tl body | _ => body end) ->
    OCTET_STRING_decode_ber v tags all mode ((p ++ body) ++ rest)
    = string_finish v (Done (length (p ++ body)) ((match v with ANY => if mode =? 1 then [] else p | _ => [] end) ++ match v with BIT => tl body | _ => body end,
         match v with BIT => hd 0 body | _ => 0 end))).
  { intros p body Hd Hb' Hsm. rewrite <- app_assoc in *. apply Forall_app in Hb'. destruct Hb' as (_ & Hb').
    unfold OCTET_STRING_decode_ber. rewrite (check_definite _ _ _ _ _ _ _ Ht Hd (form_none _) Hb'). cbn iota.
    rewrite firstn_app_exact, skipn_app_exact.
    assert (EA : (match v with ANY => if negb (mode =? 1) then append [] p else Some [] | _ => Some [] end)
      = Some (match v with ANY => if mode =? 1 then [] else p | _ => [] end)).
    { destruct v; try reflexivity. destruct (mode =? 1); [reflexivity|]. cbn [negb]. rewrite append_some; [reflexivity|]. apply small_app in Hsm. exact Hsm. }
    rewrite EA, prim_complete by exact Hsm. rewrite app_length. reflexivity. }
  inversion H; subst.
  - rewrite Hprim; [reflexivity|assumption|assumption|cbn [app]; assumption].
  - match goal with Hs : constructed_string _ _ _ ?cs |- _ => rewrite (machine_decode STR _ _ _ _ _ _ _ Ht ltac:(eassumption) Hs Hb) end; [reflexivity|assumption].
  - assert (Bt : bytes (tl body)) by (rewrite <- app_assoc in Hb; apply Forall_app in Hb; destruct Hb as (_ & Hb); apply Forall_app in Hb;
      destruct Hb as (Hb & _); destruct body; [constructor|inversion Hb; assumption]).
    rewrite Hprim; [|assumption|assumption|cbn [app]; assumption]. cbn [app].
    destruct (finish_bits (tl body) (hd 0 body) (length (p ++ body)) _ Bt eq_refl) as (_ & F & _). apply F. assumption.
  - match goal with Hs : constructed_string _ _ _ ?cs |- _ =>
      destruct (constructed_contents _ _ _ _ Hs) as (Bcs & _); [apply Forall_app in Hb; apply Hb|];
      rewrite (machine_decode BIT _ _ _ _ _ _ _ Ht ltac:(eassumption) Hs Hb) by assumption end.
    destruct (finish_bits (bits_of cs) (unused_of cs) (length b) _ (bits_bytes _ Bcs) eq_refl) as (_ & F & _). apply F. assumption.
  - rewrite Hprim; [|assumption|assumption|destruct (mode =? 1); assumption]. cbn [string_finish]. destruct (mode =? 1); reflexivity.
  - match goal with Hs : constructed_string _ _ _ ?cs |- _ => rewrite (machine_decode ANY _ _ _ _ _ _ _ Ht ltac:(eassumption) Hs Hb) end; [reflexivity|assumption].
Qed.

Lemma string_total v tags all mode bs : bytes bs -> checkable tags mode None ->
  OCTET_STRING_decode_ber v tags all mode bs <> Fault /\ OCTET_STRING_decode_ber v tags all mode bs <> Spin.
Proof.
  intros Hb Ht. unfold OCTET_STRING_decode_ber.
  destruct (check_total tags mode None bs Hb Ht) as (C1 & C2).
  assert (Hfin : forall r, r <> Fault -> r <> Spin -> string_finish v r <> Fault /\ string_finish v r <> Spin).
  { intros [n [acc u]| | |] H1 H2; try congruence; [|split; discriminate]. cbn [string_finish]. destruct v; try (split; discriminate).
    destruct (_ =? _)%nat; [destruct (u =? 0)|destruct (_ || _)]; split; discriminate. }
  destruct (ber_check_tags tags mode None bs) as [m [len c]| | |] eqn:Ec; try (split; congruence).
  apply check_sound in Ec; [|assumption|assumption]. destruct Ec as (Hm & _ & Hch).
  destruct c.
  - apply Hfin; apply (run_total v mode all _ (start bs) Hb (weight_start bs)).
  - destruct Hch as [(_ & H0)|(? & _)]; [|discriminate].
    match goal with |- context [match ?x with None => Failed | _ => _ end] => destruct x; [|apply Hfin; discriminate] end.
    assert (forall bs' acc k, string_primitive v len bs' acc k <> Fault /\ string_primitive v len bs' acc k <> Spin).
    { intros. unfold string_primitive. destruct (Z.ltb_spec len 0); [lia|]. destruct (_ <? len); [split; discriminate|].
      destruct v, (firstn (Z.to_nat len) bs'); try (destruct (append acc _); split; discriminate). }
    apply Hfin; apply H.
Qed.
