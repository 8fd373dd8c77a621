(** Lemmas about the BER model: nested values, signed attributes. *)
From Verif Require Import Base BaseLemmas PduWireProofs Ber BerSpec BerProofs BerProofs2.

Notation length := List.length.

Scheme lv_mind := Induction for lv Sort Prop
  with elements_mind := Induction for elements Sort Prop
  with tlv_mind := Induction for tlv Sort Prop.
Combined Scheme lv_mutind from lv_mind, elements_mind, tlv_mind.

Lemma lv_facts :
  (forall c X, lv c X -> bytes X /\ (1 <= length X)%nat) /\
  (forall es, elements es -> bytes es) /\
  (forall T X, tlv T X -> bytes T /\ bytes X /\ (1 <= length T)%nat /\ (1 <= length X)%nat).
Proof.
  apply lv_mutind.
  - intros c L v V Ha Hf HV Hl. pose proof (accepted_bytes _ _ _ Ha) as [Hb H1].
    split; [apply Forall_app; auto|rewrite app_length; lia].
  - intros es _ He. split; [|cbn; lia]. constructor; [unfold is_byte; lia|].
    apply Forall_app. split; [exact He|]. repeat constructor; unfold is_byte; lia.
  - constructor.
  - intros T X es _ (HT & HX & _) _ He. apply Forall_app. split; [exact HT|]. apply Forall_app. auto.
  - intros T cl c num X HT Hf _ [HX HX1] _. pose proof (tag_octets_bytes _ _ _ _ HT) as (HT1 & HT2 & _). auto.
Qed.

(** The accepted encodings are skipped exactly. *)
Lemma skip_complete :
  (forall c X, lv c X -> forall frames rest size, bytes rest -> (length X < frames)%nat ->
     (length X <= size <= length (X ++ rest))%nat ->
     ber_skip_length frames c (X ++ rest) size = Ok (Got (length X) tt)) /\
  (forall es, elements es -> forall frames rest size skip fuel, bytes rest -> (length es + 2 < frames)%nat ->
     (length es < fuel)%nat ->
     (length es + 2 <= size <= length (es ++ 0%Z :: 0%Z :: rest))%nat ->
     skip_contents (ber_skip_length frames) fuel (es ++ 0 :: 0 :: rest) size skip
     = Ok (Got (skip + length es + 2) tt)) /\
  (forall T X, tlv T X -> forall frames rest size, bytes rest -> (length X < frames)%nat ->
     (length T + length X <= size <= length (T ++ X ++ rest))%nat ->
     (exists v, ber_fetch_tag (T ++ X ++ rest) size = Ok (Got (length T) v)) /\
     ber_skip_length frames (constructed_bit (nth 0 (T ++ X ++ rest) 0)) (X ++ rest) (size - length T)
       = Ok (Got (length X) tt) /\
     firstn 2 (T ++ X) <> [0; 0]).
Proof.
  apply lv_mutind.
  - (* definite *)
    intros c L v V Ha Hf HV Hl frames rest size Hr Hfr Hs.
    destruct frames as [|frames]; [lia|]. cbn [ber_skip_length]. rewrite <- app_assoc.
    rewrite app_length in *. rewrite !app_length in Hs.
    rewrite (fetch_length_complete c L (Some v)); [|assumption|apply Forall_app; auto|rewrite !app_length; lia].
    cbn in Hf. destruct (Z.ltb_spec v 4611686018427387904); [|lia]. cbn [code].
    destruct (Z.leb_spec 0 v); [|lia]. cbn zeta.
    destruct (Z.ltb_spec (Z.of_nat size) (Z.of_nat (length L) + v)); [lia|].
    f_equal. f_equal. lia.
  - (* indefinite *)
    intros es He IH frames rest size Hr Hfr Hs.
    pose proof (proj1 (proj2 lv_facts) es He) as Heb.
    destruct frames as [|frames]; [lia|]. cbn [ber_skip_length].
    change (128 :: es ++ [0; 0]) with ([128] ++ es ++ [0; 0]) in *. rewrite <- app_assoc. rewrite !app_length in *. cbn [length] in *.
    rewrite (fetch_length_complete true [128] None); [|left; constructor; reflexivity| |].
    2:{ rewrite <- app_assoc. apply Forall_app. split; [assumption|]. cbn [app].
        constructor; [unfold is_byte; lia|]. constructor; [unfold is_byte; lia|assumption]. }
    2:{ rewrite !app_length. cbn [length]. lia. }
    cbn [code length]. destruct (Z.leb_spec 0 (-1)); [lia|].
    change (skipn 1 ([128] ++ (es ++ [0; 0]) ++ rest)) with ((es ++ [0; 0]) ++ rest). rewrite <- app_assoc. cbn [app].
    rewrite IH; [f_equal; f_equal; lia|assumption|lia|lia|].
    rewrite app_length. cbn [length]. lia.
  - (* no more elements *)
    intros frames rest size skip fuel Hr Hfr Hfu Hs. destruct fuel as [|fuel]; [lia|]. cbn [app length plus] in *.
    cbn [skip_contents].
    change (0 :: 0 :: rest) with ([0] ++ 0 :: rest). 
    rewrite (fetch_tag_complete [0] 0 false 0); [|exact (low_tag 0 false 0 ltac:(lia) ltac:(lia))|unfold tag_fits; lia|cbn [length]; lia].
    cbn [length app skipn]. change (constructed_bit 0) with false.
    destruct frames as [|frames]; [lia|]. cbn [ber_skip_length].
    change (0 :: rest) with ([0] ++ rest).
    rewrite (fetch_length_complete false [0] (Some 0)); [|left; constructor; lia|assumption|cbn [length app] in *; lia].
    cbn [code length]. change (0 <? 4611686018427387904) with true. cbn iota.
    destruct (Z.leb_spec 0 0); [|lia]. cbn zeta.
    destruct (Z.ltb_spec (Z.of_nat (size - 1)) (Z.of_nat 1 + 0)); [lia|].
    change (Z.to_nat (Z.of_nat 1 + 0)) with 1%nat. cbn [app nth_error]. cbn [Z.eqb andb].
    f_equal. f_equal. lia.
  - (* one more element *)
    intros T X es Ht IHt He IHe frames rest size skip fuel Hr Hfr Hfu Hs.
    pose proof (proj1 (proj2 lv_facts) es He) as Heb.
    destruct (proj2 (proj2 lv_facts) T X Ht) as (HT & HX & HT1 & HX1).
    destruct fuel as [|fuel]; [lia|].
    assert (Q1 : length (T ++ X ++ es) = (length T + (length X + length es))%nat) by (rewrite !app_length; lia).
    rewrite Q1 in *.
    assert (Q2 : (T ++ X ++ es) ++ 0 :: 0 :: rest = T ++ X ++ (es ++ 0 :: 0 :: rest)) by (rewrite <- !app_assoc; reflexivity).
    rewrite Q2 in *.
    set (R := es ++ 0 :: 0 :: rest) in *.
    assert (HR : bytes R).
    { apply Forall_app. split; [assumption|]. constructor; [unfold is_byte; lia|]. constructor; [unfold is_byte; lia|assumption]. }
    assert (Q3 : length (T ++ X ++ R) = (length T + (length X + length R))%nat) by (rewrite !app_length; lia).
    assert (Q4 : length R = (length es + S (S (length rest)))%nat) by (unfold R; rewrite app_length; reflexivity).
    destruct (IHt frames R size HR ltac:(lia) ltac:(lia)) as ([v Ev] & Es & Hne).
    cbn [skip_contents]. rewrite Ev.
    destruct T as [|b0 T]; [cbn [length] in HT1; lia|].
    cbn [app nth] in Es. cbn [app].
    replace (skipn (length (b0 :: T)) (b0 :: T ++ X ++ R)) with (X ++ R)
      by (change (b0 :: T ++ X ++ R) with ((b0 :: T) ++ X ++ R); rewrite skipn_app_exact; reflexivity).
    rewrite Es.
    assert (Hb1 : exists b1, nth_error (b0 :: T ++ X ++ R) 1 = Some b1 /\ firstn 2 ((b0 :: T) ++ X) = [b0; b1]).
    { cbn [nth_error app firstn]. destruct T as [|t1 T]; cbn [app].
      - destruct X as [|x X]; [cbn [length] in HX1; lia|]. cbn [app nth_error]. exists x. auto.
      - exists t1. auto. }
    destruct Hb1 as [b1 [-> Hb1]]. cbn zeta.
    destruct (Z.eqb_spec b0 0) as [->|]; [destruct (Z.eqb_spec b1 0) as [->|]|]; cbn [andb];
      [congruence| |];
      (replace (skipn (length (b0 :: T) + length X) (b0 :: T ++ X ++ R)) with R || replace (skipn (length (0 :: T) + length X) (0 :: T ++ X ++ R)) with R);
      [|rewrite <- app_length; change (0 :: T ++ X ++ R) with ((0 :: T) ++ X ++ R); rewrite app_assoc, skipn_app_exact; reflexivity|
       |rewrite <- app_length; change (b0 :: T ++ X ++ R) with ((b0 :: T) ++ X ++ R); rewrite app_assoc, skipn_app_exact; reflexivity];
      (unfold R at 1; rewrite IHe; [f_equal; f_equal; lia|assumption|lia|lia|fold R; lia]).
  - (* one element *)
    intros T cl c num X HT Hf Hx IH Hne frames rest size Hr Hfr Hs.
    pose proof (proj1 lv_facts c X Hx) as [HX HX1].
    destruct (tag_octets_bytes _ _ _ _ HT) as (HTb & HT1 & Hc & _).
    rewrite !app_length in Hs.
    split; [eexists; apply (fetch_tag_complete T cl c num); [assumption|assumption|lia]|].
    split; [|exact Hne].
    destruct T as [|b0 T]; [cbn [length] in HT1; lia|]. cbn [app nth] in *. rewrite Hc.
    apply IH; [assumption|assumption|]. rewrite app_length. lia.
Qed.

Lemma firstn_split3 {A} (l : list A) a b : (a + b <= length l)%nat ->
  firstn (a + b) l = firstn a l ++ firstn b (skipn a l).
Proof.
  intros H. rewrite <- (firstn_skipn a l) at 1. rewrite firstn_app.
  rewrite firstn_length_le by lia. replace (a + b - a)%nat with b by lia.
  rewrite firstn_firstn. rewrite Nat.min_r by lia. reflexivity.
Qed.

(** Whatever is skipped is an encoding. *)
Lemma contents_sound rec :
  (forall c mem size n, bytes mem -> (size <= length mem)%nat -> rec c mem size = Ok (Got n tt) ->
     (n <= size)%nat /\ lv c (firstn n mem)) ->
  forall fuel mem size skip n, bytes mem -> (size <= length mem)%nat ->
  skip_contents rec fuel mem size skip = Ok (Got n tt) ->
  exists k es, n = (skip + k)%nat /\ (k <= size)%nat /\ elements es /\ firstn k mem = es ++ [0; 0].
Proof.
  intros Hrec. induction fuel as [|fuel IH]; intros mem size skip n Hb Hs; cbn [skip_contents]; [discriminate|].
  destruct (ber_fetch_tag mem size) as [r| |] eqn:Et; try discriminate.
  destruct r as [| |tl v]; try discriminate.
  destruct (fetch_tag_sound mem size tl v Hb Hs Et) as (cl & pc & num & HT & Hf & _ & Htl & Hc).
  destruct mem as [|b0 mem0]; [discriminate|]. cbn [nth] in Hc. set (mem := b0 :: mem0) in *.
  destruct (rec (constructed_bit b0) (skipn tl mem) (size - tl)%nat) as [r| |] eqn:Er; try discriminate.
  destruct r as [| |ll []]; try discriminate.
  apply Hrec in Er; [|apply bytes_skipn; assumption|rewrite skipn_length; lia].
  destruct Er as [Hll Hlv]. rewrite Hc in Hlv.
  assert (HX1 : (1 <= ll)%nat).
  { pose proof (proj1 lv_facts _ _ Hlv) as [_ HX]. rewrite firstn_length in HX. lia. }
  destruct (nth_error mem 1) as [b1|] eqn:E1; [|discriminate]. cbn zeta.
  assert (Hsplit : firstn (tl + ll) mem = firstn tl mem ++ firstn ll (skipn tl mem)) by (apply firstn_split3; lia).
  assert (H2 : firstn 2 mem = [b0; b1]).
  { unfold mem in *. cbn [nth_error] in E1. destruct mem0; [discriminate|]. cbn [nth_error] in E1. injection E1 as ->. reflexivity. }
  assert (H2' : firstn 2 (firstn tl mem ++ firstn ll (skipn tl mem)) = [b0; b1]).
  { rewrite <- Hsplit, firstn_firstn. rewrite Nat.min_l by lia. exact H2. }
  destruct (Z.eqb_spec b0 0) as [E0|E0]; [destruct (Z.eqb_spec b1 0) as [E1'|E1']|]; cbn [andb].
  - (* end of contents *)
    intros G; injection G as <-. exists (tl + ll)%nat, []. split; [reflexivity|]. split; [lia|]. split; [constructor|].
    (* T = [0], X = [0] *)
    assert (HtlE : tl = 1%nat).
    { destruct (tag_octets_bytes _ _ _ _ HT) as (_ & _ & _ & Hone).
      assert (nth 0 (firstn tl mem) 0 = 0).
      { unfold mem. destruct tl; [lia|]. cbn [firstn nth]. exact E0. }
      specialize (Hone H). rewrite firstn_length in Hone. lia. }
    subst tl.
    assert (Hc' : pc = false) by (rewrite E0 in Hc; vm_compute in Hc; congruence).
    assert (HllE : ll = 1%nat).
    { assert (Hx0 : nth_error (firstn ll (skipn 1 mem)) 0 = Some 0).
      { unfold mem in *. cbn [nth_error] in E1. destruct mem0; [discriminate|]. cbn [nth_error] in E1. injection E1 as ->.
        cbn [skipn]. destruct ll; [lia|]. cbn [firstn nth_error]. rewrite E1'. reflexivity. }
      assert (Hlen : length (firstn ll (skipn 1 mem)) = ll) by (apply firstn_length_le; rewrite skipn_length; lia).
      rewrite <- Hlen. rewrite Hc' in Hlv. clear - Hlv Hx0.
      inversion Hlv as [c L v V Ha Hf HV Hl E1 E2|]; subst.
      change (skipn 1 mem) with mem0 in *. rewrite <- E2 in Hx0 |- *.
      destruct Ha as [Ha|[_ [-> _]]]; [|cbn in Hx0; discriminate].
      inversion Ha; subst.
      - cbn [app nth_error] in Hx0. injection Hx0 as E. destruct V; [reflexivity|cbn [length] in E; lia].
      - cbn [app nth_error] in Hx0. assert (128 + Z.of_nat (length bs) = 0) by congruence. lia. }
    subst ll. rewrite Hsplit in *. unfold mem in *. destruct mem0; [discriminate|]. cbn in E1 |- *. congruence.
  - intros G. apply IH in G; [|apply bytes_skipn; assumption|rewrite skipn_length; lia].
    destruct G as (k & es & -> & Hk & He & Ek).
    exists (tl + ll + k)%nat, (firstn tl mem ++ firstn ll (skipn tl mem) ++ es).
    split; [lia|]. split; [lia|]. split.
    + apply elements_cons; [|exact He]. apply (tlv_intro _ cl pc num); try assumption. rewrite H2'. congruence.
    + rewrite firstn_split3 by lia. rewrite Ek, Hsplit, <- !app_assoc. reflexivity.
  - intros G. apply IH in G; [|apply bytes_skipn; assumption|rewrite skipn_length; lia].
    destruct G as (k & es & -> & Hk & He & Ek).
    exists (tl + ll + k)%nat, (firstn tl mem ++ firstn ll (skipn tl mem) ++ es).
    split; [lia|]. split; [lia|]. split.
    + apply elements_cons; [|exact He]. apply (tlv_intro _ cl pc num); try assumption. rewrite H2'. congruence.
    + rewrite firstn_split3 by lia. rewrite Ek, Hsplit, <- !app_assoc. reflexivity.
Qed.

Lemma skip_sound frames : forall c mem size n, bytes mem -> (size <= length mem)%nat ->
  ber_skip_length frames c mem size = Ok (Got n tt) -> (n <= size)%nat /\ lv c (firstn n mem).
Proof.
  induction frames as [|frames IH]; intros c mem size n Hb Hs; cbn [ber_skip_length]; [discriminate|].
  destruct (ber_fetch_length c mem size) as [r| |] eqn:El; try discriminate.
  destruct r as [| |ll v]; try discriminate.
  destruct (fetch_length_sound c mem size ll v Hb Hs El) as (o & -> & Ha & Hf & Hll).
  destruct o as [v|]; cbn [code].
  - assert (Hv : 0 <= v).
    { destruct Ha as [Ha|[_ [_ Ha]]]; [|injection Ha as ->; lia]. inversion Ha; subst; [lia|].
      apply (fold256_mono bs 0); [assumption|lia]. }
    destruct (Z.leb_spec 0 v); [|lia]. cbn zeta.
    destruct (Z.ltb_spec (Z.of_nat size) (Z.of_nat ll + v)); [discriminate|].
    intros G; injection G as <-. split; [lia|].
    replace (Z.to_nat (Z.of_nat ll + v)) with (ll + Z.to_nat v)%nat by lia.
    rewrite firstn_split3 by lia. apply (lv_definite c _ v); try assumption.
    + apply bytes_firstn, bytes_skipn; assumption.
    + rewrite firstn_length_le by (rewrite skipn_length; lia). lia.
  - destruct (Z.leb_spec 0 (-1)); [lia|]. intros G.
    apply (contents_sound _ IH) in G; [|apply bytes_skipn; assumption|rewrite skipn_length; lia].
    destruct G as (k & es & -> & Hk & He & Ek). split; [lia|].
    rewrite firstn_split3 by lia. rewrite Ek.
    destruct Ha as [Ha|[_ [_ Ha]]]; [|discriminate].
    inversion Ha as [| |Hc E1 E2]; subst. cbn [app]. apply lv_indefinite. exact He.
Qed.

(** Never undefined: enough stack, and a buffer as long as announced. *)
Lemma contents_total rec bound :
  (forall c mem size, bytes mem -> (size <= length mem)%nat -> (size < bound)%nat -> exists r, rec c mem size = Ok r) ->
  (forall c mem size n, bytes mem -> (size <= length mem)%nat -> rec c mem size = Ok (Got n tt) ->
     (1 <= n <= size)%nat) ->
  forall fuel mem size skip, bytes mem -> (size <= length mem)%nat -> (size < fuel)%nat -> (size <= bound)%nat ->
  exists r, skip_contents rec fuel mem size skip = Ok r.
Proof.
  intros Htot Hn. induction fuel as [|fuel IH]; intros mem size skip Hb Hs Hfu Hbd; [lia|]. cbn [skip_contents].
  destruct (fetch_tag_total mem size Hs) as [r Er]. rewrite Er.
  destruct r as [| |tl v]; [eauto|eauto|].
  destruct (fetch_tag_sound mem size tl v Hb Hs Er) as (cl & pc & num & HT & Hf & _ & Htl & Hc).
  destruct mem as [|b0 mem0]; [cbn in Hs; lia|]. set (mem := b0 :: mem0) in *.
  destruct (Htot (constructed_bit b0) (skipn tl mem) (size - tl)%nat) as [r Er2];
    [apply bytes_skipn; assumption|rewrite skipn_length; lia|lia|]. rewrite Er2.
  destruct r as [| |ll []]; [eauto|eauto|].
  apply Hn in Er2; [|apply bytes_skipn; assumption|rewrite skipn_length; lia].
  destruct (nth_error mem 1) as [b1|] eqn:E1; [|apply nth_error_None in E1; lia]. cbn zeta.
  destruct (_ && _); [eauto|]. apply IH; [apply bytes_skipn; assumption|rewrite skipn_length; lia|lia|lia].
Qed.

Lemma skip_total frames : forall c mem size, bytes mem -> (size <= length mem)%nat -> (size < frames)%nat ->
  exists r, ber_skip_length frames c mem size = Ok r.
Proof.
  induction frames as [|frames IH]; intros c mem size Hb Hs Hfr; [lia|]. cbn [ber_skip_length].
  destruct (fetch_length_total c mem size Hb Hs) as [r Er]. rewrite Er.
  destruct r as [| |ll v]; [eauto|eauto|].
  destruct (fetch_length_sound c mem size ll v Hb Hs Er) as (o & -> & Ha & Hf & Hll).
  destruct (0 <=? code o); [cbn zeta; destruct (_ <? _); eauto|].
  apply (contents_total _ frames).
  - intros; apply IH; assumption.
  - intros c' mem' size' n Hb' Hs' G. apply skip_sound in G; [|assumption|assumption].
    destruct G as [G1 G2]. pose proof (proj1 lv_facts _ _ G2) as [_ HX]. rewrite firstn_length in HX. lia.
  - apply bytes_skipn; assumption.
  - rewrite skipn_length; lia.
  - lia.
  - lia.
Qed.

(** An unambiguous language: what is skipped does not depend on what follows. *)
Lemma lv_prefix c X Y r1 r2 : lv c X -> lv c Y -> bytes r1 -> bytes r2 -> X ++ r1 = Y ++ r2 -> X = Y /\ r1 = r2.
Proof.
  intros HX HY H1 H2 E.
  assert (LX : length (X ++ r1) = (length X + length r1)%nat) by apply app_length.
  assert (LY : length (Y ++ r2) = (length Y + length r2)%nat) by apply app_length.
  assert (LE : length (X ++ r1) = length (Y ++ r2)) by (rewrite E; reflexivity).
  pose proof (proj1 skip_complete c X HX (S (length (X ++ r1))) r1 (length (X ++ r1)) H1 ltac:(lia) ltac:(lia)) as A.
  pose proof (proj1 skip_complete c Y HY (S (length (X ++ r1))) r2 (length (X ++ r1)) H2 ltac:(lia) ltac:(lia)) as B.
  rewrite E in A. rewrite <- E in B. rewrite E in B. rewrite A in B. injection B as B.
  pose proof (f_equal (firstn (length X)) E) as F. rewrite firstn_app_exact, B, firstn_app_exact in F.
  subst Y. split; [reflexivity|]. apply (app_inv_head X). exact E.
Qed.
