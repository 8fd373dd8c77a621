(** SET OF, CHOICE, and the decoder of every well-formed type. *)
From Coq Require Import Lia.
From Verif Require Import Base Ber BerSpec BerProofs BerProofs2 BerProofs4.
From Verif Require Import Asn1Dec Asn1DecSpec Asn1DecProofs Asn1DecProofs2 Asn1DecProofs3 Asn1DecProofs4 Asn1DecProofs5 Asn1DecProofs6 Asn1DecProofs7.

(** ** SET OF *)

Lemma of_step turns etag dec left bs consumed acc :
  of_loop (S turns) etag dec left bs consumed acc =
  if left =? 0 then Done consumed (VOf (rev acc))
  else
    let win := LEFT left bs in
    match ber_fetch_tag win (length win) with
    | Ok (Got _ tag) =>
        match win with
        | [] => Fault
        | b0 :: win' =>
            if (left <? 0) && (b0 =? 0) && match win' with [] => true | _ => false end then Failed
            else if (left <? 0) && zeros win then
              match seq_eocs (Z.to_nat (- left)) bs consumed with
              | None => Failed
              | Some n => Done n (VOf (rev acc))
              end
            else if match etag with None => false | Some t => negb (tag =? t) end then Failed
            else match dec win with
                 | Done n v => of_loop turns etag dec (advance left n) (skipn n bs) (consumed + n) (v :: acc)
                 | r => r
                 end
        end
    | Ok _ => Failed
    | _ => Fault
    end.
Proof.
  cbn [of_loop]. cbn zeta. destruct (left =? 0); [reflexivity|].
  destruct (ber_fetch_tag (LEFT left bs) (length (LEFT left bs))) as [[| |k tag]| |]; try reflexivity.
  destruct (LEFT left bs) as [|b0 win']; [reflexivity|].
  destruct (left <? 0); cbn [andb]; [|reflexivity].
  destruct (b0 =? 0) eqn:Eb; cbn [andb].
  - destruct win' as [|b1 win']; [reflexivity|]. cbn [zeros]. rewrite Eb. cbn [andb]. destruct (b1 =? 0); reflexivity.
  - replace (zeros (b0 :: win')) with false by (destruct win'; cbn [zeros]; [reflexivity|rewrite Eb; reflexivity]). reflexivity.
Qed.

Lemma of_sound etag dec t : Sound dec t 0 -> forall turns left bs consumed acc n v, bytes bs ->
  of_loop turns etag dec left bs consumed acc = Done n v ->
  exists body vs rest, v = VOf (rev acc ++ vs) /\ bs = body ++ tail_of left ++ rest
    /\ n = (consumed + length (body ++ tail_of left))%nat /\ (0 <= left -> left = Z.of_nat (length body))
    /\ enc_elements (left <? 0) etag t body vs.
Proof.
  intros Hsound. induction turns as [|turns IH]; intros left bs consumed acc n v Hb E; [discriminate|].
  rewrite of_step in E. cbn zeta in E. destruct (Z.eqb_spec left 0) as [->|Hne].
  { injection E as <- <-. exists [], [], bs. rewrite app_nil_r. repeat split; [cbn; lia|constructor]. }
  pose proof (LEFT_bytes left bs Hb) as Hbw.
  destruct (ber_fetch_tag (LEFT left bs) (length (LEFT left bs))) as [[| |k0 tag]| |] eqn:Et; try discriminate.
  destruct (LEFT left bs) as [|b0 win'] eqn:Ewin; [discriminate|]. rewrite <- Ewin in *.
  match type of E with (if ?x then _ else _) = _ => destruct x; [discriminate|] end. clear b0 win' Ewin.
  destruct ((left <? 0) && zeros (LEFT left bs)) eqn:Heoc.
  { apply andb_true_iff in Heoc. destruct Heoc as (Hneg & _). apply Z.ltb_lt in Hneg.
    destruct (seq_eocs (Z.to_nat (- left)) bs consumed) as [k|] eqn:Es; [|discriminate]. injection E as <- <-.
    apply seq_eocs_sound in Es. destruct Es as (-> & rest & Ebs). exists [], [], rest.
    unfold tail_of. destruct (Z.ltb_spec left 0); [|lia]. rewrite app_nil_r. cbn [app]. rewrite eocs_length.
    repeat split; [assumption|lia|constructor]. }
  destruct (match etag with None => false | Some t0 => negb (tag =? t0) end) eqn:Htag; [discriminate|].
  destruct (dec (LEFT left bs)) as [k x| | |] eqn:Ed; try discriminate.
  apply Hsound in Ed; [|assumption]. destruct Ed as (Hk & Henc).
  destruct (LEFT_firstn left bs k Hk) as (Efk & Hk' & Hkl).
  destruct (enc_leading _ _ _ _ Henc) as ((tag' & Hlead) & Hlen2).
  pose proof (leading_unique _ _ _ _ _ _ Hlead eq_refl Et) as ->.
  destruct (advance_sign left k Hkl) as (Hs1 & Hs2 & Hs3).
  apply IH in E; [|apply bytes_skipn; assumption].
  destruct E as (body & vs & rest & -> & Ebs & -> & Hl & Hmem). rewrite Hs1, Hs2 in *.
  set (b := firstn k (LEFT left bs)) in *.
  exists (b ++ body), (x :: vs), rest.
  assert (Lb : length b = k) by (apply firstn_length_le; assumption).
  split; [|split; [|split; [|split]]].
  - cbn [rev]. rewrite <- app_assoc. reflexivity.
  - rewrite <- app_assoc, <- Ebs, Efk. symmetry. apply firstn_skipn.
  - rewrite <- app_assoc, (app_length b). lia.
  - intros H0. specialize (Hs3 H0). rewrite app_length. specialize (Hkl H0). rewrite Hs3 in Hl. lia.
  - constructor; [|assumption| |assumption].
    { intros t0 ->. destruct (Z.eqb_spec tag t0) as [<-|]; [assumption|discriminate]. }
    intros Hneg Hz.
    assert (Hz' : zeros (LEFT left bs) = true).
    { apply zeros_spec. unfold b in Hz. rewrite firstn_firstn in Hz. replace (Nat.min 2 k) with 2%nat in Hz by lia. assumption. }
    rewrite Hz', Hneg in Heoc. discriminate.
Qed.

Lemma of_complete etag dec t : Complete dec t 0 -> forall turns left body vs rest consumed acc, (length body < turns)%nat ->
  bytes (body ++ tail_of left ++ rest) -> (0 <= left -> left = Z.of_nat (length body)) ->
  enc_elements (left <? 0) etag t body vs ->
  of_loop turns etag dec left (body ++ tail_of left ++ rest) consumed acc
  = Done (consumed + length (body ++ tail_of left))%nat (VOf (rev acc ++ vs)).
Proof.
  intros Hcomp. induction turns as [|turns IH]; intros left body vs rest consumed acc Hturns Hb Hl Henc; [lia|].
  rewrite of_step. cbn zeta. inversion Henc as [i1 e1 t1|i1 e1 t1 b body' v vs' Hst Hbe Hnz Hrest]; subst.
  - cbn [app length] in *. rewrite app_nil_r. destruct (Z.eqb_spec left 0) as [->|Hne]; [cbn; rewrite Nat.add_0_r; reflexivity|].
    assert (Hneg : left < 0) by lia.
    assert (Ew : LEFT left (tail_of left ++ rest) = tail_of left ++ rest).
    { unfold LEFT. destruct (Z.ltb_spec left 0); [reflexivity|lia]. }
    assert (Etl : tail_of left = eocs (Z.to_nat (- left))) by (unfold tail_of; destruct (Z.ltb_spec left 0); [reflexivity|lia]).
    destruct (Z.to_nat (- left)) as [|k] eqn:Ek; [lia|].
    assert (Etail : tail_of left ++ rest = 0 :: 0 :: eocs k ++ rest) by (rewrite Etl; reflexivity).
    pose proof (fetch_tag_complete [0] 0 false 0 (0 :: eocs k ++ rest)) as F. cbn [app] in F.
    rewrite Ew, Etail, F; [|apply (low_tag 0 false 0); lia|reflexivity|cbn [length]; lia].
    cbn iota. rewrite andb_false_r. cbn [zeros]. change ((0 =? 0) && (0 =? 0)) with true.
    destruct (Z.ltb_spec left 0); [|lia]. cbn [andb]. rewrite <- Etail, Etl.
    rewrite seq_eocs_complete, eocs_length. reflexivity.
  - destruct (enc_leading _ _ _ _ Hbe) as ((tag & Hlead) & Hb2).
    assert (Hne : left <> 0) by (intros ->; specialize (Hl ltac:(lia)); rewrite app_length in Hl; lia).
    destruct (Z.eqb_spec left 0) as [|_]; [contradiction|].
    rewrite <- !app_assoc in *. set (bs := b ++ body' ++ tail_of left ++ rest) in *.
    destruct (LEFT_app left b (body' ++ tail_of left ++ rest)) as (rest' & Ew & Hbr').
    { destruct (Z.ltb_spec left 0); [left; assumption|right]. rewrite app_length in Hl. lia. }
    fold bs in Ew.
    destruct (leading_fetch tag b rest' Hlead) as (k0 & Et). rewrite <- Ew in Et. rewrite Et.
    assert (Hz : (left <? 0) && zeros (LEFT left bs) = false).
    { rewrite Ew, zeros_app by assumption. destruct (left <? 0); [|reflexivity]. cbn [andb]. apply zeros_not, Hnz. reflexivity. }
    destruct (LEFT left bs) as [|b0 [|b1 win']] eqn:Ewin.
    { apply (f_equal (@length Z)) in Ew. rewrite app_length in Ew. cbn [length] in Ew. lia. }
    { apply (f_equal (@length Z)) in Ew. rewrite app_length in Ew. cbn [length] in Ew. lia. }
    rewrite <- Ewin in *. rewrite andb_false_r, Hz.
    replace (match etag with None => false | Some t0 => negb (tag =? t0) end) with false.
    2:{ destruct etag as [t0|]; [|reflexivity]. specialize (Hst t0 eq_refl).
        destruct (leading_fetch t0 b rest' Hst) as (k1 & Et'). rewrite <- Ew in Et'. rewrite Et in Et'. injection Et' as _ ->. rewrite Z.eqb_refl. reflexivity. }
    assert (Bb : bytes b) by (apply Forall_app in Hb; apply Hb).
    assert (Br : bytes (body' ++ tail_of left ++ rest)) by (apply Forall_app in Hb; apply Hb).
    rewrite Ew, (Hcomp b v rest' Hbe) by (apply Forall_app; split; [assumption|apply Hbr'; assumption]).
    assert (Hsk : skipn (length b) bs = body' ++ tail_of left ++ rest) by (unfold bs; apply skipn_app_exact).
    rewrite Hsk.
    assert (Hkl : 0 <= left -> Z.of_nat (length b) <= left) by (intros H0; specialize (Hl H0); rewrite app_length in Hl; lia).
    destruct (advance_sign left (length b) Hkl) as (Hs1 & Hs2 & Hs3). rewrite <- Hs2.
    rewrite (IH _ _ vs').
    + rewrite Hs2. f_equal; [rewrite (app_length b); lia|]. cbn [rev]. rewrite <- !app_assoc. reflexivity.
    + rewrite app_length in Hturns. lia.
    + rewrite Hs2. assumption.
    + intros H0. assert (0 <= left) by (destruct (Z.ltb_spec left 0), (Z.ltb_spec (advance left (length b)) 0); congruence || lia).
      rewrite Hs3 by assumption. rewrite app_length in Hl. lia.
    + rewrite Hs1. assumption.
Qed.

Lemma of_not OK etag dec t (bad : outcome value) : closed OK -> bad = Fault \/ bad = Spin -> Sound dec t 0 -> (forall bs, OK bs -> dec bs <> bad) ->
  forall turns left bs consumed acc, (length bs < turns)%nat -> OK bs -> of_loop turns etag dec left bs consumed acc <> bad.
Proof.
  intros Hclosed Hbad Hsound Hdec. induction turns as [|turns IH]; intros left bs consumed acc Hturns Hb; [lia|].
  rewrite of_step. cbn zeta. destruct (left =? 0); [destruct Hbad; subst; discriminate|].
  pose proof (LEFT_closed OK left bs Hclosed Hb) as Hbw.
  destruct (fetch_tag_total (LEFT left bs) (length (LEFT left bs))) as (r & Et); [lia|]. rewrite Et.
  destruct r as [| |k0 tag]; [destruct Hbad; subst; discriminate|destruct Hbad; subst; discriminate|].
  destruct (LEFT left bs) as [|b0 win'] eqn:Ewin; [cbn in Et; discriminate|]. rewrite <- Ewin in *.
  match goal with |- (if ?x then _ else _) <> _ => destruct x end; [destruct Hbad; subst; discriminate|].
  match goal with |- (if ?x then _ else _) <> _ => destruct x end; [destruct (seq_eocs _ _ _); destruct Hbad; subst; discriminate|].
  match goal with |- (if ?x then _ else _) <> _ => destruct x end; [destruct Hbad; subst; discriminate|].
  destruct (dec (LEFT left bs)) as [k x| | |] eqn:Ed; try (rewrite <- Ed; apply Hdec; assumption).
  apply Hsound in Ed; [|apply Hclosed; assumption]. destruct Ed as (Hk & Henc). destruct (enc_leading _ _ _ _ Henc) as (_ & Hlen2).
  rewrite firstn_length in Hlen2. destruct (LEFT_firstn left bs k Hk) as (_ & Hk' & _).
  apply IH; [rewrite skipn_length; lia|apply Hclosed; assumption].
Qed.

(** ** Framing *)

(** What the headers say and how the contents must end. *)
Lemma framed_intro es c len bs m body rest : bytes bs ->
  (dchain es c len (firstn m bs) /\ 0 <= len
   \/ c = true /\ ichain es (firstn m bs) /\ len = - Z.of_nat (length es) /\ len < 0) -> (m <= length bs)%nat ->
  skipn m bs = body ++ tail_of len ++ rest -> (0 <= len -> len = Z.of_nat (length body)) ->
  framed es c (len <? 0) body (firstn (m + length (body ++ tail_of len)) bs)
  /\ (m + length (body ++ tail_of len) <= length bs)%nat.
Proof.
  intros Hb Hc Hm Hs Hl.
  assert (E : firstn (m + length (body ++ tail_of len)) bs = firstn m bs ++ body ++ tail_of len).
  { rewrite firstn_plus, Hs, app_assoc. f_equal. apply firstn_app_exact. }
  split.
  - rewrite E. destruct Hc as [(Hd & H0)|(-> & Hi & -> & Hneg)].
    + destruct (Z.ltb_spec len 0); [lia|]. unfold tail_of. destruct (Z.ltb_spec len 0); [lia|]. rewrite app_nil_r.
      apply framed_definite. rewrite <- Hl by assumption. assumption.
    + destruct (Z.ltb_spec (- Z.of_nat (length es)) 0); [|lia]. unfold tail_of. destruct (Z.ltb_spec (- Z.of_nat (length es)) 0); [|lia].
      replace (Z.to_nat (- - Z.of_nat (length es))) with (length es) by lia. apply framed_indefinite; [reflexivity|assumption].
  - pose proof (f_equal (@length Z) Hs) as Q. rewrite skipn_length, app_assoc, app_length in Q. lia.
Qed.

Lemma framed_elim tags mode form c indef body whole rest : checkable tags mode form -> form_ok form c ->
  framed (chain tags mode) c indef body whole -> bytes (whole ++ rest) ->
  exists p len, ber_check_tags tags mode form (whole ++ rest) = Done (length p) (len, c)
    /\ whole = p ++ body ++ tail_of len /\ (len <? 0) = indef /\ (0 <= len -> len = Z.of_nat (length body)) /\ bytes (body ++ tail_of len ++ rest)
    /\ (2 <= length p)%nat /\ (len < 0 -> len = - Z.of_nat (length (chain tags mode))).
Proof.
  intros Hck Hf Hfr Hb. destruct Hfr as [p body Hd|p body -> Hi].
  - exists p, (Z.of_nat (length body)). rewrite <- app_assoc in *.
    destruct (dchain_bytes _ _ _ _ Hd) as (_ & L2 & _).
    assert (Br : bytes (body ++ rest)) by (apply Forall_app in Hb; apply Hb).
    unfold tail_of. destruct (Z.ltb_spec (Z.of_nat (length body)) 0); [lia|]. rewrite app_nil_r.
    split; [apply check_definite; assumption|]. repeat split; try assumption; try lia.
  - exists p, (- Z.of_nat (length (chain tags mode))). rewrite <- !app_assoc in *.
    destruct (ichain_bytes _ _ Hi) as (_ & L2).
    assert (Br : bytes (body ++ eocs (length (chain tags mode)) ++ rest)) by (apply Forall_app in Hb; apply Hb).
    pose proof (chain_nonempty tags mode) as Hne. assert (0 < length (chain tags mode))%nat by (destruct (chain tags mode); [congruence|cbn [length]; lia]).
    unfold tail_of. destruct (Z.ltb_spec (- Z.of_nat (length (chain tags mode))) 0); [|lia].
    replace (Z.to_nat (- - Z.of_nat (length (chain tags mode)))) with (length (chain tags mode)) by lia.
    split; [apply check_indefinite; assumption|]. repeat split; try assumption; try lia.
Qed.

(** ** CHOICE *)

Lemma choice_eocs_sound : forall turns n bs consumed v k x, choice_eocs turns n bs consumed v = Done k x ->
  x = v /\ k = (consumed + 2 * n)%nat /\ exists rest, bs = eocs n ++ rest.
Proof.
  induction turns as [|turns IH]; intros n bs consumed v k x E; [discriminate|]. cbn [choice_eocs] in E.
  destruct n as [|n].
  - injection E as <- <-. repeat split; [lia|]. exists bs. reflexivity.
  - destruct (ber_fetch_tag bs (length bs)) as [[| |m tag]| |]; try discriminate.
    destruct bs as [|b0 bs]; [discriminate|]. destruct (Z.eqb_spec b0 0) as [->|]; [|discriminate].
    destruct bs as [|b1 bs]; [discriminate|]. destruct (Z.eqb_spec b1 0) as [->|].
    + apply IH in E. destruct E as (-> & -> & rest & ->). repeat split; [lia|]. exists rest. reflexivity.
    + apply IH in E. destruct E as (_ & _ & rest & E). cbn [eocs app] in E. injection E as E _. contradiction.
Qed.

Lemma choice_eocs_complete : forall n turns rest consumed v, (n < turns)%nat ->
  choice_eocs turns n (eocs n ++ rest) consumed v = Done (consumed + 2 * n)%nat v.
Proof.
  induction n as [|n IH]; intros turns rest consumed v Ht; (destruct turns as [|turns]; [lia|]); cbn [choice_eocs].
  - f_equal. lia.
  - cbn [eocs app].
    pose proof (fetch_tag_complete [0] 0 false 0 (0 :: eocs n ++ rest)) as F. cbn [app] in F.
    rewrite F; [|apply (low_tag 0 false 0); lia|reflexivity|cbn [length]; lia].
    change (0 =? 0) with true. cbn iota. rewrite IH by lia. f_equal. lia.
Qed.

Lemma choice_eocs_not_fault : forall turns n bs consumed v, choice_eocs turns n bs consumed v <> Fault.
Proof.
  induction turns as [|turns IH]; intros n bs consumed v; [discriminate|]. cbn [choice_eocs]. destruct n as [|n]; [discriminate|].
  destruct (fetch_tag_total bs (length bs)) as (r & Et); [lia|]. rewrite Et. destruct r as [| |k tag]; try discriminate.
  destruct bs as [|b0 bs]; [cbn in Et; discriminate|]. destruct (b0 =? 0); [|discriminate]. destruct bs as [|b1 bs]; [discriminate|].
  destruct (b1 =? 0); apply IH.
Qed.

Lemma choice_found t2e tag el : choice_search t2e tag = Some el -> In (tag, el) t2e.
Proof.
  induction t2e as [|[t e] t2e IH]; [discriminate|]. cbn [choice_search]. destruct (Z.eqb_spec tag t) as [->|].
  - intros E. injection E as <-. left. reflexivity.
  - intros E. right. apply IH. assumption.
Qed.

Lemma choice_spec t2e ms : choice_ok t2e ms = true ->
  (forall tag el, choice_search t2e tag = Some el -> exists md opt any t, nth_error ms el = Some (Member (Some tag) md opt any t))
  /\ (forall k tag md opt any t, nth_error ms k = Some (Member (Some tag) md opt any t) -> choice_search t2e tag = Some k).
Proof.
  unfold choice_ok. rewrite andb_true_iff, !forallb_forall. intros (H1 & H2). split.
  - intros tag el E. apply choice_found, H1 in E. cbn [fst snd] in E. destruct (nth_error ms el) as [[[t0|] md opt any t]|]; try discriminate.
    apply Z.eqb_eq in E. subst. eexists _, _, _, _. reflexivity.
  - intros k tag md opt any t E.
    assert (Hin : In (k, Member (Some tag) md opt any t) (combine (seq 0 (length ms)) ms)).
    { apply nth_error_In with (n := k). apply nth_error_combine; [|assumption].
      assert (k < length ms)%nat by (apply nth_error_Some; congruence).
      rewrite nth_error_nth' with (d := O) by (rewrite seq_length; lia). rewrite seq_nth by lia. reflexivity. }
    apply H2 in Hin. cbn [fst snd] in Hin. destruct (choice_search t2e tag) as [el|]; [|discriminate]. apply Nat.eqb_eq in Hin. congruence.
Qed.
