(** The loop over the members of a SEQUENCE, and the loop over the elements of
    a SET OF. *)
From Coq Require Import Lia.
From Verif Require Import Base Ber BerSpec BerProofs BerProofs2 BerProofs4.
From Verif Require Import Asn1Dec Asn1DecSpec Asn1DecProofs Asn1DecProofs2 Asn1DecProofs3 Asn1DecProofs4 Asn1DecProofs5 Asn1DecProofs6.

Lemma Forall2_skipn {A B} (R : A -> B -> Prop) n : forall l l', Forall2 R l l' -> Forall2 R (skipn n l) (skipn n l').
Proof. induction n as [|n IH]; intros l l' H; [assumption|]. destruct H; [constructor|]. apply IH. assumption. Qed.

Lemma Forall2_nth {A B} (R : A -> B -> Prop) : forall n l l' y, Forall2 R l l' -> nth_error l' n = Some y ->
  exists x, nth_error l n = Some x /\ R x y.
Proof.
  induction n as [|n IH]; intros l l' y H E; destruct H as [|a b l l' Hab H]; try discriminate.
  - injection E as <-. exists a. split; [reflexivity|assumption].
  - apply (IH _ _ _ H) in E. exact E.
Qed.

Lemma Forall2_len {A B} (R : A -> B -> Prop) l l' : Forall2 R l l' -> length l = length l'.
Proof. induction 1; cbn [length]; congruence. Qed.

Lemma rev_repeat_None n : rev (repeat (@None value) n) = repeat None n.
Proof.
  induction n as [|n IH]; [reflexivity|]. cbn [repeat rev]. rewrite IH. clear IH. induction n as [|n IH]; [reflexivity|]. cbn [repeat app]. rewrite IH. reflexivity.
Qed.

(** ** One turn *)

Lemma seq_step t2e f fs edx left bs consumed acc :
  seq_loop t2e (f :: fs) edx None left bs consumed acc =
  let at_end := (d_optional f =? length (f :: fs))%nat in
  let rest := repeat None (length (f :: fs)) in
  if (left =? 0) && at_end then Done consumed (VSeq (rev acc ++ rest))
  else
    let win := LEFT left bs in
    match ber_fetch_tag win (length win) with
    | Ok (Got _ tag) =>
        match win with
        | [] => Fault
        | b0 :: win' =>
            if (left <? 0) && (b0 =? 0) && match win' with [] => true | _ => false end then Failed
            else if (left <? 0) && zeros win && at_end then seq_end left bs consumed (rest ++ acc)
            else match find_member t2e tag edx (map d_key (f :: fs)) (d_optional f) with
                 | None => Failed
                 | Some n => seq_loop t2e (f :: fs) edx (Some n) left bs consumed acc
                 end
        end
    | Ok _ => Failed
    | _ => Fault
    end.
Proof.
  cbn [seq_loop]. cbn zeta. destruct ((left =? 0) && _); [reflexivity|].
  destruct (ber_fetch_tag (LEFT left bs) (length (LEFT left bs))) as [[| |k tag]| |]; try reflexivity.
  destruct (LEFT left bs) as [|b0 win']; [reflexivity|].
  destruct (left <? 0); cbn [andb].
  - destruct (b0 =? 0) eqn:Eb; cbn [andb].
    + destruct win' as [|b1 win']; [reflexivity|]. cbn [zeros]. rewrite Eb. cbn [andb].
      destruct (b1 =? 0); cbn [andb].
      * destruct (d_optional f =? length (f :: fs))%nat; [reflexivity|].
        destruct (find_member t2e tag edx (map d_key (f :: fs)) (d_optional f)) as [[|n]|]; reflexivity.
      * destruct (find_member t2e tag edx (map d_key (f :: fs)) (d_optional f)) as [[|n]|]; reflexivity.
    + replace (zeros (b0 :: win')) with false by (destruct win'; cbn [zeros]; [reflexivity|rewrite Eb; reflexivity]). cbn [andb].
      destruct (find_member t2e tag edx (map d_key (f :: fs)) (d_optional f)) as [[|n]|]; reflexivity.
  - destruct (find_member t2e tag edx (map d_key (f :: fs)) (d_optional f)) as [[|n]|]; reflexivity.
Qed.

Lemma keys_same fs ms (R : field -> member -> Prop) : Forall2 (fun f m => for_member f m /\ R f m) fs ms -> map d_key fs = map key ms.
Proof. induction 1 as [|f m fs ms ((H & _) & _) _ IH]; [reflexivity|]. cbn [map]. rewrite H, IH. reflexivity. Qed.

Definition member_fits (m : member) : Prop :=
  match m with Member mtag md _ any t => member_mode_ok md any mtag t = true end.

Lemma fits_any m : member_fits m -> m_any m = true -> m_tag m = None.
Proof.
  destruct m as [mtag md opt any t]. cbn. unfold member_mode_ok. intros H ->.
  destruct mtag as [x|]; [|reflexivity]. exfalso. rewrite andb_true_iff in H. destruct H as (_ & H).
  destruct t as [| | |[| |] tags all| | |tags t2e ms]; cbn in H; rewrite ?andb_false_r in H; try discriminate.
Qed.

(** ** Soundness *)

Lemma advance_sign left n : (0 <= left -> Z.of_nat n <= left) -> (advance left n <? 0) = (left <? 0) /\ tail_of (advance left n) = tail_of left
  /\ (0 <= left -> advance left n = left - Z.of_nat n).
Proof.
  intros H. unfold advance, tail_of. destruct (Z.leb_spec 0 left) as [Hl|Hl].
  - specialize (H Hl). destruct (Z.ltb_spec (left - Z.of_nat n) 0); [lia|]. destruct (Z.ltb_spec left 0); [lia|]. repeat split.
  - repeat split. lia.
Qed.

Lemma seq_sound t2e : forall N fs ms edx left bs consumed acc n v, (length ms <= N)%nat ->
  Forall2 (fun f m => for_member f m /\ Sound (d_decode f) (m_type m) (m_mode m)) fs ms -> Forall member_fits ms ->
  members_ok t2e edx ms = true -> bytes bs ->
  seq_loop t2e fs edx None left bs consumed acc = Done n v ->
  exists body vs rest, v = VSeq (rev acc ++ vs) /\ bs = body ++ tail_of left ++ rest
    /\ n = (consumed + length (body ++ tail_of left))%nat /\ (0 <= left -> left = Z.of_nat (length body))
    /\ enc_members (left <? 0) ms body vs.
Proof.
  induction N as [|N IH]; intros fs ms edx left bs consumed acc n v HN HF Hfit Hok Hb E.
  - destruct HF; [|cbn [length] in HN; lia]. cbn [seq_loop] in E. apply seq_end_sound in E. destruct E as (rest & Hl & -> & Ebs & ->).
    exists [], [], rest. rewrite app_nil_r. repeat split; [assumption|cbn [length]; lia|constructor].
  - destruct HF as [|f m fs ms Hfm HF].
    { cbn [seq_loop] in E. apply seq_end_sound in E. destruct E as (rest & Hl & -> & Ebs & ->).
      exists [], [], rest. rewrite app_nil_r. repeat split; [assumption|cbn [length]; lia|constructor]. }
    assert (HF' : Forall2 (fun f m => for_member f m /\ Sound (d_decode f) (m_type m) (m_mode m)) (f :: fs) (m :: ms)) by (constructor; assumption).
    pose proof (Forall2_len _ _ _ HF') as Hlen. pose proof (keys_same _ _ _ HF') as Hkeys.
    destruct Hfm as ((_ & Hopt) & _).
    assert (Hpos : position_ok t2e edx (m :: ms) = true)
      by (pose proof Hok as Q; cbn [members_ok] in Q; apply andb_true_iff in Q; destruct Q as (Q & _); apply andb_true_iff in Q; apply Q).
    rewrite seq_step in E. cbn zeta in E. rewrite Hkeys, Hopt, Hlen in E.
    destruct ((left =? 0) && (optional_of m =? length (m :: ms))%nat) eqn:Hend.
    { apply andb_true_iff in Hend. destruct Hend as (H0 & He). apply Z.eqb_eq in H0. apply Nat.eqb_eq in He. subst left.
      injection E as <- <-. exists [], (repeat None (length (m :: ms))), bs.
      split; [reflexivity|]. split; [reflexivity|]. split; [cbn; lia|]. split; [reflexivity|].
      eapply all_absent; [exact Hok|]. intros m0 Em. injection Em as <-. assumption. }
    pose proof (LEFT_bytes left bs Hb) as Hbw.
    destruct (ber_fetch_tag (LEFT left bs) (length (LEFT left bs))) as [[| |k0 tag]| |] eqn:Et; try discriminate.
    destruct (LEFT left bs) as [|b0 win'] eqn:Ewin; [discriminate|]. rewrite <- Ewin in *.
    match type of E with (if ?x then _ else _) = _ => destruct x; [discriminate|] end. clear b0 win' Ewin.
    destruct ((left <? 0) && zeros (LEFT left bs) && (optional_of m =? length (m :: ms))%nat) eqn:Heoc.
    { apply andb_true_iff in Heoc. destruct Heoc as (_ & He). apply Nat.eqb_eq in He.
      apply seq_end_sound in E. destruct E as (rest & Hl & -> & Ebs & ->).
      exists [], (repeat None (length (m :: ms))), rest. rewrite rev_app_distr, rev_repeat_None.
      split; [reflexivity|]. split; [assumption|]. split; [reflexivity|]. split; [cbn [length]; lia|].
      eapply all_absent; [exact Hok|]. intros m0 Em. injection Em as <-. assumption. }
    destruct (find_member t2e tag edx (map key (m :: ms)) (optional_of m)) as [j|] eqn:Ef; [|discriminate].
    apply find_sound in Ef; [|assumption|intros mj Hin; rewrite Forall_forall in Hfit; apply fits_any, Hfit, Hin].
    destruct Ef as (Hj & mj & Emj & Htag).
    destruct (Forall2_nth _ _ _ _ _ HF' Emj) as (g & Eg & Hg & Hsound).
    rewrite (seq_skip t2e g) in E by assumption.
    destruct (d_decode g (LEFT left bs)) as [k x| | |] eqn:Ed; try discriminate.
    apply Hsound in Ed; [|assumption]. destruct Ed as (Hk & Henc).
    destruct (LEFT_firstn left bs k Hk) as (Efk & Hk' & Hkl).
    destruct (enc_leading _ _ _ _ Henc) as ((tag' & Hlead) & Hlen2).
    pose proof (leading_unique _ _ _ _ _ _ Hlead eq_refl Et) as ->.
    destruct (advance_sign left k Hkl) as (Hs1 & Hs2 & Hs3).
    apply (IH _ (skipn (S j) (m :: ms))) in E.
    + destruct E as (body & vs & rest & -> & Ebs & -> & Hl & Hmem). rewrite Hs1, Hs2 in *.
      set (b := firstn k (LEFT left bs)) in *.
      exists (b ++ body), (repeat None j ++ Some x :: vs), rest.
      assert (Lb : length b = k) by (apply firstn_length_le; assumption).
      split; [|split; [|split; [|split]]].
      * cbn [rev]. rewrite rev_app_distr, rev_repeat_None, <- !app_assoc. reflexivity.
      * rewrite <- app_assoc, <- Ebs, Efk. symmetry. apply firstn_skipn.
      * rewrite <- app_assoc, (app_length b). lia.
      * intros H0. specialize (Hs3 H0). rewrite app_length. destruct (Z.ltb_spec left 0); [lia|]. specialize (Hkl H0). rewrite Hs3 in Hl. lia.
      * apply skip_absent with (mn := mj); [assumption| |].
        { intros i mi Hi Hlt. rewrite (optional_run _ _ _ Hok i mi m eq_refl Hi) by lia. lia. }
        rewrite (skipn_nth _ _ _ Emj). destruct mj as [mtag md opt any t] eqn:Dmj. cbn [m_tag m_type m_mode] in *.
        constructor; [|assumption| |assumption].
        { intros t0 Et0. rewrite (Htag _ Et0). assumption. }
        intros Hneg Hoptend Hz.
        assert (Hz' : zeros (LEFT left bs) = true).
        { apply zeros_spec. unfold b in Hz. rewrite firstn_firstn in Hz. replace (Nat.min 2 k) with 2%nat in Hz by lia. assumption. }
        rewrite Hz', Hneg in Heoc. cbn [andb] in Heoc. apply Nat.eqb_neq in Heoc. apply Heoc.
        pose proof (optional_run _ _ _ Hok j _ m eq_refl Emj Hj) as Hr. cbn [optional_of] in Hr. rewrite skipn_length in Hoptend.
        assert (j < length (m :: ms))%nat by (apply nth_error_Some; congruence). lia.
    + rewrite skipn_length. cbn [length] in *. lia.
    + apply Forall2_skipn. assumption.
    + apply Forall_forall. intros y Hy. rewrite Forall_forall in Hfit. apply Hfit.
      rewrite <- (firstn_skipn (S j) (m :: ms)). apply in_or_app. right. assumption.
    + apply members_ok_skip. assumption.
    + apply bytes_skipn. assumption.
Qed.

(** ** Completeness *)

Lemma members_split indef : forall ms body vs, enc_members indef ms body vs ->
  (body = [] /\ vs = repeat None (length ms) /\ Forall (fun m => (0 < optional_of m)%nat) ms)
  \/ exists n mn b body' v vs', nth_error ms n = Some mn /\ (forall j mj, nth_error ms j = Some mj -> (j < n)%nat -> (0 < optional_of mj)%nat)
     /\ starts (m_tag mn) b /\ enc (m_type mn) (m_mode mn) b v
     /\ (indef = true -> optional_of mn = S (length (skipn (S n) ms)) -> firstn 2 b <> [0; 0])
     /\ enc_members indef (skipn (S n) ms) body' vs' /\ body = b ++ body' /\ vs = repeat None n ++ Some v :: vs'.
Proof.
  induction ms as [|m ms IH]; intros body vs H;
    inversion H as [|i1 mtag1 md1 opt1 any1 t1 ms1 bs1 vs1 Hopt Habs|i1 mtag1 md1 opt1 any1 t1 ms1 b bs v vs0 Hst Henc Hnz Hrest]; subst.
  - left. repeat split. constructor.
  - match type of Habs with _ => destruct (IH _ _ Habs) as [(-> & -> & Ha)|(n & mn & b & body' & v & vs' & Hn & Ho & H1 & H2 & H3 & H4 & -> & ->)] end.
    + left. repeat split. constructor; assumption.
    + right. exists (S n), mn, b, body', v, vs'. repeat split; try assumption.
      intros [|j] mj Hj Hlt; [injection Hj as <-; assumption|]. apply (Ho j); [assumption|lia].
  - right. exists O. eexists _, b, bs, v, vs0. split; [reflexivity|]. cbn [m_tag m_type m_mode optional_of skipn].
    repeat split; try assumption. intros j mj _ Hlt. lia.
Qed.

Lemma absent_counts t2e : forall ms edx m0, members_ok t2e edx ms = true -> Forall (fun m => (0 < optional_of m)%nat) ms -> nth_error ms 0 = Some m0 ->
  optional_of m0 = length ms.
Proof.
  induction ms as [|m ms IH]; intros edx m0 Hok H E; [discriminate|]. injection E as <-.
  cbn [members_ok] in Hok. apply andb_true_iff in Hok. destruct Hok as (Hok & Hrest). apply andb_true_iff in Hok. destruct Hok as (_ & Hd).
  inversion H as [|x l Hx Hl]; subst. destruct (optional_of m) as [|o]; [lia|]. destruct ms as [|m' ms]; apply Nat.eqb_eq in Hd; [subst; reflexivity|].
  rewrite (IH _ m' Hrest Hl eq_refl) in Hd. cbn [length] in *. lia.
Qed.

Lemma absent_prefix t2e : forall n ms edx m0 mn, members_ok t2e edx ms = true -> nth_error ms 0 = Some m0 -> nth_error ms n = Some mn ->
  (forall j mj, nth_error ms j = Some mj -> (j < n)%nat -> (0 < optional_of mj)%nat) -> (n <= optional_of m0)%nat.
Proof.
  induction n as [|n IH]; intros ms edx m0 mn Hok E0 En Ho; [lia|].
  destruct ms as [|m ms]; [discriminate|]. injection E0 as <-. cbn [nth_error] in En.
  cbn [members_ok] in Hok. apply andb_true_iff in Hok. destruct Hok as (Hok & Hrest). apply andb_true_iff in Hok. destruct Hok as (_ & Hd).
  assert (Hm : (0 < optional_of m)%nat) by (apply (Ho O m eq_refl); lia).
  destruct (optional_of m) as [|o]; [lia|]. destruct ms as [|m' ms]; [destruct n; discriminate|]. apply Nat.eqb_eq in Hd.
  assert (n <= optional_of m')%nat; [|lia]. eapply IH; [exact Hrest|reflexivity|exact En|].
  intros j mj Hj Hlt. apply (Ho (S j) mj Hj). lia.
Qed.

(** The tag an encoding of a member starts with leads to the member. *)
Lemma find_complete t2e edx m ms n mn b v : position_ok t2e edx (m :: ms) = true -> nth_error (m :: ms) n = Some mn ->
  (n <= optional_of m)%nat -> member_fits mn -> starts (m_tag mn) b -> enc (m_type mn) (m_mode mn) b v ->
  exists tag, leading tag b /\ find_member t2e tag edx (map key (m :: ms)) (optional_of m) = Some n.
Proof.
  intros Hpos En Hle Hfit Hst Henc. destruct (position_spec _ _ _ _ Hpos) as (_ & Hfind & _). specialize (Hfind n mn En Hle).
  destruct mn as [mtag md opt any t]. cbn [m_tag m_type m_mode m_any] in *. destruct mtag as [x|].
  - cbn [first_tags] in Hfind. exists x. split; [apply Hst; reflexivity|]. apply Hfind. left. reflexivity.
  - cbn in Hfit. unfold member_mode_ok in Hfit. rewrite andb_true_iff in Hfit. destruct Hfit as (_ & Hfit).
    destruct t as [| | |[| |] tags all| | |tags t2e' ms']; try (rewrite andb_false_r in Hfit; discriminate).
    + (* ANY *)
      cbn [first_tags] in Hfind. destruct Hfind as (-> & ->). cbn [nth_error] in En. injection En as ->.
      destruct (enc_leading _ _ _ _ Henc) as ((tag & Hl) & _). exists tag. split; [assumption|].
      unfold find_member. cbn [map key length]. set (o := optional_of (Member None md opt true (TString ANY tags all))).
      assert (exists w u, (if (S (length (map key ms)) <? o + 1)%nat then (S (length (map key ms)), false)
        else if (8 <? o + 1)%nat then (8%nat, true) else ((o + 1)%nat, false)) = (S w, u)) as (w & u & ->).
      { destruct (_ <? _)%nat; [eexists _, _; reflexivity|]. destruct (8 <? o + 1)%nat; [eexists _, _; reflexivity|]. exists o, false. f_equal. lia. }
      reflexivity.
    + (* CHOICE without tags *)
      rewrite !andb_true_iff in Hfit. destruct Hfit as (((H1 & _) & _) & H2). apply Nat.eqb_eq in H1. destruct tags; [|discriminate].
      apply Z.eqb_eq in H2. subst md. inversion Henc; subst.
      * exists mtag. split; [assumption|]. apply Hfind. apply in_concat. exists [mtag]. split; [|left; reflexivity].
        apply in_map_iff. eexists. split; [|eapply nth_error_In; eassumption]. reflexivity.
      * match goal with H : _ \/ _ |- _ => destruct H; congruence end.
Qed.

Lemma zeros_app b x : (2 <= length b)%nat -> zeros (b ++ x) = zeros b.
Proof. intros H. destruct b as [|b0 [|b1 b]]; cbn [length] in H; try lia. reflexivity. Qed.

Lemma zeros_not b : firstn 2 b <> [0; 0] -> zeros b = false.
Proof. intros H. destruct (zeros b) eqn:E; [|reflexivity]. apply zeros_spec in E. contradiction. Qed.

Lemma eocs_bytes n : bytes (eocs n).
Proof. induction n as [|n IH]; [constructor|]. cbn [eocs]. constructor; [unfold is_byte; lia|]. constructor; [unfold is_byte; lia|assumption]. Qed.

Lemma seq_complete t2e : forall N fs ms edx left body vs rest consumed acc, (length ms <= N)%nat ->
  Forall2 (fun f m => for_member f m /\ Complete (d_decode f) (m_type m) (m_mode m)) fs ms -> Forall member_fits ms ->
  members_ok t2e edx ms = true -> bytes (body ++ tail_of left ++ rest) -> (0 <= left -> left = Z.of_nat (length body)) ->
  enc_members (left <? 0) ms body vs ->
  seq_loop t2e fs edx None left (body ++ tail_of left ++ rest) consumed acc
  = Done (consumed + length (body ++ tail_of left))%nat (VSeq (rev acc ++ vs)).
Proof.
  induction N as [|N IH]; intros fs ms edx left body vs rest consumed acc HN HF Hfit Hok Hb Hl Henc.
  - destruct HF; [|cbn [length] in HN; lia]. inversion Henc; subst. cbn [seq_loop app length]. rewrite app_nil_r.
    apply seq_end_complete. cbn [length] in Hl. lia.
  - destruct HF as [|f m fs ms Hfm HF].
    { inversion Henc; subst. cbn [seq_loop app length]. rewrite app_nil_r. apply seq_end_complete. cbn [length] in Hl. lia. }
    assert (HF' : Forall2 (fun f m => for_member f m /\ Complete (d_decode f) (m_type m) (m_mode m)) (f :: fs) (m :: ms)) by (constructor; assumption).
    pose proof (Forall2_len _ _ _ HF') as Hlen. pose proof (keys_same _ _ _ HF') as Hkeys.
    destruct Hfm as ((_ & Hopt) & _).
    assert (Hpos : position_ok t2e edx (m :: ms) = true)
      by (pose proof Hok as Q; cbn [members_ok] in Q; apply andb_true_iff in Q; destruct Q as (Q & _); apply andb_true_iff in Q; apply Q).
    rewrite seq_step. cbn zeta. rewrite Hkeys, Hopt, Hlen.
    destruct (members_split _ _ _ _ Henc) as [(-> & -> & Habs)|(n & mn & b & body' & v & vs' & En & Ho & Hst & Hbe & Hnz & Hrest & -> & ->)].
    + (* nothing left *)
      rewrite (absent_counts _ _ _ m Hok Habs eq_refl). rewrite Nat.eqb_refl, !andb_true_r. cbn [app length] in *.
      destruct (Z.eqb_spec left 0) as [->|Hne].
      { cbn [tail_of length]. rewrite Nat.add_0_r. reflexivity. }
      assert (Hneg : left < 0) by lia.
      assert (Ew : LEFT left (tail_of left ++ rest) = tail_of left ++ rest).
      { unfold LEFT. destruct (Z.ltb_spec left 0); [reflexivity|lia]. }
      destruct (Z.to_nat (- left)) as [|k] eqn:Ek; [lia|].
      assert (Etail : tail_of left ++ rest = 0 :: 0 :: eocs k ++ rest).
      { unfold tail_of. destruct (Z.ltb_spec left 0); [|lia]. rewrite Ek. reflexivity. }
      pose proof (fetch_tag_complete [0] 0 false 0 (0 :: eocs k ++ rest)) as F. cbn [app] in F.
      rewrite Ew, Etail, F; [|apply (low_tag 0 false 0); lia|reflexivity|cbn [length]; lia].
      cbn iota. rewrite andb_false_r. cbn [zeros]. change ((0 =? 0) && (0 =? 0)) with true.
      destruct (Z.ltb_spec left 0); [|lia]. cbn [andb]. rewrite <- Etail.
      rewrite seq_end_complete by lia. rewrite rev_app_distr, rev_repeat_None. reflexivity.
    + (* the member [n] comes next *)
      pose proof (absent_prefix _ _ _ _ _ _ Hok eq_refl En Ho) as Hle.
      destruct (enc_leading _ _ _ _ Hbe) as (_ & Hb2).
      assert (Hne : left <> 0) by (intros ->; specialize (Hl ltac:(lia)); rewrite app_length in Hl; lia).
      destruct (Z.eqb_spec left 0) as [|_]; [contradiction|]. cbn [andb].
      rewrite <- !app_assoc in *. set (bs := b ++ body' ++ tail_of left ++ rest) in *.
      destruct (LEFT_app left b (body' ++ tail_of left ++ rest)) as (rest' & Ew & Hbr').
      { destruct (Z.ltb_spec left 0); [left; assumption|right]. rewrite app_length in Hl. lia. }
      fold bs in Ew.
      assert (Fmn : member_fits mn) by (rewrite Forall_forall in Hfit; apply Hfit; eapply nth_error_In; exact En).
      destruct (find_complete _ _ _ _ _ _ _ _ Hpos En Hle Fmn Hst Hbe) as (tag & Hlead & Hfind).
      destruct (leading_fetch tag b rest' Hlead) as (k0 & Et). rewrite <- Ew in Et. rewrite Et.
      assert (Hz : (left <? 0) && zeros (LEFT left bs) && (optional_of m =? length (m :: ms))%nat = false).
      { rewrite Ew, zeros_app by assumption. destruct (left <? 0); [|reflexivity]. cbn [andb].
        destruct (Nat.eqb_spec (optional_of m) (length (m :: ms))) as [He|]; [|apply andb_false_r]. rewrite andb_true_r. apply zeros_not. apply Hnz; [reflexivity|].
        rewrite (optional_run _ _ _ Hok n mn m eq_refl En Hle), He, skipn_length.
        assert (n < length (m :: ms))%nat by (apply nth_error_Some; congruence). lia. }
      destruct (LEFT left bs) as [|b0 [|b1 win']] eqn:Ewin.
      { apply (f_equal (@length Z)) in Ew. rewrite app_length in Ew. cbn [length] in Ew. lia. }
      { apply (f_equal (@length Z)) in Ew. rewrite app_length in Ew. cbn [length] in Ew. lia. }
      rewrite <- Ewin in *. rewrite andb_false_r, Hz, Hfind.
      destruct (Forall2_nth _ _ _ _ _ HF' En) as (g & Eg & _ & Hcomp).
      rewrite (seq_skip t2e g) by assumption.
      assert (Bb : bytes b) by (apply Forall_app in Hb; apply Hb).
      assert (Br : bytes (body' ++ tail_of left ++ rest)) by (apply Forall_app in Hb; apply Hb).
      rewrite Ew, (Hcomp b v rest' Hbe) by (apply Forall_app; split; [assumption|apply Hbr'; assumption]).
      assert (Hsk : skipn (length b) bs = body' ++ tail_of left ++ rest) by (unfold bs; apply skipn_app_exact).
      rewrite Hsk.
      assert (Hkl : 0 <= left -> Z.of_nat (length b) <= left) by (intros H0; specialize (Hl H0); rewrite app_length in Hl; lia).
      destruct (advance_sign left (length b) Hkl) as (Hs1 & Hs2 & Hs3). rewrite <- Hs2.
      rewrite (IH _ (skipn (S n) (m :: ms)) _ _ _ vs').
      * rewrite Hs2. f_equal; [rewrite (app_length b); lia|]. cbn [rev]. rewrite rev_app_distr, rev_repeat_None, <- !app_assoc. reflexivity.
      * rewrite skipn_length. cbn [length] in *. lia.
      * apply Forall2_skipn. assumption.
      * apply Forall_forall. intros y Hy. rewrite Forall_forall in Hfit. apply Hfit.
        rewrite <- (firstn_skipn (S n) (m :: ms)). apply in_or_app. right. assumption.
      * apply members_ok_skip. assumption.
      * rewrite Hs2. assumption.
      * intros H0. assert (0 <= left) by (destruct (Z.ltb_spec left 0), (Z.ltb_spec (advance left (length b)) 0); congruence || lia).
        rewrite Hs3 by assumption. rewrite app_length in Hl. lia.
      * rewrite Hs1. assumption.
Qed.

(** ** It never faults, and ends when the members do *)

(** Inputs a decoder may be restricted to. *)
Definition closed (OK : list Z -> Prop) : Prop :=
  (forall bs, OK bs -> bytes bs) /\ (forall n bs, OK bs -> OK (firstn n bs)) /\ (forall n bs, OK bs -> OK (skipn n bs)).

Lemma LEFT_closed OK left bs : closed OK -> OK bs -> OK (LEFT left bs).
Proof. intros (_ & H & _) Hb. destruct (LEFT_prefix left bs) as (m & ->). apply H. assumption. Qed.

Lemma bytes_closed : closed bytes.
Proof. split; [auto|]. split; intros n bs H; [apply bytes_firstn|apply bytes_skipn]; assumption. Qed.

Lemma seq_not OK t2e (bad : outcome value) : closed OK -> bad = Fault \/ bad = Spin -> forall N fs ms edx left bs consumed acc, (length ms <= N)%nat ->
  Forall2 (fun f m => for_member f m /\ forall bs, OK bs -> d_decode f bs <> bad) fs ms -> Forall member_fits ms ->
  members_ok t2e edx ms = true -> OK bs ->
  seq_loop t2e fs edx None left bs consumed acc <> bad.
Proof.
  intros Hclosed Hbad.
  assert (Hend : forall left bs consumed acc, seq_end left bs consumed acc <> bad).
  { intros. unfold seq_end. destruct (left =? 0); [destruct Hbad; subst; discriminate|]. destruct (0 <? left); [destruct Hbad; subst; discriminate|].
    destruct (seq_eocs _ _ _); destruct Hbad; subst; discriminate. }
  induction N as [|N IH]; intros fs ms edx left bs consumed acc HN HF Hfit Hok Hb.
  - destruct HF; [|cbn [length] in HN; lia]. apply Hend.
  - destruct HF as [|f m fs ms Hfm HF]; [apply Hend|].
    assert (HF' : Forall2 (fun f m => for_member f m /\ forall bs, OK bs -> d_decode f bs <> bad) (f :: fs) (m :: ms)) by (constructor; assumption).
    pose proof (Forall2_len _ _ _ HF') as Hlen. pose proof (keys_same _ _ _ HF') as Hkeys.
    destruct Hfm as ((_ & Hopt) & _).
    assert (Hpos : position_ok t2e edx (m :: ms) = true)
      by (pose proof Hok as Q; cbn [members_ok] in Q; apply andb_true_iff in Q; destruct Q as (Q & _); apply andb_true_iff in Q; apply Q).
    rewrite seq_step. cbn zeta. rewrite Hkeys, Hopt, Hlen.
    match goal with |- (if ?x then _ else _) <> _ => destruct x end; [destruct Hbad; subst; discriminate|].
    pose proof (LEFT_closed OK left bs Hclosed Hb) as Hbw.
    destruct (fetch_tag_total (LEFT left bs) (length (LEFT left bs))) as (r & Et); [lia|]. rewrite Et.
    destruct r as [| |k0 tag]; [destruct Hbad; subst; discriminate|destruct Hbad; subst; discriminate|].
    destruct (LEFT left bs) as [|b0 win'] eqn:Ewin; [cbn in Et; discriminate|]. rewrite <- Ewin in *.
    match goal with |- (if ?x then _ else _) <> _ => destruct x end; [destruct Hbad; subst; discriminate|].
    match goal with |- (if ?x then _ else _) <> _ => destruct x end; [apply Hend|].
    destruct (find_member t2e tag edx (map key (m :: ms)) (optional_of m)) as [j|] eqn:Ef; [|destruct Hbad; subst; discriminate].
    apply find_sound in Ef; [|assumption|intros mj Hin; rewrite Forall_forall in Hfit; apply fits_any, Hfit, Hin].
    destruct Ef as (Hj & mj & Emj & Htag).
    destruct (Forall2_nth _ _ _ _ _ HF' Emj) as (g & Eg & Hg & Hdec).
    rewrite (seq_skip t2e g) by assumption.
    destruct (d_decode g (LEFT left bs)) as [k x| | |] eqn:Ed; try (rewrite <- Ed; apply Hdec; assumption).
    apply (IH _ (skipn (S j) (m :: ms))).
    + rewrite skipn_length. cbn [length] in *. lia.
    + apply Forall2_skipn. assumption.
    + apply Forall_forall. intros y Hy. rewrite Forall_forall in Hfit. apply Hfit.
      rewrite <- (firstn_skipn (S j) (m :: ms)). apply in_or_app. right. assumption.
    + apply members_ok_skip. assumption.
    + apply Hclosed. assumption.
Qed.
