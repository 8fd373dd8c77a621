(** Proofs about Trust Anchor Locators (C43, C44, C58). *)
From Coq Require Import String.
From Verif Require Import Base BaseLemmas CString CLib PathBuilder PathProofs Types HashSet DbTable VrpsProofs Tal TalSpec.
Notation length := List.length.

(** ** Lines *)
Lemma getline_lf t f : ~ In 10 t -> getline (t ++ 10 :: f) = (t ++ [10], f).
Proof.
  induction t as [|c t IH]; intros H; cbn [getline app]; [reflexivity|].
  destruct (Z.eqb_spec c 10); [subst; exfalso; apply H; left; auto|]. rewrite IH; auto. intros K; apply H; right; auto.
Qed.
Lemma getline_end t : ~ In 10 t -> getline t = (t, []).
Proof.
  induction t as [|c t IH]; intros H; cbn [getline]; [reflexivity|].
  destruct (Z.eqb_spec c 10); [subst; exfalso; apply H; left; auto|]. rewrite IH; auto. intros K; apply H; right; auto.
Qed.
Lemma split_lf (f : list Z) : (exists t r, f = t ++ 10 :: r /\ ~ In 10 t) \/ ~ In 10 f.
Proof.
  induction f as [|c f IH]; [right; auto|]. destruct (Z.eqb_spec c 10) as [->|N].
  - left. exists [], f. auto.
  - destruct IH as [(t&r&->&H)|H].
    + left. exists (c :: t), r. split; auto. intros [K|K]; auto.
    + right. intros [K|K]; auto.
Qed.
Lemma snoc_cases {A} (l : list A) : l = [] \/ exists a x, l = a ++ [x].
Proof. destruct l using rev_ind; eauto. Qed.
Lemma chomp_cr t : chomp (t ++ [13; 10]) = t.
Proof.
  unfold chomp. rewrite app_length. cbn [length].
  destruct (Nat.leb_spec 2 (length t + 2)); [|lia].
  replace (length t + 2 - 2)%nat with (length t) by lia. replace (length t + 2 - 1)%nat with (S (length t)) by lia.
  rewrite app_nth2, Nat.sub_diag by lia. rewrite app_nth2 by lia. replace (S (length t) - length t)%nat with 1%nat by lia. cbn [nth Z.eqb andb Pos.eqb].
  rewrite firstn_app, Nat.sub_diag, firstn_all. cbn. apply app_nil_r.
Qed.
Lemma chomp_lf t : (forall u, t <> u ++ [13]) -> chomp (t ++ [10]) = t.
Proof.
  intros H. unfold chomp. rewrite app_length. cbn [length].
  assert (E : (if (2 <=? length t + 1)%nat then (nth (length t + 1 - 2) (t ++ [10]) 0 =? 13) && (nth (length t + 1 - 1) (t ++ [10]) 0 =? 10) else false) = false).
  { destruct (Nat.leb_spec 2 (length t + 1)); auto. destruct (snoc_cases t) as [->|(u&x&->)]; [cbn in *; lia|].
    rewrite app_length in *. cbn [length] in *. rewrite <- app_assoc. cbn [app].
    replace (length u + 1 + 1 - 2)%nat with (length u) by lia. rewrite app_nth2, Nat.sub_diag by lia. cbn [nth].
    destruct (Z.eqb_spec x 13); auto. subst. exfalso. apply (H u); auto. }
  rewrite E. destruct (Nat.leb_spec 1 (length t + 1)); [|lia]. replace (length t + 1 - 1)%nat with (length t) by lia.
  rewrite app_nth2, Nat.sub_diag by lia. cbn [nth Z.eqb Pos.eqb]. rewrite firstn_app, Nat.sub_diag, firstn_all. cbn. apply app_nil_r.
Qed.
Lemma chomp_none t : ~ In 10 t -> chomp t = t.
Proof.
  intros H. unfold chomp.
  assert (E : (1 <= length t)%nat -> nth (length t - 1) t 0 =? 10 = false).
  { intros L. apply Z.eqb_neq. intros K. apply H. rewrite <- K. apply nth_In. lia. }
  destruct (Nat.leb_spec 2 (length t)).
  - rewrite E by lia. rewrite andb_false_r. destruct (1 <=? length t)%nat; auto.
  - destruct (Nat.leb_spec 1 (length t)); auto. rewrite E by lia. auto.
Qed.
Lemma has_char_iff c s : has_char c s = true <-> In c s.
Proof.
  unfold has_char. rewrite existsb_exists. split.
  - intros (x&H&E). apply Z.eqb_eq in E. congruence.
  - intros H. exists c. split; auto. apply Z.eqb_refl.
Qed.

Lemma lfile_read_line raw t f : line_of raw t -> lfile_read (raw ++ f) = Ok (Some t, f).
Proof.
  intros (N10&N0&[->|[-> NC]]); unfold lfile_read.
  - rewrite <- app_assoc. cbn [app]. destruct (t ++ 13 :: 10 :: f) eqn:E; [destruct t; discriminate|]. rewrite <- E. clear E.
    change (13 :: 10 :: f) with ([13] ++ 10 :: f). rewrite app_assoc, getline_lf.
    2:{ rewrite in_app_iff. cbn. intros [K|[K|[]]]; auto. discriminate. }
    destruct (has_char 0 ((t ++ [13]) ++ [10])) eqn:HC.
    { apply has_char_iff in HC. rewrite !in_app_iff in HC. cbn in HC. exfalso. destruct HC as [[K|[K|[]]]|[K|[]]]; auto; discriminate. }
    rewrite <- app_assoc. cbn [app]. rewrite chomp_cr. reflexivity.
  - rewrite <- app_assoc. cbn [app]. destruct (t ++ 10 :: f) eqn:E; [destruct t; discriminate|]. rewrite <- E. clear E.
    rewrite getline_lf by auto. destruct (has_char 0 (t ++ [10])) eqn:HC.
    { apply has_char_iff in HC. rewrite !in_app_iff in HC. cbn in HC. exfalso. destruct HC as [K|[K|[]]]; auto; discriminate. }
    rewrite chomp_lf; auto.
Qed.
(** What a successful read has read. *)
Definition reads (f t f' : list Z) : Prop := (exists raw, f = raw ++ f' /\ line_of raw t) \/ (f' = [] /\ f = t /\ t <> [] /\ ~ In 10 t).
Lemma lfile_read_inv f t f' : lfile_read f = Ok (Some t, f') -> reads f t f'.
Proof.
  unfold lfile_read. destruct f as [|c f0] eqn:EF; [discriminate|]. rewrite <- EF. assert (NE : f <> []) by congruence. clear EF c f0.
  destruct (split_lf f) as [(s&r&->&H)|H].
  - rewrite getline_lf by auto. destruct (has_char 0 (s ++ [10])) eqn:HC; [discriminate|]. intros E. injection E as <- <-.
    assert (N0 : ~ In 0 s). { intros K. assert (has_char 0 (s ++ [10]) = true) by (apply has_char_iff, in_or_app; auto). congruence. }
    left. exists (s ++ [10]). rewrite <- app_assoc. split; auto.
    destruct (snoc_cases s) as [->|(u&x&->)].
    + rewrite chomp_lf by (intros [|] K; discriminate). split; auto. split; auto. right. split; auto. intros [|] K; discriminate.
    + rewrite in_app_iff in H, N0. destruct (Z.eqb_spec x 13) as [->|NX].
      * rewrite <- app_assoc. cbn [app]. rewrite chomp_cr. split; [tauto|split; [tauto|left; auto]].
      * assert (NC : forall v, u ++ [x] <> v ++ [13]) by (intros v K; apply app_inj_tail in K; destruct K; congruence).
        rewrite chomp_lf; auto. split; [rewrite in_app_iff; auto|split; [rewrite in_app_iff; auto|right; auto]].
  - rewrite getline_end by auto. destruct (has_char 0 f); [discriminate|]. intros E. injection E as <- <-. right. rewrite chomp_none; auto.
Qed.
Lemma line_nonempty raw t : line_of raw t -> raw <> [].
Proof. intros (_&_&[->|[-> _]]); destruct t; discriminate. Qed.
Lemma reads_short f t f' : lfile_read f = Ok (Some t, f') -> (length f' < length f)%nat.
Proof.
  intros H. apply lfile_read_inv in H. destruct H as [(raw&->&HL)|(->&->&N&_)].
  - rewrite app_length. pose proof (line_nonempty _ _ HL). destruct raw; [congruence|cbn; lia].
  - destruct t; [congruence|cbn; lia].
Qed.

Section Uris.
  Variable J : Z. Variable repository tal : list Z.
  Notation add := (add_uri J repository tal).

  Lemma uri_loop_iff : forall fuel uri f us body, (length f < fuel)%nat ->
    (uri_loop J repository tal fuel uri f = Ok (us, body) <->
     exists ru texts blank, f = concat ru ++ blank ++ body /\ Forall2 line_of ru texts /\ line_of blank [] /\ Forall (fun u => u <> []) texts /\
       Forall2 (fun t u => add t = Ok u) (uri :: texts) us).
  Proof.
    induction fuel as [|fuel IH]; intros uri f us body Hf; [lia|]. cbn [uri_loop]. split.
    - destruct (add uri) as [u| |] eqn:EA; cbn [bind]; try discriminate.
      destruct (lfile_read f) as [[[[|c s]|] f']| |] eqn:ER; cbn [bind]; try discriminate.
      + intros H. injection H as <- <-. apply lfile_read_inv in ER. destruct ER as [(raw&->&HL)|(_&_&N&_)]; [|congruence].
        exists [], [], raw. cbn. repeat split; auto; apply HL.
      + destruct (uri_loop J repository tal fuel (c :: s) f') as [[us' b]| |] eqn:EU; cbn [bind]; try discriminate. intros H. injection H as <- <-.
        pose proof (reads_short _ _ _ ER). apply IH in EU; [|lia]. destruct EU as (ru&texts&blank&->&F1&HB&F2&F3).
        apply lfile_read_inv in ER. destruct ER as [(raw&->&HL)|(E&_)].
        2:{ pose proof (line_nonempty _ _ HB). destruct (concat ru); [destruct blank; [congruence|discriminate]|discriminate]. }
        exists (raw :: ru), ((c :: s) :: texts), blank. cbn [concat]. rewrite <- !app_assoc. repeat split; auto; try apply HB. constructor; auto. discriminate.
    - intros (ru&texts&blank&->&F1&HB&F2&F3). inversion F3 as [|? u ? us' HA F3']; subst. rewrite HA. cbn [bind].
      destruct F1 as [|raw t ru texts HL F1].
      + cbn [concat app]. rewrite (lfile_read_line _ _ _ HB). cbn [bind]. inversion F3'; subst. reflexivity.
      + cbn [concat] in *. rewrite <- app_assoc, (lfile_read_line _ _ _ HL). cbn [bind]. inversion F2 as [|? ? NE F2']; subst.
        destruct t as [|c s]; [congruence|].
        assert (E : uri_loop J repository tal fuel (c :: s) (concat ru ++ blank ++ body) = Ok (us', body)).
        { apply IH; [|exists ru, texts, blank; auto]. rewrite !app_length in *. pose proof (line_nonempty _ _ HL). destruct raw; [congruence|cbn in *; lia]. }
        rewrite E. reflexivity.
  Qed.

  Lemma comment_loop_inv : forall fuel f u f', (length f < fuel)%nat -> comment_loop fuel f = Ok (u, f') ->
    exists rc comments g, f = concat rc ++ g /\ Forall2 line_of rc comments /\ Forall comment comments /\ reads g u f' /\ u <> [] /\ ~ comment u.
  Proof.
    induction fuel as [|fuel IH]; intros f u f' Hf; [lia|]. cbn [comment_loop].
    destruct (lfile_read f) as [[[[|c s]|] f1]| |] eqn:ER; cbn [bind]; try discriminate.
    pose proof (reads_short _ _ _ ER). apply lfile_read_inv in ER. destruct (Z.eqb_spec c 35) as [->|NC].
    - intros HC. apply IH in HC; [|lia]. destruct HC as (rc&comments&g&->&F1&F2&R&NE&NC).
      destruct ER as [(raw&->&HL)|(E&_)].
      + exists (raw :: rc), ((35 :: s) :: comments), g. cbn [concat]. rewrite <- app_assoc. repeat split; auto. constructor; auto. exists s; auto.
      + exfalso. destruct (concat rc) eqn:EC; [|discriminate]. cbn in E. subst g.
        destruct R as [(raw&E&HL)|(_&E&N&_)]; [|congruence]. pose proof (line_nonempty _ _ HL). destruct raw; [congruence|discriminate].
    - intros E. injection E as <- <-. exists [], [], f. cbn. repeat split; auto; [discriminate|]. intros (t&K). congruence.
  Qed.
  Lemma comment_loop_ok : forall rc comments, Forall2 line_of rc comments -> Forall comment comments -> forall fuel raw u f', (length (concat rc ++ raw ++ f') < fuel)%nat ->
    line_of raw u -> u <> [] -> ~ comment u -> comment_loop fuel (concat rc ++ raw ++ f') = Ok (u, f').
  Proof.
    intros rc comments F. induction F as [|r c rc comments HL F IH]; intros FC fuel raw u f' Hf HR NE NC.
    - destruct fuel as [|fuel]; [lia|]. cbn [concat app comment_loop]. rewrite (lfile_read_line _ _ _ HR). cbn [bind].
      destruct u as [|c s]; [congruence|]. destruct (Z.eqb_spec c 35) as [->|]; auto. exfalso. apply NC. exists s; auto.
    - destruct fuel as [|fuel]; [lia|]. inversion FC as [|? ? (t&->) FC']; subst. cbn [concat comment_loop] in *. rewrite <- app_assoc, (lfile_read_line _ _ _ HL). cbn [bind Z.eqb Pos.eqb].
      apply IH; auto. rewrite !app_length in *. pose proof (line_nonempty _ _ HL). destruct r; [congruence|cbn in *; lia].
  Qed.

  Lemma read_uris_iff f us body : read_uris J repository tal f = Ok (us, body) <->
    exists comments texts, tal_text comments texts body f /\ Forall2 (fun t u => add t = Ok u) texts us.
  Proof.
    unfold read_uris. split.
    - destruct (lfile_read f) as [[[[|c s]|] f1]| |] eqn:ER; cbn [bind]; try discriminate.
      pose proof (reads_short _ _ _ ER). apply lfile_read_inv in ER.
      assert (TAIL : forall rc comments g u f', Forall2 line_of rc comments -> Forall comment comments -> reads g u f' -> u <> [] -> ~ comment u -> f = concat rc ++ g ->
        (length f' < S (length f))%nat -> uri_loop J repository tal (S (length f)) u f' = Ok (us, body) -> exists comments texts, tal_text comments texts body f /\ Forall2 (fun t u => add t = Ok u) texts us).
      { intros rc comments g u f' F1 F2 R NE NC -> HL HU. apply uri_loop_iff in HU; auto. destruct HU as (ru&texts&blank&->&G1&GB&G2&G3).
        destruct R as [(raw&->&RL)|(E&_)].
        2:{ exfalso. pose proof (line_nonempty _ _ GB). destruct (concat ru); [destruct blank; [congruence|discriminate]|discriminate]. }
        exists comments, (u :: texts). split; auto. exists rc, (raw :: ru), blank. cbn [concat]. rewrite <- !app_assoc. repeat split; auto; apply GB. }
      destruct (Z.eqb_spec c 35) as [->|NC]; cbn [bind].
      + destruct (comment_loop (S (length f)) f1) as [[u f2]| |] eqn:EC; cbn [bind]; try discriminate. intros HU.
        assert (L2 : (length f2 < length f1)%nat).
        { revert EC. generalize (S (length f)). clear. intros n. revert f1. induction n as [|n IH]; intros f1; cbn [comment_loop]; [discriminate|].
          destruct (lfile_read f1) as [[[[|c s]|] f3]| |] eqn:ER; cbn [bind]; try discriminate. pose proof (reads_short _ _ _ ER).
          destruct (c =? 35); [intros E; apply IH in E; lia|intros E; injection E as <- <-; auto]. }
        apply comment_loop_inv in EC; [|lia]. destruct EC as (rc&comments&g&->&F1&F2&R&NE&NC).
        destruct ER as [(raw&->&HL)|(E&_)].
        * eapply (TAIL (raw :: rc) ((35 :: s) :: comments) g u f2); eauto.
          -- constructor; auto. exists s; auto.
          -- cbn [concat]. rewrite <- app_assoc. reflexivity.
          -- rewrite !app_length in *. lia.
        * exfalso. destruct (concat rc) eqn:EC; [|discriminate]. cbn in E. subst g.
          destruct R as [(raw&E&HL)|(_&E&N&_)]; [|congruence]. pose proof (line_nonempty _ _ HL). destruct raw; [congruence|discriminate].
      + intros HU. refine (TAIL [] [] f (c :: s) f1 (Forall2_nil _) (Forall_nil _) ER _ _ eq_refl _ HU); [discriminate|intros (t&K); congruence|lia].
    - intros (comments&texts&(rc&ru&blank&->&F1&F2&HB&F3&F4&HT)&F5).
      destruct texts as [|u texts]; [contradiction|]. inversion F2 as [|raw ? ru' ? HL F2']; subst. inversion F4 as [|? ? NE F4']; subst. cbn [concat]. rewrite <- app_assoc.
      assert (LEN : (length (concat ru' ++ blank ++ body) < S (length (concat rc ++ raw ++ concat ru' ++ blank ++ body)))%nat) by (rewrite !app_length; lia).
      remember (S (length (concat rc ++ raw ++ concat ru' ++ blank ++ body))) as fuel eqn:EF.
      assert (TAIL : uri_loop J repository tal fuel u (concat ru' ++ blank ++ body) = Ok (us, body)).
      { apply uri_loop_iff; [lia|]. exists ru', texts, blank. auto. }
      destruct F1 as [|r c rc comments HL1 F1].
      + cbn [concat app]. rewrite (lfile_read_line _ _ _ HL). cbn [bind]. destruct u as [|c s]; [congruence|].
        destruct (Z.eqb_spec c 35) as [->|]; [exfalso; apply HT; exists s; auto|]. cbn [bind]. exact TAIL.
      + cbn [concat] in *. inversion F3 as [|? ? (t&ET) F3']. clear F3. rewrite ET in HL1. rewrite <- app_assoc, (lfile_read_line _ _ _ HL1). cbn [bind Z.eqb Pos.eqb].
        rewrite (comment_loop_ok rc comments F1 F3' fuel raw u); auto. subst fuel. rewrite !app_length. lia.
  Qed.
End Uris.

(** ** The key *)
Fixpoint lines_ok (cur : nat) (l : list Z) : Prop :=
  match l with [] => True | c :: l => if c =? 10 then lines_ok 0 l else (S cur <= 65)%nat /\ lines_ok (S cur) l end.
Fixpoint endrun (cur : nat) (l : list Z) : nat :=
  match l with [] => cur | c :: l => if c =? 10 then endrun 0 l else endrun (S cur) l end.
Lemma lines_ok_app a : forall cur b, lines_ok cur (a ++ b) <-> lines_ok cur a /\ lines_ok (endrun cur a) b.
Proof. induction a as [|c a IH]; intros cur b; cbn [lines_ok endrun app]; [tauto|]. destruct (c =? 10); rewrite IH; tauto. Qed.
Lemma endrun_app a : forall cur b, endrun cur (a ++ b) = endrun (endrun cur a) b.
Proof. induction a as [|c a IH]; intros cur b; cbn [endrun app]; auto. destruct (c =? 10); auto. Qed.
Lemma short_ok l : forall cur, (cur + length l <= 65)%nat -> lines_ok cur l.
Proof. induction l as [|c l IH]; intros cur H; cbn [lines_ok length] in *; auto. destruct (c =? 10); [apply IH; lia|split; [lia|apply IH; lia]]. Qed.
Lemma endrun_lf l cur : endrun cur (l ++ [10]) = 0%nat.
Proof. rewrite endrun_app. reflexivity. Qed.
Lemma endrun_nolf r : forall cur, ~ In 10 r -> endrun cur r = (cur + length r)%nat.
Proof.
  induction r as [|c r IH]; intros cur H; cbn [endrun length]; [lia|]. destruct (Z.eqb_spec c 10); [subst; exfalso; apply H; left; auto|].
  rewrite IH; [lia|]. intros K; apply H; right; auto.
Qed.
Lemma lines_ok_run r : forall cur, (cur <= 65)%nat -> ~ In 10 r -> lines_ok cur r -> (cur + length r <= 65)%nat.
Proof.
  induction r as [|c r IH]; intros cur L H; cbn [lines_ok length]; [lia|]. destruct (Z.eqb_spec c 10); [subst; exfalso; apply H; left; auto|].
  intros [A B]. apply IH in B; [lia|auto|]. intros K; apply H; right; auto.
Qed.
Lemma endrun_le a : forall cur, (cur <= 65)%nat -> lines_ok cur a -> (endrun cur a <= 65)%nat.
Proof. induction a as [|c a IH]; intros cur L H; cbn in *; auto. destruct (c =? 10); [apply IH; [lia|auto]|apply IH; tauto]. Qed.
Lemma lines_ok_infix a r b : lines_ok 0 (a ++ r ++ b) -> ~ In 10 r -> (length r <= 65)%nat.
Proof.
  rewrite !lines_ok_app. intros (A&B&_) H. pose proof (lines_ok_run r (endrun 0 a) (endrun_le a 0 ltac:(lia) A) H B). lia.
Qed.

Lemma locate_none s : locate_char s 10 = None -> ~ In 10 s.
Proof.
  induction s as [|c s IH]; cbn [locate_char]; auto. destruct (Z.eqb_spec c 10); [discriminate|].
  destruct (locate_char s 10); [discriminate|]. intros _ [K|K]; auto. apply IH; auto.
Qed.
Lemma locate_some s : forall k, locate_char s 10 = Some k -> exists a b, s = a ++ 10 :: b /\ length a = k.
Proof.
  induction s as [|c s IH]; intros k; cbn [locate_char]; [discriminate|]. destruct (Z.eqb_spec c 10) as [->|N].
  - intros H. injection H as <-. exists [], s. auto.
  - destruct (locate_char s 10) as [k'|] eqn:E; [|discriminate]. intros H. injection H as <-. destruct (IH _ eq_refl) as (a&b&->&<-). exists (c :: a), b. auto.
Qed.

Lemma store_at out tail bs : (length bs <= length tail)%nat -> store (out ++ tail) (length out) bs = Ok ((out ++ bs) ++ skipn (length bs) tail).
Proof.
  intros H. unfold store. rewrite app_length. destruct (Nat.leb_spec (length out + length bs) (length out + length tail)); [|lia].
  f_equal. rewrite firstn_app, Nat.sub_diag, firstn_all. cbn [firstn]. rewrite app_nil_r, <- app_assoc. f_equal. f_equal.
  rewrite skipn_app. rewrite skipn_all2 by lia. cbn [app]. f_equal. lia.
Qed.

Lemma no_newlines_app a b : no_newlines (a ++ b) = no_newlines a ++ no_newlines b.
Proof. apply filter_app. Qed.

(** What a round writes. *)
Lemma chunk_step fuel orig f out tail c : c = firstn (Nat.min BUF_SIZE orig) f -> c <> [] -> (S (length c) <= length tail)%nat -> (endrun 0 out <= 1)%nat -> lines_ok 0 out ->
  exists w tail', sanitize_loop (S fuel) orig f (out ++ tail) (length out) = sanitize_loop fuel (orig - length c) (skipn (Nat.min BUF_SIZE orig) f) ((out ++ w) ++ tail') (length (out ++ w)) /\
    (length w + length tail' = length tail)%nat /\ (length w <= S (length c))%nat /\ no_newlines w = no_newlines c /\ lines_ok 0 (out ++ w) /\ (endrun 0 (out ++ w) <= 1)%nat.
Proof.
  intros Hc NE HT HE HL. cbn [sanitize_loop]. rewrite <- Hc. assert (L65 : (length c <= 65)%nat) by (subst c; rewrite firstn_length; unfold BUF_SIZE; lia). clear Hc.
  destruct c as [|c0 c1] eqn:EC; [congruence|]. rewrite <- EC in *. assert (L1 : (1 <= length c)%nat) by (subst c; cbn; lia). clear EC NE c0 c1.
  destruct (locate_char c 10) as [k|] eqn:EL.
  - apply locate_some in EL. destruct EL as (a&b&->&<-). rewrite app_length in *. cbn [length] in *.
    assert (E1 : firstn (length a + 1) (a ++ 10 :: b) = a ++ [10%Z]).
    { rewrite firstn_app. rewrite firstn_all2 by lia. replace (length a + 1 - length a)%nat with 1%nat by lia. reflexivity. }
    assert (E2 : skipn (length a + 1) (a ++ 10 :: b) = b).
    { rewrite skipn_app. rewrite skipn_all2 by lia. replace (length a + 1 - length a)%nat with 1%nat by lia. reflexivity. }
    rewrite E1, E2. rewrite store_at by (rewrite app_length; cbn; lia). cbn [bind].
    destruct (Nat.ltb_spec (length a + 1) (length a + S (length b))) as [L|L].
    + assert (LO : (length out + (length a + 1) = length (out ++ a ++ [10%Z]))%nat) by (rewrite !app_length; cbn; lia). rewrite LO.
      rewrite store_at by (rewrite skipn_length, !app_length; cbn; lia). cbn [bind].
      assert (LO2 : (length (out ++ a ++ [10%Z]) + (length a + S (length b) - 1 - length a) = length ((out ++ a ++ [10%Z]) ++ b))%nat) by (rewrite !app_length; cbn; lia). rewrite LO2.
      rewrite store_at by (rewrite !skipn_length, !app_length; cbn; lia). cbn [bind].
      exists (a ++ [10%Z] ++ b ++ [10%Z]). eexists. split.
      { assert (EQ : out ++ a ++ [10%Z] ++ b ++ [10] = ((out ++ a ++ [10%Z]) ++ b) ++ [10%Z]) by (rewrite <- !app_assoc; reflexivity). rewrite EQ. 
        f_equal. rewrite !app_length. cbn. lia. }
      rewrite !skipn_length, !app_length. cbn [length]. repeat split; try lia.
      * change (10 :: b) with ([10] ++ b). rewrite !no_newlines_app. change (no_newlines [10]) with (@nil Z). rewrite app_nil_r. reflexivity.
      * rewrite !lines_ok_app. repeat split; auto; try (apply short_ok; rewrite ?endrun_lf; cbn [length]; try lia).
        -- cbn [endrun Z.eqb Pos.eqb]. lia.
      * rewrite !endrun_app. cbn. lia.
    + destruct b as [|]; [|cbn in L; lia]. exists (a ++ [10%Z]). eexists. split; [f_equal; rewrite !app_length; cbn; lia|].
      rewrite skipn_length, !app_length. cbn [length]. repeat split; try lia.
      * rewrite lines_ok_app. split; auto. rewrite lines_ok_app. split; [apply short_ok; cbn in *; lia|]. cbn. auto.
      * rewrite !endrun_app. cbn. lia.
  - apply locate_none in EL.
    assert (SP : exists a x, c = a ++ [x]) by (destruct (snoc_cases c) as [->|]; [cbn in *; lia|auto]). destruct SP as (a&x&->). rewrite app_length in *. cbn [length] in *.
    rewrite in_app_iff in EL.
    replace (length a + 1 - 1)%nat with (length a) by lia. rewrite firstn_app, Nat.sub_diag, firstn_all. cbn [firstn]. rewrite app_nil_r.
    rewrite app_nth2, Nat.sub_diag by lia. cbn [nth].
    rewrite store_at by lia. cbn [bind].
    assert (LO : (length out + length a = length (out ++ a))%nat) by (rewrite !app_length; cbn; lia). rewrite LO.
    rewrite store_at by (rewrite skipn_length; cbn; lia). cbn [bind].
    assert (LO2 : (length (out ++ a) + 1 = length ((out ++ a) ++ [10%Z]))%nat) by (rewrite !app_length; cbn; lia). rewrite LO2.
    rewrite store_at by (rewrite !skipn_length; cbn; lia). cbn [bind].
    exists (a ++ [10%Z] ++ [x]). eexists. split.
    { assert (EQ : out ++ a ++ [10%Z] ++ [x] = ((out ++ a) ++ [10%Z]) ++ [x]) by (rewrite <- !app_assoc; reflexivity). rewrite EQ.
      f_equal. rewrite !app_length. cbn. lia. }
    rewrite !skipn_length, !app_length. cbn [length]. repeat split; try lia.
    + rewrite !no_newlines_app. reflexivity.
    + rewrite !lines_ok_app. repeat split; auto; try (apply short_ok; cbn [length endrun Z.eqb Pos.eqb]; lia).
    + rewrite !endrun_app. cbn [endrun Z.eqb Pos.eqb]. destruct (x =? 10); lia.
Qed.

Definition ceil65 (n : nat) : nat := ((n + 64) / 65)%nat.
Lemma ceil65_step r c : (1 <= c <= 65)%nat -> c = Nat.min 65 r -> (c + ceil65 (r - c) + 1 <= c + ceil65 r)%nat.
Proof.
  intros H E. unfold ceil65. assert (K : (r <= 65)%nat \/ (65 < r)%nat) by lia. destruct K as [K|K].
  - assert (E0 : (r - c = 0)%nat) by lia. rewrite E0. replace ((0 + 64) / 65)%nat with 0%nat by reflexivity.
    assert (1 <= (r + 64) / 65)%nat by (apply Nat.div_le_lower_bound; lia). lia.
  - assert (H0 : c = 65%nat) by lia. rewrite H0. replace (r + 64)%nat with (r - 65 + 64 + 1 * 65)%nat by lia. rewrite Nat.div_add by lia. lia.
Qed.

Lemma sanitize_loop_ok : forall fuel orig f out tail, (length f < fuel)%nat -> (endrun 0 out <= 1)%nat -> lines_ok 0 out ->
  (Nat.min orig (length f) + ceil65 (Nat.min orig (length f)) <= length tail)%nat ->
  exists w tail', sanitize_loop fuel orig f (out ++ tail) (length out) = Ok ((out ++ w) ++ tail', length (out ++ w)) /\
    (length w + length tail' = length tail)%nat /\ no_newlines w = no_newlines (firstn orig f) /\ lines_ok 0 (out ++ w).
Proof.
  induction fuel as [|fuel IH]; intros orig f out tail Hf HE HL HB; [lia|].
  remember (firstn (Nat.min BUF_SIZE orig) f) as c eqn:Hc.
  assert (Lc : length c = Nat.min 65 (Nat.min orig (length f))) by (subst c; rewrite firstn_length; unfold BUF_SIZE; lia).
  assert (DC : c = [] \/ c <> []) by (destruct c; auto; right; discriminate). destruct DC as [EC|NE].
  - exists [], tail. cbn [sanitize_loop]. rewrite <- Hc, EC. rewrite app_nil_r. repeat split; auto.
    rewrite EC in Lc. cbn [length] in Lc. assert (Z0 : (Nat.min orig (length f) = 0)%nat) by lia.
    assert (F0 : firstn orig f = []). { apply length_zero_iff_nil. rewrite firstn_length. exact Z0. } rewrite F0. reflexivity.
  - assert (L1 : (1 <= length c)%nat) by (destruct c; [congruence|cbn; lia]).
    assert (L1' : (1 <= length c <= 65)%nat) by (rewrite Lc in *; clear - L1; lia).
    pose proof (ceil65_step (Nat.min orig (length f)) (length c) L1' Lc) as CS.
    destruct (chunk_step fuel orig f out tail c Hc NE ltac:(lia) HE HL) as (w&tail'&ES&L2&L3&NN&HL'&HE').
    assert (LS : length (skipn (Nat.min BUF_SIZE orig) f) = (length f - Nat.min BUF_SIZE orig)%nat) by apply skipn_length. unfold BUF_SIZE in LS at 2.
    assert (RM : Nat.min (orig - length c) (length (skipn (Nat.min BUF_SIZE orig) f)) = (Nat.min orig (length f) - length c)%nat) by (rewrite LS; lia).
    destruct (IH (orig - length c)%nat (skipn (Nat.min BUF_SIZE orig) f) (out ++ w) tail') as (w2&tail2&ES2&L4&NN2&HL2); auto.
    + rewrite LS. lia.
    + rewrite RM. lia.
    + exists (w ++ w2), tail2. rewrite ES, ES2. rewrite !app_assoc. split; auto. split; [rewrite app_length; lia|]. split.
      * rewrite no_newlines_app, NN, NN2. rewrite Hc.
        assert (LC : length (firstn (Nat.min BUF_SIZE orig) f) = length c) by congruence.
        rewrite <- no_newlines_app. f_equal.
        assert (E65 : (length c = Nat.min BUF_SIZE orig \/ length f <= Nat.min BUF_SIZE orig)%nat) by (rewrite Lc; unfold BUF_SIZE; lia).
        destruct E65 as [E|E].
        -- rewrite LC, E. rewrite <- (firstn_skipn (Nat.min BUF_SIZE orig) (firstn orig f)). rewrite firstn_firstn. f_equal; [f_equal; unfold BUF_SIZE; lia|].
           rewrite skipn_firstn_comm. reflexivity.
        -- rewrite skipn_all2 by auto. rewrite firstn_nil, app_nil_r. rewrite firstn_all2 by auto. rewrite firstn_all2 by (unfold BUF_SIZE in E; lia). reflexivity.
      * exact HL2.
Qed.

(** ** Directory entries *)
Lemma strrchr_some c s t : strrchr c s = Some t <-> exists p r, s = p ++ t /\ t = c :: r /\ ~ In c r.
Proof.
  revert t. induction s as [|x s IH]; intros t; cbn [strrchr].
  - split; [discriminate|]. intros (p&r&E&->&_). destruct p; discriminate.
  - destruct (strrchr c s) as [u|] eqn:ES.
    + split.
      * intros H. injection H as <-. destruct (proj1 (IH u) eq_refl) as (p&r&->&->&N). exists (x :: p), r. auto.
      * intros (p&r&E&->&N). f_equal. destruct p as [|y p]; cbn in E; injection E as -> E.
        -- exfalso. apply N. rewrite <- E. destruct (proj1 (IH u) eq_refl) as (p&r'&->&->&_). apply in_or_app. right. left. auto.
        -- assert (K : Some u = Some (c :: r)) by (apply IH; eauto). congruence.
    + assert (NS : ~ In c s).
      { intros K. apply in_split in K. destruct K as (a&b&->).
        assert (Q : exists t, strrchr c (a ++ c :: b) = Some t).
        { clear. induction a as [|y a (t&IH)]; cbn [strrchr app]; [|rewrite IH; eauto]. destruct (strrchr c b); eauto. rewrite Z.eqb_refl. eauto. }
        destruct Q. congruence. }
      destruct (Z.eqb_spec x c) as [->|NX].
      * split; [intros H; injection H as <-; exists [], s; auto|]. intros (p&r&E&->&N). destruct p as [|y p]; cbn in E; [congruence|]. injection E as E1 E.
        exfalso. apply NS. rewrite E. apply in_or_app. right. left. auto.
      * split; [discriminate|]. intros (p&r&E&->&N). exfalso. destruct p as [|y p]; cbn in E; injection E as E1 E; [congruence|].
        apply NS. rewrite E. apply in_or_app. right. left. auto.
Qed.
Lemma tal_ext_iff s : (exists e, strrchr 46 s = Some e /\ list_eqb Z.eqb e (cstr ".tal") = true) <-> tal_name s.
Proof.
  unfold tal_name. split.
  - intros (e&H&K). apply (list_eqb_spec Z.eqb Z.eqb_eq) in K. subst e. apply strrchr_some in H. destruct H as (p&r&->&_). eauto.
  - intros (p&->). exists (cstr ".tal"). split; [|reflexivity]. apply strrchr_some. exists p, [116; 97; 108]. repeat split; auto.
    cbn. intros [|[|[|]]]; auto; discriminate.
Qed.

(** ** The union *)
Lemma join_roas d t v : In v (t_roas (db_table_join d t)) <-> In v (t_roas d) \/ In v (t_roas t).
Proof.
  unfold db_table_join.
  assert (A : forall l u, t_roas (fold_left add_router_key l u) = t_roas u) by (induction l; intros; cbn; [auto|rewrite IHl; auto]).
  rewrite A. clear A. revert d. induction (t_roas t) as [|x l IH]; intros d; cbn [fold_left]; [cbn; tauto|]. rewrite IH. unfold add_roa at 1. cbn [t_roas].
  rewrite hs_add_In by apply vrp_equals_eq. cbn. intuition congruence.
Qed.
Lemma join_rks d t v : In v (t_rks (db_table_join d t)) <-> In v (t_rks d) \/ In v (t_rks t).
Proof.
  unfold db_table_join.
  assert (A : forall l u, t_rks (fold_left add_roa l u) = t_rks u) by (induction l; intros; cbn; [auto|rewrite IHl; auto]).
  rewrite <- (A (t_roas t) d). clear A. generalize (fold_left add_roa (t_roas t) d). clear d. induction (t_rks t) as [|x l IH]; intros d; cbn [fold_left]; [cbn; tauto|]. rewrite IH. unfold add_router_key at 1. cbn [t_rks].
  rewrite hs_add_In by apply rk_equals_eq. cbn. intuition congruence.
Qed.
