(** Constructed types: the loops over the members of a SEQUENCE and over the
    elements of a SET OF. *)
From Coq Require Import Lia.
From Verif Require Import Base Ber BerSpec BerProofs BerProofs2 BerProofs4.
From Verif Require Import Asn1Dec Asn1DecSpec Asn1DecProofs Asn1DecProofs2 Asn1DecProofs3 Asn1DecProofs4 Asn1DecProofs5.

(** ** Leading tags *)

Lemma hdr_leading e c o h : hdr e c o h -> exists t, leading t h /\ (forall t', e = Some t' -> t = t').
Proof.
  intros (T & L & cl & num & -> & Ht & Hf & Hg & _). exists (num * 4 + cl). split; [|assumption].
  exists T, cl, c, num, L. repeat split; assumption.
Qed.

Lemma leading_app t b x : leading t b -> leading t (b ++ x).
Proof.
  intros (T & cl & c & num & X & -> & H1 & H2 & H3). exists T, cl, c, num, (X ++ x). rewrite <- app_assoc. repeat split; assumption.
Qed.

Lemma dchain_leading es c len p : dchain es c len p -> exists t, leading t p.
Proof.
  intros [e c' l h Hh|e es' c' l h p' Hh _]; destruct (hdr_leading _ _ _ _ Hh) as (t & Hl & _); exists t; [assumption|apply leading_app; assumption].
Qed.

Lemma ichain_leading es p : ichain es p -> exists t, leading t p.
Proof.
  intros [e h Hh|e es' h p' Hh _]; destruct (hdr_leading _ _ _ _ Hh) as (t & Hl & _); exists t; [assumption|apply leading_app; assumption].
Qed.

Lemma framed_leading es c indef body whole : framed es c indef body whole -> (exists t, leading t whole) /\ (2 <= length whole)%nat.
Proof.
  intros [p b Hp|p b _ Hp]; (split; [|rewrite app_length]).
  - destruct (dchain_leading _ _ _ _ Hp) as (t & H). exists t. apply leading_app. assumption.
  - apply dchain_bytes in Hp. lia.
  - destruct (ichain_leading _ _ Hp) as (t & H). exists t. apply leading_app. assumption.
  - apply ichain_bytes in Hp. lia.
Qed.

Lemma enc_leading t mode b v : enc t mode b v -> (exists tag, leading tag b) /\ (2 <= length b)%nat.
Proof.
  revert t mode b v.
  assert (Hd : forall es c len p x, dchain es c len p -> (exists tag, leading tag (p ++ x)) /\ (2 <= length (p ++ x))%nat).
  { intros es c len p x H. rewrite app_length. split; [|apply dchain_bytes in H; lia].
    destruct (dchain_leading _ _ _ _ H) as (t & Hl). exists t. apply leading_app. assumption. }
  assert (Hc : forall tg whole inner cs, constructed_string tg whole inner cs -> (exists tag, leading tag whole) /\ (2 <= length whole)%nat).
  { intros tg whole inner cs (indef & Hf & _). eapply framed_leading; eassumption. }
  apply (enc_mut (fun t mode b v _ => (exists tag, leading tag b) /\ (2 <= length b)%nat) (fun _ _ _ _ _ => True) (fun _ _ _ _ _ _ => True));
    intros; try exact I; try (eapply Hd; eassumption); try (eapply Hc; eassumption); try (eapply framed_leading; eassumption).
  - rewrite <- (app_nil_r p). eapply Hd; eassumption.
  - split; [eexists; eassumption|]. apply H.
Qed.

(** What the decoder reads of a leading tag. *)
Lemma leading_fetch t b x : leading t b -> exists n, ber_fetch_tag (b ++ x) (length (b ++ x)) = Ok (Got n t).
Proof.
  intros (T & cl & c & num & X & -> & H1 & H2 & <-). exists (length T). rewrite <- app_assoc.
  apply fetch_tag_complete with (pc := c); [assumption|assumption|rewrite app_length; lia].
Qed.

Lemma leading_unique t b n bs k tag : leading t b -> b = firstn n bs -> ber_fetch_tag bs (length bs) = Ok (Got k tag) -> t = tag.
Proof.
  intros Hl Eb E. destruct (leading_fetch t b (skipn n bs) Hl) as (m & F). rewrite Eb, firstn_skipn in F. congruence.
Qed.

(** ** LEFT *)

Lemma LEFT_prefix left bs : exists m, LEFT left bs = firstn m bs.
Proof.
  unfold LEFT. destruct (_ || _); [exists (length bs); symmetry; apply firstn_all|exists (Z.to_nat left); reflexivity].
Qed.

Lemma LEFT_bytes left bs : bytes bs -> bytes (LEFT left bs).
Proof. destruct (LEFT_prefix left bs) as (m & ->). apply bytes_firstn. Qed.

Lemma LEFT_firstn left bs n : (n <= length (LEFT left bs))%nat ->
  firstn n (LEFT left bs) = firstn n bs /\ (n <= length bs)%nat /\ (0 <= left -> Z.of_nat n <= left).
Proof.
  intros H. destruct (LEFT_prefix left bs) as (m & E). split; [|split].
  - rewrite E in *. rewrite firstn_length in H. rewrite firstn_firstn. f_equal. lia.
  - rewrite E, firstn_length in H. lia.
  - intros H0. unfold LEFT in H. destruct (Z.ltb_spec left 0); [lia|]. cbn [orb] in H.
    destruct (Z.leb_spec (Z.of_nat (length bs)) left); [lia|]. rewrite firstn_length in H. lia.
Qed.

Lemma LEFT_app left b rest : left < 0 \/ Z.of_nat (length b) <= left -> exists rest', LEFT left (b ++ rest) = b ++ rest' /\ (bytes rest -> bytes rest').
Proof.
  intros H. unfold LEFT. destruct (_ || _) eqn:E; [exists rest; split; [reflexivity|trivial]|].
  apply orb_false_iff in E. destruct E as (E1 & _). apply Z.ltb_ge in E1.
  rewrite firstn_app, firstn_all2 by lia. eexists. split; [reflexivity|apply bytes_firstn].
Qed.

(** ** Decoders of members *)

Definition Sound (dec : list Z -> outcome value) (t : ty) (mode : Z) : Prop :=
  forall bs n v, bytes bs -> dec bs = Done n v -> (n <= length bs)%nat /\ enc t mode (firstn n bs) v.
Definition Complete (dec : list Z -> outcome value) (t : ty) (mode : Z) : Prop :=
  forall b v rest, enc t mode b v -> bytes (b ++ rest) -> dec (b ++ rest) = Done (length b) v.
Definition NoFault (dec : list Z -> outcome value) : Prop := forall bs, bytes bs -> dec bs <> Fault.
Definition NoSpin (dec : list Z -> outcome value) : Prop := forall bs, bytes bs -> dec bs <> Spin.

Definition m_type (m : member) : ty := match m with Member _ _ _ _ t => t end.
Definition m_mode (m : member) : Z := match m with Member _ md _ _ _ => md end.
Definition m_tag (m : member) : option Z := match m with Member t _ _ _ _ => t end.
Definition m_any (m : member) : bool := match m with Member _ _ _ any _ => any end.

(** A field that decodes the member [m]. *)
Definition for_member (f : field) (m : member) : Prop := d_key f = key m /\ d_optional f = optional_of m.

(** ** The search of a member *)

Lemma linear_here tag keys : forall window n0 n, linear_search tag keys window n0 = Here n ->
  (n0 <= n < n0 + window)%nat /\ exists k, nth_error keys (n - n0) = Some k /\ (fst k = Some tag \/ snd k = true).
Proof.
  induction keys as [|[mtag any] keys IH]; intros window n0 n E; [destruct window; discriminate|].
  destruct window as [|window]; [discriminate|]. cbn [linear_search] in E.
  assert (Hnow : n0 = n -> (fst (mtag, any) = Some tag \/ snd (mtag, any) = true) ->
    (n0 <= n < n0 + S window)%nat /\ exists k, nth_error ((mtag, any) :: keys) (n - n0) = Some k /\ (fst k = Some tag \/ snd k = true)).
  { intros <- H. split; [lia|]. exists (mtag, any). rewrite Nat.sub_diag. split; [reflexivity|assumption]. }
  destruct mtag as [t|].
  - destruct (Z.eqb_spec tag t) as [->|Hne]; [injection E as <-; apply Hnow; [reflexivity|left; reflexivity]|].
    destruct any; [injection E as <-; apply Hnow; [reflexivity|right; reflexivity]|].
    apply IH in E. destruct E as (H & k & Hk & Hf). split; [lia|]. exists k.
    replace (n - n0)%nat with (S (n - S n0)) by lia. split; assumption.
  - destruct any; [injection E as <-; apply Hnow; [reflexivity|right; reflexivity]|discriminate].
Qed.

Lemma table_found tag edx emax : forall t2e best el, table_search t2e tag edx emax best = Some el ->
  best = Some el \/ (In (tag, el) t2e /\ (edx <= el <= emax)%nat).
Proof.
  induction t2e as [|[t e] t2e IH]; intros best el E; cbn [table_search] in E; [left; assumption|].
  apply IH in E. destruct E as [E|(H1 & H2)]; [|right; split; [right; assumption|assumption]].
  destruct ((tag =? t) && (edx <=? e)%nat && (e <=? emax)%nat) eqn:Hc; [|left; assumption].
  apply andb_true_iff in Hc. destruct Hc as (Hc & H3). apply andb_true_iff in Hc. destruct Hc as (H1 & H2).
  injection E as <-. right. apply Z.eqb_eq in H1. subst t. apply Nat.leb_le in H2, H3. split; [left; reflexivity|lia].
Qed.

Lemma nth_error_combine {A B} : forall i (l : list A) (l' : list B) x y,
  nth_error l i = Some x -> nth_error l' i = Some y -> nth_error (combine l l') i = Some (x, y).
Proof.
  induction i as [|i IH]; intros [|a l] [|b l'] x y Hx Hy; try discriminate; cbn in *; [congruence|]. apply IH; assumption.
Qed.

(** What [position_ok] says. *)
Lemma position_spec t2e edx m ms : position_ok t2e edx (m :: ms) = true ->
  (optional_of m <= length (m :: ms))%nat
  /\ (forall j mj, nth_error (m :: ms) j = Some mj -> (j <= optional_of m)%nat ->
        match first_tags mj with
        | Some ts => forall t, In t ts -> find_member t2e t edx (map key (m :: ms)) (optional_of m) = Some j
        | None => j = O /\ m_any mj = true
        end)
  /\ (forall t el, In (t, el) t2e -> (edx <= el)%nat ->
        exists mj, nth_error (m :: ms) (el - edx) = Some mj /\ match first_tags mj with Some ts => In t ts | None => True end).
Proof.
  unfold position_ok. rewrite !andb_true_iff. intros (((H1 & H2) & H3) & H4).
  apply Nat.leb_le in H1, H2. rewrite forallb_forall in H3, H4. split; [assumption|]. split.
  - intros j mj Hj Hle.
    assert (Hin : In (j, mj) (combine (seq 0 (S (optional_of m))) (m :: ms))).
    { apply nth_error_In with (n := j).
      assert (Hseq : nth_error (seq 0 (S (optional_of m))) j = Some j).
      { rewrite nth_error_nth' with (d := O) by (rewrite seq_length; lia). rewrite seq_nth by lia. reflexivity. }
      apply nth_error_combine; assumption. }
    apply H3 in Hin. cbn [fst snd] in Hin. destruct (first_tags mj) as [ts|].
    + intros t Ht. rewrite forallb_forall in Hin. apply Hin in Ht.
      destruct (find_member t2e t edx (map key (m :: ms)) (optional_of m)) as [n|]; [|discriminate]. apply Nat.eqb_eq in Ht. congruence.
    + apply andb_true_iff in Hin. destruct Hin as (Hj0 & Ha). apply Nat.eqb_eq in Hj0. split; [assumption|]. destruct mj; exact Ha.
  - intros t el Hin Hle. apply H4 in Hin. cbn [fst snd] in Hin. destruct (Nat.ltb_spec el edx); [lia|]. cbn [orb] in Hin.
    destruct (nth_error (m :: ms) (el - edx)) as [mj|]; [|discriminate]. exists mj. split; [reflexivity|].
    destruct (first_tags mj) as [ts|]; [|exact I]. apply existsb_exists in Hin. destruct Hin as (t' & Hin & E). apply Z.eqb_eq in E. congruence.
Qed.

Lemma find_sound t2e tag edx m ms n : position_ok t2e edx (m :: ms) = true ->
  (forall mj, In mj (m :: ms) -> m_any mj = true -> m_tag mj = None) ->
  find_member t2e tag edx (map key (m :: ms)) (optional_of m) = Some n ->
  (n <= optional_of m)%nat /\ exists mn, nth_error (m :: ms) n = Some mn /\ (forall t, m_tag mn = Some t -> t = tag).
Proof.
  intros Hpos Hany E. destruct (position_spec _ _ _ _ Hpos) as (Ho & _ & Htab).
  unfold find_member in E. rewrite map_length in E. set (o := optional_of m) in *.
  match type of E with (let '(_, _) := ?x in _) = _ => destruct x as [window useb] eqn:Ew end.
  assert (Hw : (window <= o + 1)%nat /\ (window <= length (m :: ms))%nat).
  { destruct (Nat.ltb_spec (length (m :: ms)) (o + 1)); cbn [length] in *; [injection Ew as <- _; lia|].
    destruct (Nat.ltb_spec 8 (o + 1)); injection Ew as <- _; lia. }
  assert (Htable : forall k, match table_search t2e tag edx (edx + o) None with Some el => Some (el - edx)%nat | None => None end = Some k ->
    (k <= o)%nat /\ exists mn, nth_error (m :: ms) k = Some mn /\ (forall t, m_tag mn = Some t -> t = tag)).
  { intros k Ek. destruct (table_search t2e tag edx (edx + o) None) as [el|] eqn:Et; [|discriminate]. injection Ek as <-.
    apply table_found in Et. destruct Et as [Et|(Hin & Hel)]; [discriminate|].
    split; [lia|]. destruct (Htab tag el Hin) as (mj & Hj & Hf); [lia|]. exists mj. split; [assumption|].
    intros t Ht. destruct mj as [mt md op an tt]. cbn [m_tag] in Ht. subst mt. cbn [first_tags] in Hf. destruct Hf as [Hf|[]]. assumption. }
  destruct (linear_search tag (map key (m :: ms)) window 0) as [n'| |] eqn:El.
  - injection E as <-. apply linear_here in El. destruct El as (Hn & k & Hk & Hf). split; [lia|].
    rewrite Nat.sub_0_r in Hk. rewrite nth_error_map in Hk. destruct (nth_error (m :: ms) n') as [mn|] eqn:Emn; [|discriminate].
    exists mn. split; [reflexivity|]. intros t Ht. cbn [option_map] in Hk. injection Hk as <-.
    destruct mn as [mt md op an tt] eqn:Dmn. cbn [key fst snd m_tag] in *. subst mt.
    destruct Hf as [Hf|Hf]; [congruence|]. apply nth_error_In in Emn. specialize (Hany _ Emn Hf). discriminate.
  - apply Htable. assumption.
  - destruct useb; [apply Htable; assumption|discriminate].
Qed.

(** Counting optional members. *)
Lemma optional_run t2e edx ms : members_ok t2e edx ms = true ->
  forall j mj m0, nth_error ms 0 = Some m0 -> nth_error ms j = Some mj -> (j <= optional_of m0)%nat -> optional_of mj = (optional_of m0 - j)%nat.
Proof.
  revert edx. induction ms as [|m ms IH]; intros edx Hok j mj m0 H0 Hj Hle; [discriminate|].
  injection H0 as <-. cbn [members_ok] in Hok. apply andb_true_iff in Hok. destruct Hok as (Hok & Hrest). apply andb_true_iff in Hok. destruct Hok as (_ & Hd).
  destruct j as [|j]; [injection Hj as <-; lia|]. cbn [nth_error] in Hj.
  destruct (optional_of m) as [|o] eqn:Eo; [lia|]. destruct ms as [|m' ms]; [destruct j; discriminate|].
  apply Nat.eqb_eq in Hd. specialize (IH _ Hrest j mj m' eq_refl Hj). rewrite IH by lia. lia.
Qed.

Lemma members_ok_skip t2e : forall n edx ms, members_ok t2e edx ms = true -> members_ok t2e (n + edx) (skipn n ms) = true.
Proof.
  induction n as [|n IH]; intros edx ms H; [assumption|]. destruct ms as [|m ms]; [reflexivity|].
  cbn [members_ok] in H. apply andb_true_iff in H. destruct H as (_ & H). cbn [skipn]. replace (S n + edx)%nat with (n + S edx)%nat by lia. apply IH. assumption.
Qed.

(** ** Skipping *)

Lemma seq_skip t2e f : forall n ms edx left bs consumed acc, nth_error ms n = Some f ->
  seq_loop t2e ms edx (Some n) left bs consumed acc =
  match d_decode f (LEFT left bs) with
  | Done k v => seq_loop t2e (skipn (S n) ms) (S n + edx) None (advance left k) (skipn k bs) (consumed + k) (Some v :: repeat None n ++ acc)
  | r => r
  end.
Proof.
  induction n as [|n IH]; intros ms edx left bs consumed acc Hn; destruct ms as [|m ms]; try discriminate.
  - injection Hn as ->. reflexivity.
  - cbn [nth_error] in Hn. cbn [seq_loop]. rewrite IH by assumption. change (skipn (S (S n)) (m :: ms)) with (skipn (S n) ms).
    replace (S n + S edx)%nat with (S (S n) + edx)%nat by lia.
    replace (repeat None n ++ None :: acc) with (repeat None (S n) ++ acc); [reflexivity|].
    change (None :: acc) with ([@None value] ++ acc). rewrite app_assoc. f_equal. clear. induction n as [|n IH]; [reflexivity|]. cbn in *. congruence.
Qed.

(** ** End of contents *)

Lemma eocs_length n : length (eocs n) = (2 * n)%nat.
Proof. induction n as [|n IH]; [reflexivity|]. cbn [eocs length]. lia. Qed.

Lemma seq_eocs_complete n rest : forall consumed, seq_eocs n (eocs n ++ rest) consumed = Some (consumed + 2 * n)%nat.
Proof.
  induction n as [|n IH]; intros consumed; cbn [eocs app seq_eocs]; [f_equal; lia|]. rewrite IH. f_equal. lia.
Qed.

Lemma seq_eocs_sound n : forall bs consumed k, seq_eocs n bs consumed = Some k ->
  k = (consumed + 2 * n)%nat /\ exists rest, bs = eocs n ++ rest.
Proof.
  induction n as [|n IH]; intros bs consumed k E; cbn [seq_eocs] in E.
  - injection E as <-. split; [lia|]. exists bs. reflexivity.
  - destruct bs as [|[| |] [|[| |] bs]]; try discriminate. apply IH in E. destruct E as (-> & rest & ->). split; [lia|]. exists rest. reflexivity.
Qed.

Definition tail_of (left : Z) : list Z := if left <? 0 then eocs (Z.to_nat (- left)) else [].

Lemma seq_end_sound left bs consumed acc n v : seq_end left bs consumed acc = Done n v ->
  exists rest, left <= 0 /\ v = VSeq (rev acc) /\ bs = tail_of left ++ rest /\ n = (consumed + length (tail_of left))%nat.
Proof.
  unfold seq_end, tail_of. destruct (Z.eqb_spec left 0) as [->|Hne].
  - intros E. injection E as <- <-. exists bs. repeat split; cbn; lia.
  - destruct (Z.ltb_spec 0 left); [discriminate|]. destruct (Z.ltb_spec left 0); [|lia].
    destruct (seq_eocs (Z.to_nat (- left)) bs consumed) as [k|] eqn:Es; [|discriminate]. intros E. injection E as <- <-.
    apply seq_eocs_sound in Es. destruct Es as (-> & rest & ->). exists rest. rewrite eocs_length. repeat split; lia.
Qed.

Lemma seq_end_complete left rest consumed acc : left <= 0 ->
  seq_end left (tail_of left ++ rest) consumed acc = Done (consumed + length (tail_of left))%nat (VSeq (rev acc)).
Proof.
  intros H. unfold seq_end, tail_of. destruct (Z.eqb_spec left 0) as [->|Hne]; [cbn; rewrite Nat.add_0_r; reflexivity|].
  destruct (Z.ltb_spec 0 left); [lia|]. destruct (Z.ltb_spec left 0); [|lia]. rewrite seq_eocs_complete, eocs_length. reflexivity.
Qed.

(** All the members that are left are absent. *)
Lemma all_absent t2e edx indef ms : members_ok t2e edx ms = true ->
  (forall m0, nth_error ms 0 = Some m0 -> optional_of m0 = length ms) -> enc_members indef ms [] (repeat None (length ms)).
Proof.
  intros Hok H0. assert (H : forall m, In m ms -> (0 < optional_of m)%nat).
  { intros m Hin. apply In_nth_error in Hin. destruct Hin as (j & Hj). destruct ms as [|m0 ms]; [destruct j; discriminate|].
    specialize (H0 m0 eq_refl). assert (j < length (m0 :: ms))%nat by (apply nth_error_Some; congruence).
    rewrite (optional_run _ _ _ Hok j m m0 eq_refl Hj) by lia. lia. }
  clear H0 Hok. induction ms as [|[mt md op an t] ms IH]; [constructor|]. cbn [length repeat]. constructor.
  - apply (H (Member mt md op an t)). left. reflexivity.
  - apply IH. intros m Hin. apply H. right. assumption.
Qed.

Lemma skip_absent indef n : forall ms mn body vs, nth_error ms n = Some mn -> (forall j mj, nth_error ms j = Some mj -> (j < n)%nat -> (0 < optional_of mj)%nat) ->
  enc_members indef (skipn n ms) body vs -> enc_members indef ms body (repeat None n ++ vs).
Proof.
  induction n as [|n IH]; intros ms mn body vs Hn Hopt H; [assumption|]. destruct ms as [|[mt md op an t] ms]; [discriminate|].
  cbn [repeat app]. constructor.
  - apply (Hopt O _ eq_refl). lia.
  - apply (IH ms mn); [assumption| |assumption]. intros j mj Hj Hlt. apply (Hopt (S j) mj Hj). lia.
Qed.

Lemma skipn_nth {A} : forall n (l : list A) x, nth_error l n = Some x -> skipn n l = x :: skipn (S n) l.
Proof. induction n as [|n IH]; intros [|y l] x H; try discriminate; [injection H as ->; reflexivity|]. cbn [skipn]. apply IH. assumption. Qed.
