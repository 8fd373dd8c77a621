(** What stdio gives of a file (C100). *)
From Coq Require Import ZArith List Bool Lia.
From Verif Require Import Base BaseLemmas Manifest FileIO FileIOSpec.
Import ListNotations.
Open Scope list_scope.
Open Scope Z_scope.

(** Everything that the first [k] reads got. *)
Fixpoint got (kernel : answers) (k : nat) : list Z :=
  match k with O => [] | S k => got kernel k ++ match kernel k with inl _ => [] | inr b => b end end.
(** The k-th read got something. *)
Definition gets (kernel : answers) (k : nat) : Prop := exists x b, kernel k = inr (x :: b).

Section Kernel.
  Variable kernel : answers.

  Lemma got_length k : length (got kernel k) = position kernel k.
  Proof. induction k; cbn [got position]; [reflexivity|]. rewrite app_length, IHk. destruct (kernel k); reflexivity. Qed.

  Lemma fill_inv turns : forall n f d, d ++ pending f = got kernel (reads f) ->
    d ++ pending (fill kernel turns n f) = got kernel (reads (fill kernel turns n f)).
  Proof.
    induction turns; intros n f d H; cbn [fill]; destruct (n <=? length (pending f))%nat; auto.
    destruct (kernel (reads f)) as [e|[|x b]] eqn:K; cbn [pending reads].
    - cbn [got]. rewrite K, app_nil_r. exact H.
    - cbn [got]. rewrite K, app_nil_r. exact H.
    - apply IHturns. cbn [pending reads got]. rewrite K, app_assoc, H. reflexivity.
  Qed.

  Definition stopped (n : nat) (f f' : stream) : Prop :=
    exists k, reads f' = S k /\ (reads f <= k)%nat /\ (length (pending f') < n)%nat /\
      (forall j, (reads f <= j < k)%nat -> gets kernel j) /\
      match kernel k with
      | inl _ => in_error f' = true /\ at_eof f' = false
      | inr [] => in_error f' = false /\ at_eof f' = true
      | _ => False
      end.
  Definition full (n : nat) (f f' : stream) : Prop :=
    (n <= length (pending f'))%nat /\ in_error f' = false /\ at_eof f' = false /\ (reads f <= reads f')%nat /\
    forall j, (reads f <= j < reads f')%nat -> gets kernel j.

  Lemma fill_spec turns : forall n f, (n - length (pending f) <= turns)%nat -> in_error f = false -> at_eof f = false ->
    full n f (fill kernel turns n f) \/ stopped n f (fill kernel turns n f).
  Proof.
    induction turns; intros n f T E O; cbn [fill]; destruct (n <=? length (pending f))%nat eqn:L.
    - left. apply Nat.leb_le in L. repeat split; auto. intros; lia.
    - apply Nat.leb_gt in L. lia.
    - left. apply Nat.leb_le in L. repeat split; auto. intros; lia.
    - apply Nat.leb_gt in L. destruct (kernel (reads f)) as [e|[|x b]] eqn:K.
      + right. exists (reads f). cbn [reads pending in_error at_eof]. rewrite K. repeat split; auto. intros; lia.
      + right. exists (reads f). cbn [reads pending in_error at_eof]. rewrite K. repeat split; auto. intros; lia.
      + match goal with |- context [fill _ _ _ ?g] => specialize (IHturns n g) end. cbn [pending in_error at_eof reads] in IHturns.
        rewrite app_length in IHturns. cbn [length] in IHturns. specialize (IHturns ltac:(lia) E O).
        destruct IHturns as [(A1&A2&A3&A4&A5)|(k&B1&B2&B3&B4&B5)]; cbn [reads pending in_error at_eof] in *.
        * left. repeat split; auto; [lia|]. intros j J. destruct (Nat.eq_dec j (reads f)) as [->|N]; [exists x, b; exact K|apply A5; cbn [reads]; lia].
        * right. exists k. repeat split; auto; [lia|]. intros j J. destruct (Nat.eq_dec j (reads f)) as [->|N]; [exists x, b; exact K|apply B4; cbn [reads]; lia].
  Qed.

  (** What stops a reader of the whole file. *)
  Definition ends (K : nat) : Prop := (forall k, (k < K)%nat -> gets kernel k) /\ kernel K = inr [].
  Definition fails (K : nat) : Prop := (forall k, (k < K)%nat -> gets kernel k) /\ exists e, kernel K = inl e.

  Lemma not_both K k : ends K \/ fails K -> (forall j, (j < k)%nat -> gets kernel j) -> (k <= K)%nat.
  Proof.
    intros H A. destruct (le_lt_dec k K) as [|L]; auto. destruct (A K L) as (x&b&Q).
    destruct H as [[_ E]|[_ [e E]]]; congruence.
  Qed.

  (** A file whose content is [c]'s as far as it's read. *)
  Lemma firstn_plus {A} (a b : nat) (l : list A) : firstn (a + b) l = firstn a l ++ firstn b (skipn a l).
  Proof.
    revert l. induction a; intros l; [reflexivity|]. destruct l as [|x l]; cbn [Nat.add firstn skipn app].
    - rewrite firstn_nil. reflexivity.
    - rewrite IHa. reflexivity.
  Qed.
  Lemma got_prefix f c n k : reads_from f kernel -> (forall j, firstn n (f j) = c) -> length c = n ->
    firstn n (got kernel k) = firstn (length (firstn n (got kernel k))) c.
  Proof.
    intros R S L. induction k; cbn [got].
    - rewrite firstn_nil. reflexivity.
    - pose proof (R k) as Rk. destruct (kernel k) as [e|b]; [rewrite app_nil_r; exact IHk|]. destruct Rk as [B _].
      rewrite firstn_app. rewrite IHk at 1. rewrite app_length.
      rewrite got_length. set (p := position kernel k) in *.
      destruct (le_lt_dec n p) as [G|G].
      + replace (n - p)%nat with O by lia. cbn [firstn length]. rewrite app_nil_r, Nat.add_0_r. reflexivity.
      + assert (LG : length (firstn n (got kernel k)) = p) by (rewrite firstn_length, got_length; fold p; lia). rewrite LG.
        rewrite firstn_plus. f_equal.
        rewrite <- (S k), skipn_firstn_comm.
        rewrite firstn_firstn. rewrite B at 1. rewrite firstn_firstn. rewrite firstn_length.
        f_equal. lia.
  Qed.
  Lemma got_mixture f k : reads_from f kernel -> mixture f (got kernel k).
  Proof.
    intros R. induction k; intros i x H; cbn [got] in H; [destruct i; discriminate H|].
    destruct (le_lt_dec (length (got kernel k)) i) as [G|G].
    - rewrite nth_error_app2 in H by exact G. pose proof (R k) as Rk. destruct (kernel k) as [e|b]; [destruct (i - length (got kernel k))%nat; discriminate H|].
      destruct Rk as [B _]. exists k. rewrite got_length in *. rewrite B in H.
      set (p := position kernel k) in *. clearbody p. clear -H G.
      assert (X : forall (l : list Z) m j y, nth_error (firstn m l) j = Some y -> nth_error l j = Some y).
      { intros l. induction l as [|z l IH]; intros [|m] [|j] y Q; cbn in *; try discriminate; eauto. }
      apply X in H. clear X b.
      replace i with (p + (i - p))%nat by lia. revert H. generalize (i - p)%nat as q. clear. generalize (f k). intros l.
      revert l; induction p; intros l q H; [exact H|]. destruct l as [|z l]; cbn in *; [destruct q; discriminate H|eauto].
    - rewrite nth_error_app1 in H by exact G. apply IHk. exact H.
  Qed.
End Kernel.

Lemma firstn_incl_mixture f l n : mixture f l -> mixture f (firstn n l).
Proof.
  intros M i b H. apply M. revert H. clear. revert n l. induction i; intros [|n] [|x l] H; cbn in *; try discriminate; eauto.
Qed.

(** fread() of a stream, and all that was delivered before. *)
Lemma fread_spec kernel n f d : in_error f = false -> at_eof f = false -> d ++ pending f = got kernel (reads f) ->
  (forall k, (k < reads f)%nat -> gets kernel k) ->
  let '(b, f') := fread kernel n f in
  (length b = n /\ in_error f' = false /\ at_eof f' = false /\ (d ++ b) ++ pending f' = got kernel (reads f') /\
   (forall k, (k < reads f')%nat -> gets kernel k)) \/
  ((length b < n)%nat /\ exists K, d ++ b = got kernel K /\
     ((ends kernel K /\ in_error f' = false /\ at_eof f' = true) \/ (fails kernel K /\ in_error f' = true /\ at_eof f' = false))).
Proof.
  intros E O I A. unfold fread. cbn [in_error at_eof pending reads].
  pose proof (fill_inv kernel n n f d I) as I'.
  pose proof (fill_spec kernel n n f ltac:(lia) E O) as S. revert I' S. generalize (fill kernel n n f) as f'.
  intros f' I' [(L&E'&O'&R&G)|(k&R&LE&L&G&M)].
  - left. rewrite firstn_length, E', O'. split; [lia|]. split; [reflexivity|]. split; [reflexivity|]. split.
    + rewrite <- app_assoc, firstn_skipn. exact I'.
    + intros k K. destruct (le_lt_dec (reads f) k); [apply G|apply A]; lia.
  - right. assert (Q : firstn n (pending f') = pending f') by (apply firstn_all2; lia). rewrite Q. split; [exact L|].
    exists k. rewrite R in I'. cbn [got] in I'.
    assert (X : forall j, (j < k)%nat -> gets kernel j).
    { intros j J. destruct (le_lt_dec (reads f) j); [apply G|apply A]; lia. }
    destruct (kernel k) as [e|[|x b]] eqn:KE; [| |destruct M]; destruct M as [M1 M2].
    + split; [rewrite app_nil_r in I'; exact I'|]. right. split; [split; [exact X|eauto]|]. auto.
    + split; [rewrite app_nil_r in I'; exact I'|]. left. split; [split; assumption|]. auto.
Qed.

(** ** Hashing *)

Section Hash.
  Variables (ferror : Z) (e : evp) (blk : nat) (kernel : answers).
  Hypothesis fe : ferror <> 0.

  Lemma hash_sound fuel : forall turn ctx f r, in_error f = false -> at_eof f = false -> ctx ++ pending f = got kernel (reads f) ->
    (forall k, (k < reads f)%nat -> gets kernel k) ->
    hash_loop ferror e blk kernel fuel turn ctx f = Some r ->
    (exists K, ends kernel K /\ r = (0, got kernel K)) \/ (exists K c, fails kernel K /\ r = (ferror, c)) \/
    (exists t c, update_works e t = false /\ r = (- c_EINVAL, c)).
  Proof.
    induction fuel; intros turn ctx f r E O I A H; cbn [hash_loop] in H; [discriminate H|].
    pose proof (fread_spec kernel blk f ctx E O I A) as S. destruct (fread kernel blk f) as [b f'].
    destruct S as [(L&E'&O'&I'&A')|(L&K&G&[(EN&E'&O')|(FA&E'&O')])]; rewrite E' in H.
    - cbn [Z.eqb negb] in H. destruct (update_works e turn) eqn:U; cbn [negb] in H.
      + rewrite O' in H. eapply IHfuel; eauto.
      + right; right. injection H as <-. eauto.
    - cbn [Z.eqb negb] in H. destruct (update_works e turn) eqn:U; cbn [negb] in H.
      + rewrite O' in H. injection H as <-. left. exists K. rewrite G. auto.
      + right; right. injection H as <-. eauto.
    - replace (ferror =? 0) with false in H by (symmetry; apply Z.eqb_neq; exact fe). cbn [negb] in H. injection H as <-. right; left. eauto.
  Qed.

  Lemma hash_returns K : (0 < blk)%nat -> (forall t, update_works e t = true) -> ends kernel K \/ fails kernel K ->
    forall fuel turn ctx f, (length (got kernel K) - length ctx < fuel)%nat -> (length ctx <= length (got kernel K))%nat ->
    in_error f = false -> at_eof f = false -> ctx ++ pending f = got kernel (reads f) ->
    (forall k, (k < reads f)%nat -> gets kernel k) ->
    exists r, hash_loop ferror e blk kernel fuel turn ctx f = Some r.
  Proof.
    intros B U EF. induction fuel; intros turn ctx f F LC E O I A; [lia|]. cbn [hash_loop].
    pose proof (fread_spec kernel blk f ctx E O I A) as S. destruct (fread kernel blk f) as [b f'].
    destruct S as [(L&E'&O'&I'&A')|(L&K'&G&[(EN&E'&O')|(FA&E'&O')])]; rewrite E'.
    - cbn [Z.eqb negb]. rewrite U, O'. cbn [negb].
      assert (RK : (reads f' <= K)%nat) by (eapply not_both; eauto).
      assert (LE : (length (ctx ++ b) <= length (got kernel K))%nat).
      { apply Nat.le_trans with (length (got kernel (reads f'))); [rewrite <- I', (app_length (ctx ++ b)); lia|].
        clear -RK. induction RK; [lia|]. cbn [got]. rewrite app_length. lia. }
      rewrite app_length in LE. apply IHfuel; auto; rewrite app_length; lia.
    - cbn [Z.eqb negb]. rewrite U, O'. cbn [negb]. eauto.
    - replace (ferror =? 0) with false by (symmetry; apply Z.eqb_neq; exact fe). cbn [negb]. eauto.
  Qed.

  Lemma hash_endless : (forall k, gets kernel k) -> (forall t, update_works e t = true) ->
    forall fuel turn ctx f, in_error f = false -> at_eof f = false -> ctx ++ pending f = got kernel (reads f) ->
    hash_loop ferror e blk kernel fuel turn ctx f = None.
  Proof.
    intros G U. induction fuel; intros turn ctx f E O I; cbn [hash_loop]; [reflexivity|].
    pose proof (fread_spec kernel blk f ctx E O I (fun k _ => G k)) as S. destruct (fread kernel blk f) as [b f'].
    destruct S as [(L&E'&O'&I'&A')|(L&K'&_&[([_ EN]&E'&O')|([_ [x FA]]&E'&O')])]; rewrite E'.
    - cbn [Z.eqb negb]. rewrite U, O'. cbn [negb]. apply IHfuel; auto.
    - destruct (G K') as (y&c&Q). congruence.
    - destruct (G K') as (y&c&Q). congruence.
  Qed.
End Hash.

Lemma matches_iff a b : hash_matches a b = true <-> a = b.
Proof.
  unfold hash_matches. rewrite andb_true_iff, Nat.eqb_eq. rewrite (list_eqb_spec Z.eqb Z.eqb_eq). split; [tauto|intros ->; auto].
Qed.
