(** Proofs of C101. *)
From Coq Require Import ZArith List Bool Lia.
From Verif Require Import Base Manifest Chain ChainSpec.
Import ListNotations.
Open Scope list_scope.
Open Scope Z_scope.

Definition fine (l : list (option Z)) : Prop := forall e, In (Some e) l -> e = 34.
Lemma fine_app a b : fine (a ++ b) <-> fine a /\ fine b.
Proof. unfold fine. split; [intros H; split; intros e I; apply H, in_app_iff; auto|]. intros [A B] e I. apply in_app_iff in I. destruct I; auto. Qed.

Lemma run_spec l : forall e0, (fine l /\ exists e, run_checks l e0 = (1, e)) \/
  (exists l1 x l2, l = l1 ++ Some x :: l2 /\ fine l1 /\ x <> 34 /\ run_checks l e0 = (0, x)).
Proof.
  induction l as [|[x|] l IH]; intros e0; cbn [run_checks].
  - left. split; [intros e []|eauto].
  - unfold cb, V_ERR_UNHANDLED_CRITICAL_EXTENSION. destruct (x =? 34) eqn:X.
    + apply Z.eqb_eq in X. subst x. cbn [Z.eqb]. destruct (IH 34) as [[F R]|(l1&y&l2&->&F&N&R)].
      * left. split; [|exact R]. intros e [Q|I]; [congruence|apply F, I].
      * right. exists (Some 34 :: l1), y, l2. split; [reflexivity|]. split; [|auto]. intros e [Q|I]; [congruence|apply F, I].
    + apply Z.eqb_neq in X. right. exists [], x, l. split; [reflexivity|]. split; [intros e []|auto].
  - destruct (IH e0) as [[F R]|(l1&y&l2&->&F&N&R)].
    + left. split; [|exact R]. intros e [Q|I]; [discriminate Q|apply F, I].
    + right. exists (None :: l1), y, l2. split; [reflexivity|]. split; [|auto]. intros e [Q|I]; [discriminate Q|apply F, I].
Qed.

Lemma fine_cons o l : fine (o :: l) <-> (forall e, o = Some e -> e = 34) /\ fine l.
Proof. unfold fine. split; [intros H; split; [intros e ->; apply H; left; reflexivity|intros e I; apply H; right; exact I]|intros [A B] e [Q|I]; auto]. Qed.
Lemma check_fine b e : e <> 34 -> (forall x, check b e = Some x -> x = 34) <-> b = true.
Proof. intros NE. unfold check. destruct b; split.
  - reflexivity.
  - intros _ x Q. discriminate Q.
  - intros H. specialize (H e eq_refl). congruence.
  - intros Q. discriminate Q.
Qed.

Lemma fresh_iff c t : (match nextUpdate c with Some n => t <? n | None => true end) = true <-> ~ stale_at c t.
Proof.
  unfold stale_at. destruct (nextUpdate c) as [n|].
  - rewrite Z.ltb_lt. split; [intros L (m&Q&M); injection Q as <-; lia|]. intros N. destruct (Z_lt_ge_dec t n); [assumption|]. destruct N. exists n. split; [reflexivity|lia].
  - split; [intros _ (m&Q&_); discriminate Q|auto].
Qed.

Lemma crl_checks_fine t c sn : fine (crl_checks t [c] sn) <->
  issued c = true /\ authentic c = true /\ ~ In sn (revoked c) /\ begun c t /\ ~ stale_at c t.
Proof.
  unfold crl_checks. cbn [find]. destruct (issued c).
  - rewrite !fine_cons, !check_fine by discriminate. rewrite fresh_iff, Z.leb_le.
    assert (X : negb (existsb (Z.eqb sn) (revoked c)) = true <-> ~ In sn (revoked c)).
    { rewrite negb_true_iff, <- not_true_iff_false, existsb_exists. split; [intros N I; apply N; exists sn; split; [exact I|apply Z.eqb_refl]|].
      intros N (x&I&Q). apply Z.eqb_eq in Q. subst x. auto. }
    rewrite X. unfold begun. assert (F : fine []) by (intros e []). tauto.
  - rewrite fine_cons. split; [intros [H _]; specialize (H _ eq_refl); discriminate H|intros (Q&_); discriminate Q].
Qed.

Lemma path_fine_iff s : path_fine s <-> fine (path_extensions s) /\ fine (path_signatures s).
Proof. unfold path_fine, fine. split; [intros H; split; intros e I; apply H; auto|intros [A B] e [I|I]; auto]. Qed.

(** libcrypto's verdict with one CRL. *)
Lemma verify_iff t s c : 0 < fst (X509_verify_cert t s [c]) <-> path_fine s /\ not_revoked c s /\ begun c t /\ ~ stale_at c t.
Proof.
  unfold X509_verify_cert. rewrite path_fine_iff. unfold not_revoked. pose proof (crl_checks_fine t c (serial s)) as CF.
  destruct (run_spec (path_extensions s ++ crl_checks t [c] (serial s) ++ path_signatures s) 0) as [[F [e R]]|(l1&x&l2&Q&F&N&R)]; rewrite R; cbn [fst].
  - rewrite !fine_app in F. split; [tauto|lia].
  - split; [lia|]. intros ((A&B)&C&D&E). exfalso. apply N.
    assert (FA : fine (path_extensions s ++ crl_checks t [c] (serial s) ++ path_signatures s)) by (rewrite !fine_app; tauto).
    apply FA. rewrite Q. apply in_app_iff. right. left. reflexivity.
Qed.
Lemma verify_none t s : fst (X509_verify_cert t s []) = 0.
Proof.
  unfold X509_verify_cert. destruct (run_spec (path_extensions s ++ crl_checks t [] (serial s) ++ path_signatures s) 0) as [[F _]|(l1&x&l2&Q&F&N&R)].
  - rewrite !fine_app in F. destruct F as (_&F&_). exfalso. specialize (F 3 (or_introl eq_refl)). discriminate F.
  - rewrite R. reflexivity.
Qed.
Lemma verify_01 t s l : fst (X509_verify_cert t s l) = 0 \/ fst (X509_verify_cert t s l) = 1.
Proof. unfold X509_verify_cert. match goal with |- context [run_checks ?l 0] => destruct (run_spec l 0) as [[_ [e R]]|(?&?&?&_&_&_&R)] end; rewrite R; auto. Qed.

(** The first check that fails is the CRL's nextUpdate, if the path is fine. *)
Lemma expired_iff t s c : path_fine s -> (X509_verify_cert t s [c] = (0, V_ERR_CRL_HAS_EXPIRED) <-> issued c = true /\ begun c t /\ stale_at c t).
Proof.
  intros P. apply path_fine_iff in P. destruct P as [PE PS]. unfold X509_verify_cert.
  assert (G : forall l e0, fine l -> exists e1, forall m, run_checks (l ++ m) e0 = run_checks m e1).
  { clear. induction l as [|[x|] l IH]; intros e0 F; cbn [app run_checks].
    - exists e0. reflexivity.
    - apply fine_cons in F. destruct F as [X F]. rewrite (X x eq_refl). unfold cb. cbn [Z.eqb]. apply IH, F.
    - apply fine_cons in F. apply IH, F. }
  destruct (G (path_extensions s) 0 PE) as (e1&E1). rewrite E1. clear E1.
  destruct (crl_checks t [c] (serial s)) as [|o l] eqn:CC; [unfold crl_checks in CC; destruct (find issued [c]); discriminate CC|].
  unfold crl_checks in CC. cbn [find] in CC. destruct (issued c); [|injection CC as <- <-; cbn; split; [discriminate|intros (?&_); discriminate]].
  injection CC as <- <-. unfold begun. destruct (lastUpdate c <=? t) eqn:LU.
  - apply Z.leb_le in LU. cbn [check app run_checks]. destruct (match nextUpdate c with Some n => t <? n | None => true end) eqn:NU.
    + apply fresh_iff in NU. split; [|tauto]. intros R. exfalso. clear G.
      destruct (authentic c); cbn [check run_checks] in R; [|discriminate R].
      destruct (negb (existsb (Z.eqb (serial s)) (revoked c))); cbn [check run_checks] in R; [|discriminate R].
      destruct (run_spec (path_signatures s) e1) as [[_ [e R']]|(l1&x&l2&Q&_&N&_)]; [rewrite R' in R; discriminate R|].
      apply N, PS. rewrite Q. apply in_app_iff. right. left. reflexivity.
    + cbn [check run_checks cb Z.eqb]. split; [|reflexivity]. intros _. split; [reflexivity|]. split; [exact LU|].
      unfold stale_at. destruct (nextUpdate c) as [n|]; [|discriminate NU]. exists n. split; [reflexivity|]. apply Z.ltb_ge in NU. exact NU.
  - apply Z.leb_gt in LU. cbn. split; [discriminate|lia].
Qed.
