From Verif Require Import Base.

Ltac Zify.zify_post_hook ::= Z.div_mod_to_equations.

Lemma wrap32_range x : is_u32 (wrap32 x).
Proof. unfold wrap32, is_u32. lia. Qed.

Lemma wrap32_id x : is_u32 x -> wrap32 x = x.
Proof. unfold wrap32, is_u32. intros H. apply Z.mod_small; lia. Qed.

Lemma list_eqb_spec {A} (eqb : A -> A -> bool)
  (H : forall x y, eqb x y = true <-> x = y) l1 l2 :
  list_eqb eqb l1 l2 = true <-> l1 = l2.
Proof.
  revert l2; induction l1 as [|x xs IH]; destruct l2 as [|y ys]; cbn;
    try (split; congruence).
  rewrite andb_true_iff, H, IH. split.
  - intros [-> ->]; reflexivity.
  - intros E; inversion E; auto.
Qed.

Lemma upd_length {A} (l : list A) n a : length (upd l n a) = length l.
Proof. revert n; induction l as [|x t IH]; destruct n; cbn; auto. Qed.

Lemma upd_same {A} (l : list A) n a :
  (n < length l)%nat -> nth_error (upd l n a) n = Some a.
Proof.
  revert n; induction l as [|x t IH]; destruct n; cbn; intros H; try lia; auto.
  apply IH; lia.
Qed.

Lemma upd_other {A} (l : list A) n m a :
  n <> m -> nth_error (upd l n a) m = nth_error l m.
Proof.
  revert n m; induction l as [|x t IH]; destruct n, m; cbn; intros H; auto;
    congruence.
Qed.

Lemma NoDup_filter {A} (f : A -> bool) l : NoDup l -> NoDup (filter f l).
Proof.
  induction 1 as [|x l Hx Hl IH]; cbn; [constructor|].
  destruct (f x); auto. constructor; auto.
  rewrite filter_In. tauto.
Qed.

Lemma NoDup_app_intro {A} (l1 l2 : list A) :
  NoDup l1 -> NoDup l2 -> (forall x, In x l1 -> In x l2 -> False) ->
  NoDup (l1 ++ l2).
Proof.
  induction 1 as [|x l Hx Hl IH]; cbn; intros H2 Hd; auto.
  constructor.
  - rewrite in_app_iff. intros [H|H]; [auto|]. eapply Hd; eauto.
  - apply IH; auto. intros y Hy Hy2. eapply Hd; eauto.
Qed.

Lemma Z_eqb_spec_iff x y : (x =? y)%Z = true <-> x = y.
Proof. apply Z.eqb_eq. Qed.

Lemma in_rev_iff {A} (l : list A) x : In x (rev l) <-> In x l.
Proof. symmetry. apply in_rev. Qed.
