From Verif Require Import Base VrpsLock VrpsLockSpec VrpsLockProofs.
Notation length := List.length.

Lemma set_r_same s t p : r (set_r s t p) t = p.
Proof. unfold set_r. cbn. now rewrite Nat.eqb_refl. Qed.
Lemma set_r_other s t p u : u <> t -> r (set_r s t p) u = r s u.
Proof. intros H. unfold set_r. cbn. destruct (Nat.eqb_spec u t); congruence. Qed.

(** What only one thread's steps change. *)
Definition only (t : nat) (s s' : state) : Prop :=
  base s' = base s /\ serial s' = serial s /\ deltas s' = deltas s /\ w s' = w s /\ c s' = c s /\ next s' = next s /\ freed s' = freed s /\ published s' = published s /\ forall u, u <> t -> r s' u = r s u.
Lemma only_refl t s : only t s s.
Proof. unfold only. repeat split; auto. Qed.
Lemma only_trans t s s' s'' : only t s s' -> only t s' s'' -> only t s s''.
Proof.
  intros (A1 & A2 & A3 & A4 & A5 & A6 & A7 & A8 & A9) (B1 & B2 & B3 & B4 & B5 & B6 & B7 & B8 & B9). unfold only.
  repeat (split; [congruence|]). intros u Hu. rewrite B9, A9 by exact Hu. reflexivity.
Qed.
Lemma rstep_only t s s' : rstep t s s' -> only t s s'.
Proof. intros H. inversion H; subst; unfold only; repeat split; auto; intros u Hu; try (apply set_r_other; exact Hu); (etransitivity; [apply set_r_other; exact Hu|reflexivity]). Qed.
Lemma runs_of_only t s s' : runs_of t s s' -> only t s s'.
Proof. induction 1; [apply only_refl|]. eapply only_trans; [eassumption|]. now apply rstep_only. Qed.
Lemma runs_of_trans t s s' s'' : runs_of t s s' -> runs_of t s' s'' -> runs_of t s s''.
Proof. intros A B. revert A. induction B; intros A; [exact A|]. econstructor; [apply IHB; exact A|eassumption]. Qed.
Lemma runs_of_front t s s' s'' : rstep t s s' -> runs_of t s' s'' -> runs_of t s s''.
Proof. intros A B. eapply runs_of_trans; [econstructor; [constructor|exact A]|exact B]. Qed.
Lemma runs_of_runs cap t s s' : runs_of t s s' -> runs cap s s'.
Proof. induction 1; [constructor|]. econstructor; [eassumption|]. econstructor; eassumption. Qed.
Lemma runs_trans cap s s' s'' : runs cap s s' -> runs cap s' s'' -> runs cap s s''.
Proof. intros A B. revert A. induction B; intros A; [exact A|]. econstructor; [apply IHB; exact A|eassumption]. Qed.
Lemma runs_reachable cap s s' : reachable cap s -> runs cap s s' -> reachable cap s'.
Proof. intros R A. induction A as [s|s s' s'' A IH B]; [exact R|]. exact (r_step _ _ _ (IH R) B). Qed.

Lemma table_finishes t b n : forall s, r s t = R_table b n -> c s t <> Stalled -> exists s', runs_of t s s' /\ r s' t = R_idle.
Proof.
  induction n; intros s Hr Hc.
  - eexists. split; [eapply runs_of_front; [apply r_table_end; exact Hr|constructor]|]. apply set_r_same.
  - destruct (c s t) eqn:Ec; [| congruence|].
    + destruct (IHn (set_r (set_r s t (R_table_send b n)) t (R_table b n))) as (s' & A & B); [apply set_r_same|cbn; congruence|].
      exists s'. split; [|exact B]. eapply runs_of_front; [apply r_next; exact Hr|]. eapply runs_of_front; [apply r_sent; [apply set_r_same|exact Ec]|exact A].
    + eexists. split; [eapply runs_of_front; [apply r_next; exact Hr|]; eapply runs_of_front; [eapply r_gone; [apply set_r_same|exact Ec]|constructor]|]. apply set_r_same.
Qed.
Lemma deltas_finish t ds n : forall s, r s t = R_deltas_send ds n -> c s t <> Stalled -> exists s', runs_of t s s' /\ r s' t = R_idle.
Proof.
  induction n; intros s Hr Hc.
  - eexists. split; [eapply runs_of_front; [apply r_deltas_end; exact Hr|constructor]|]. apply set_r_same.
  - destruct (IHn (set_r s t (R_deltas_send ds n))) as (s' & A & B); [apply set_r_same|exact Hc|].
    exists s'. split; [|exact B]. eapply runs_of_front; [|exact A]. destruct (c s t) eqn:Ec; [now apply r_delta_sent|congruence|now apply r_delta_gone].
Qed.
Lemma reader_finishes t s : reading (r s t) = true -> c s t <> Stalled -> exists s', runs_of t s s' /\ r s' t = R_idle.
Proof.
  intros Hr Hc. destruct (r s t) as [|q|q|b n|b n|ds n|ds n] eqn:Er; try discriminate.
  - destruct (base s) as [b|] eqn:Eb.
    + destruct q.
      * eexists. split; [eapply runs_of_front; [apply (r_table t s b 0); eassumption|]; eapply runs_of_front; [apply r_table_end; apply set_r_same|constructor]|]. apply set_r_same.
      * eexists. split; [eapply runs_of_front; [eapply r_not_in_deltas; eassumption|constructor]|]. apply set_r_same.
      * eexists. split; [eapply runs_of_front; [eapply r_serial; eassumption|constructor]|]. apply set_r_same.
    + eexists. split; [eapply runs_of_front; [eapply r_no_data; eassumption|constructor]|]. apply set_r_same.
  - eapply table_finishes; eassumption.
  - destruct (c s t) eqn:Ec; [|congruence|].
    + destruct (table_finishes t b n (set_r s t (R_table b n))) as (s' & A & B); [apply set_r_same|cbn; congruence|].
      exists s'. split; [|exact B]. eapply runs_of_front; [apply r_sent; eassumption|exact A].
    + eexists. split; [eapply runs_of_front; [eapply r_gone; eassumption|constructor]|]. apply set_r_same.
  - destruct (deltas_finish t ds n (set_r s t (R_deltas_send ds n))) as (s' & A & B); [apply set_r_same|exact Hc|].
    exists s'. split; [|exact B]. eapply runs_of_front; [apply r_copied; eassumption|exact A].
  - eapply deltas_finish; eassumption.
Qed.

(** All the threads that have the lock leave it. *)
Lemma all_finish cap l : forall s, (forall t, reading (r s t) = true -> In t l) -> (forall t, c s t <> Stalled) ->
  exists s', runs cap s s' /\ (forall t, reading (r s' t) = false) /\ w s' = w s /\ published s' = published s /\ c s' = c s.
Proof.
  induction l as [|t l IH]; intros s Hl Hc.
  - exists s. split; [constructor|]. split; [|auto]. intros t. destruct (reading (r s t)) eqn:E; [destruct (Hl t E)|reflexivity].
  - assert (X : exists s1, runs cap s s1 /\ only t s s1 /\ reading (r s1 t) = false).
    { destruct (reading (r s t)) eqn:E.
      - destruct (reader_finishes t s E (Hc t)) as (s1 & A & B). exists s1. split; [eapply runs_of_runs; exact A|split; [now apply runs_of_only|]]. now rewrite B.
      - exists s. split; [constructor|split; [apply only_refl|exact E]]. }
    destruct X as (s1 & A & (_ & _ & _ & B4 & B5 & _ & _ & B8 & B9) & C).
    destruct (IH s1) as (s2 & D1 & D2 & D3 & D4 & D5).
    + intros u Hu. destruct (Nat.eq_dec u t) as [->|Hn]; [congruence|]. rewrite B9 in Hu by exact Hn. destruct (Hl u Hu); [congruence|assumption].
    + intros u. rewrite B5. apply Hc.
    + exists s2. split; [exact (runs_trans _ _ _ _ A D1)|split; [exact D2|]]. repeat split; congruence.
Qed.

Lemma writer_finishes cap s old new d : w s = W_in old new d ->
  exists s' ds, runs cap s s' /\ published s' = (wrap32 (serial s + 1), new, ds) :: published s /\ base s' = Some new /\ serial s' = wrap32 (serial s + 1) /\ writing (w s') = false /\ r s' = r s /\ c s' = c s.
Proof.
  intros H. destruct d as [d|].
  - destruct (darray_add cap (deltas s) d) as [l x] eqn:Ed.
    eexists; exists l. split; [|split; [|split; [|split; [|split; [|split]]]]].
    + eapply runs_step; [eapply runs_step; [eapply runs_step; [eapply runs_step; [apply runs_refl|]|]|]|].
      * apply updater. apply w_base. exact H.
      * apply updater. apply w_serial. reflexivity.
      * apply updater. eapply w_deltas; [reflexivity|]. exact Ed.
      * apply updater. apply w_unlock. reflexivity.
    + reflexivity.
    + reflexivity.
    + reflexivity.
    + reflexivity.
    + reflexivity.
    + reflexivity.
  - eexists; exists (deltas s). split; [|split; [|split; [|split; [|split; [|split]]]]].
    + eapply runs_step; [eapply runs_step; [eapply runs_step; [eapply runs_step; [apply runs_refl|]|]|]|].
      * apply updater. apply w_base. exact H.
      * apply updater. apply w_serial. reflexivity.
      * apply updater. apply w_no_deltas. reflexivity.
      * apply updater. apply w_unlock. reflexivity.
    + reflexivity.
    + reflexivity.
    + reflexivity.
    + reflexivity.
    + reflexivity.
    + reflexivity.
Qed.

(** Only the updater, until it doesn't have the lock. *)
Lemma writer_leaves cap s : writing (w s) = true -> exists s', runs cap s s' /\ writing (w s') = false /\ r s' = r s /\ c s' = c s.
Proof.
  assert (A : forall s old, w s = W_in_all old -> exists s', runs cap s s' /\ writing (w s') = false /\ r s' = r s /\ c s' = c s).
  { intros x old H. eexists. split; [eapply runs_step; [apply runs_refl|apply updater; apply w_unlock; exact H]|]. repeat split. }
  assert (B : forall s old d, w s = W_in_serial old d -> exists s', runs cap s s' /\ writing (w s') = false /\ r s' = r s /\ c s' = c s).
  { intros x old d H. destruct d as [d|].
    - destruct (darray_add cap (deltas x) d) as [l f] eqn:Ed. destruct (A (set_w (free (set_data x (base x) (serial x) l) f) (W_in_all old)) old eq_refl) as (s' & R & P).
      exists s'. split; [|exact P]. eapply runs_trans; [|exact R]. eapply runs_step; [apply runs_refl|apply updater; eapply w_deltas; eassumption].
    - destruct (A (set_w x (W_in_all old)) old eq_refl) as (s' & R & P).
      exists s'. split; [|exact P]. eapply runs_trans; [|exact R]. eapply runs_step; [apply runs_refl|apply updater; eapply w_no_deltas; eassumption]. }
  intros H. destruct (w s) as [|old|old new|old new|old new d|old new d|old d|old d|old|old| |] eqn:E; try discriminate.
  - destruct (writer_finishes cap s old new d E) as (s' & ds & R & _ & _ & _ & P). exists s'. auto.
  - destruct (B (set_w (set_data s (base s) (wrap32 (serial s + 1)) (deltas s)) (W_in_serial old d)) old d eq_refl) as (s' & R & P).
    exists s'. split; [|exact P]. eapply runs_trans; [|exact R]. eapply runs_step; [apply runs_refl|apply updater; eapply w_serial; eassumption].
  - exact (B s old d E).
  - exact (A s old E).
Qed.

(** What somebody sees. *)
Lemma answered cap s s' a : (0 < cap)%nat -> inv cap s -> step cap s s' -> answers s' = a :: answers s -> exists e l, published s = e :: l /\ seen_in e a.
Proof.
  intros Hcap I Hs. assert (N : forall l : list seen, l <> a :: l) by (induction l; congruence).
  assert (X : forall t, reading (r s t) = true -> last_is s (current s)) by (intros t; apply (reader_current cap); exact I).
  assert (Y : forall b, base s = Some b -> last_is s (current s) -> exists l, published s = (serial s, b, deltas s) :: l).
  { intros b Eb. unfold last_is, current. rewrite Eb. destruct (published s); cbn; [discriminate|]. intros E. injection E as ->. eauto. }
  destruct I as [M O D R Hh Hl].
  intros E. destruct Hs as [s s' Hw|t s s' Hr|t x s].
  - inversion Hw; subst; cbn in E; try (exfalso; exact (N _ E)).
    destruct (base s) as [b|] eqn:Eb; [|exfalso; exact (N _ E)]. cbn in E. injection E as <-.
    unfold data_is in D. rewrite H in D. destruct (Y b eq_refl (proj1 D)) as (l & ->). exists (serial s, b, deltas s), l. repeat split.
  - specialize (X t). specialize (R t). inversion Hr; subst; cbn in E; try (exfalso; exact (N _ E)); injection E as <-; rewrite H in *; specialize (X eq_refl); destruct (R eq_refl) as [_ R2].
    + destruct (Y b R2 X) as (l & ->). exists (serial s, b, deltas s), l. repeat split.
    + destruct R2 as ((b & Eb) & k & ->). destruct (Y b Eb X) as (l & ->). exists (serial s, b, deltas s), l. split; [reflexivity|]. split; [reflexivity|]. exists (firstn k (deltas s)). now rewrite firstn_skipn.
    + destruct (Y b H0 X) as (l & ->). exists (serial s, b, deltas s), l. repeat split.
  - exfalso. exact (N _ E).
Qed.
Lemma published_grows cap s s' : step cap s s' -> exists l, published s' = l ++ published s.
Proof.
  intros Hs. destruct Hs as [s s' Hw|t s s' Hr|t x s]; [inversion Hw; subst|inversion Hr; subst|]; try (exists []; reflexivity).
  - eexists. reflexivity.
  - exists []. cbn. destruct (base s); reflexivity.
Qed.
Lemma answers_grow cap s s' : step cap s s' -> answers s' = answers s \/ exists a, answers s' = a :: answers s.
Proof.
  intros Hs. destruct Hs as [s s' Hw|t s s' Hr|t x s]; [inversion Hw; subst|inversion Hr; subst|]; cbn; eauto.
  destruct (base s); cbn; eauto.
Qed.

(** A client that doesn't read. *)
Lemma stuck cap t s old new d : sending (r s t) -> c s t = Stalled -> w s = W_want old new d ->
  forall s', runs_without cap t s s' -> base s' = base s /\ serial s' = serial s /\ deltas s' = deltas s /\ w s' = w s /\ r s' t = r s t /\ c s' t = Stalled /\ published s' = published s.
Proof.
  intros Hr Hc Hw s' A. induction A as [s|s s' s'' A IH B Ec]; [auto 10|].
  specialize (IH Hr Hc Hw). destruct IH as (I1 & I2 & I3 & I4 & I5 & I6 & I7).
  rewrite Ec, <- I1, <- I2, <- I3, <- I4, <- I5, <- I7. clear Ec.
  destruct B as [s' s'' B|u s' s'' B|u x s'].
  - exfalso. inversion B; subst; try congruence.
    specialize (H0 t). rewrite I5 in H0. destruct (r s t) as [|q|q|b n|b n|ds n|ds n]; try contradiction; discriminate.
  - assert (u <> t).
    { intros ->. rewrite <- I5 in Hr. inversion B; subst; rewrite H in Hr; try contradiction; congruence. }
    destruct (rstep_only _ _ _ B) as (B1 & B2 & B3 & B4 & B5 & B6 & B7 & B8 & B9). rewrite B9 by congruence. auto 10.
  - auto 10.
Qed.
