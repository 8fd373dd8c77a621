From Verif Require Import Base VrpsLock VrpsLockSpec.
From Coq Require Import Permutation.
Notation length := List.length.

Definition cnt (i : nat) (l : list nat) : nat := count_occ Nat.eq_dec l i.
Lemma cnt_app i a b : cnt i (a ++ b) = (cnt i a + cnt i b)%nat.
Proof. apply count_occ_app. Qed.
Lemma cnt_cons i x b : cnt i (x :: b) = (cnt i [x] + cnt i b)%nat.
Proof. change (x :: b) with ([x] ++ b). apply cnt_app. Qed.
Lemma cnt_nil i : cnt i [] = O.
Proof. reflexivity. Qed.
Lemma cnt_seq i n : cnt i (seq 0 (S n)) = (cnt i (seq 0 n) + cnt i [n])%nat.
Proof. rewrite seq_S. apply cnt_app. Qed.
Lemma cnt_in i l : In i l <-> (cnt i l > 0)%nat.
Proof. apply count_occ_In. Qed.
Lemma cnt_perm a b : (forall i, cnt i a = cnt i b) -> Permutation a b.
Proof. apply (Permutation_count_occ Nat.eq_dec). Qed.
Lemma cnt_nodup i l : NoDup l -> (cnt i l <= 1)%nat.
Proof. rewrite (NoDup_count_occ Nat.eq_dec). intros H. apply H. Qed.
#[global] Opaque cnt.

Definition live (s : state) : list nat := shared s ++ owned (w s).
Definition memory (s : state) : Prop := forall i, cnt i (live s ++ freed s) = cnt i (seq 0 (next s)).

Definition old_is (s : state) : Prop :=
  match w s with
  | W_validating old | W_validated old _ | W_comparing old _ => old = base s
  | W_want old _ d | W_in old _ d => old = base s /\ (old = None <-> d = None)
  | _ => True
  end.
Definition last_is (s : state) (e : option (Z * nat * list nat)) : Prop := hd_error (published s) = e.
Definition current (s : state) : option (Z * nat * list nat) := match base s with Some b => Some (serial s, b, deltas s) | None => None end.
Definition data_is (capacity : nat) (s : state) : Prop :=
  match w s with
  | W_in_base old d => (old = None <-> d = None) /\ (exists b, base s = Some b) /\
      match old with Some o => last_is s (Some (serial s, o, deltas s)) | None => last_is s None /\ deltas s = [] end
  | W_in_serial old d => (old = None <-> d = None) /\ (exists b, base s = Some b) /\
      match old with Some o => exists n, serial s = wrap32 (n + 1) /\ last_is s (Some (n, o, deltas s)) | None => last_is s None /\ deltas s = [] end
  | W_in_all old => exists b, base s = Some b /\
      match old with
      | Some o => exists n ds d f, serial s = wrap32 (n + 1) /\ last_is s (Some (n, o, ds)) /\ ~ In d ds /\ darray_add capacity ds d = (deltas s, f) /\ o <> b
      | None => last_is s None /\ deltas s = [] end
  | _ => last_is s (current s) /\ (base s = None -> deltas s = [])
  end.
Definition readers_ok (s : state) : Prop :=
  forall t, reading (r s t) = true -> writing (w s) = false /\
    match r s t with
    | R_table b _ | R_table_send b _ => base s = Some b
    | R_deltas ds _ | R_deltas_send ds _ => (exists b, base s = Some b) /\ exists k, ds = skipn k (deltas s)
    | _ => True
    end.
Record inv (capacity : nat) (s : state) : Prop := {
  i_mem : memory s; i_old : old_is s; i_data : data_is capacity s; i_readers : readers_ok s;
  i_history : history capacity (published s); i_len : (length (deltas s) <= capacity)%nat }.

Lemma darray_add_cnt cap l d l' x : darray_add cap l d = (l', x) -> (0 < cap)%nat \/ l = [] \/ True -> forall i, (cnt i l' + cnt i x = cnt i l + cnt i [d])%nat.
Proof.
  unfold darray_add. intros H _ i. destruct (Nat.ltb_spec (length l) cap); injection H as <- <-.
  - rewrite cnt_app, cnt_nil. lia.
  - destruct l as [|a l]; cbn [tl firstn]; rewrite cnt_app, ?cnt_nil; [lia|]. rewrite (cnt_cons i a l). lia.
Qed.

Lemma inv_initial cap s : initial s -> inv cap s.
Proof.
  intros (B & D & W & R & N & F & P & A). split.
  - intros i. unfold live, shared. rewrite B, D, W, N, F. cbn. reflexivity.
  - unfold old_is. now rewrite W.
  - unfold data_is, last_is, current. rewrite W, B, P, D. split; auto.
  - intros t. rewrite R. discriminate.
  - rewrite P. exact Logic.I.
  - rewrite D. cbn. lia.
Qed.

Ltac mem M :=
  let i := fresh "i" in intros i; specialize (M i); cbn [live shared ids owned base deltas w freed next set_w set_r set_c set_data allocate free publish answer] in *.

Lemma memory_r s t p : memory (set_r s t p) <-> memory s.
Proof. reflexivity. Qed.

Section Inv.
  Variable cap : nat.
  Hypothesis Hcap : (0 < cap)%nat.

  Lemma inv_rstep t s s' : inv cap s -> rstep t s s' -> inv cap s'.
  Proof.
    intros [M O D R Hh Hl] Hs.
    assert (Rs : forall p, (reading p = true -> writing (w s) = false /\
      match p with
      | R_table b _ | R_table_send b _ => base s = Some b
      | R_deltas ds _ | R_deltas_send ds _ => (exists b, base s = Some b) /\ exists k, ds = skipn k (deltas s)
      | _ => True
      end) -> readers_ok (set_r s t p)).
    { intros p Hp u. unfold set_r. cbn. destruct (Nat.eqb_spec u t); [exact Hp|apply R]. }
    pose proof (R t) as Rt.
    inversion Hs; subst; clear Hs; split; try assumption; try (apply Rs); rewrite ?H in Rt; cbn [reading] in Rt;
      try (intros _; specialize (Rt eq_refl); destruct Rt as [? ?]; repeat split; try assumption; eauto; fail);
      try (intros; discriminate).
    all: try (intros u; unfold set_r, answer; cbn; destruct (Nat.eqb_spec u t); [discriminate|apply R]).
    all: intros _; auto.
  Qed.

  Lemma memory_in s i : memory s -> In i (live s) -> ~ In i (freed s) /\ (i < next s)%nat.
  Proof.
    intros M Hi. specialize (M i). apply cnt_in in Hi. rewrite cnt_app in M.
    pose proof (cnt_nodup i (seq 0 (next s)) (seq_NoDup _ _)) as Nd.
    split.
    - intros Hf. apply cnt_in in Hf. lia.
    - assert (In i (seq 0 (next s))) as X by (apply cnt_in; lia). apply in_seq in X. lia.
  Qed.
  Lemma memory_perm s : memory s -> Permutation (live s ++ freed s) (seq 0 (next s)).
  Proof. intros M. apply cnt_perm. exact M. Qed.
  Lemma memory_nodup s : memory s -> NoDup (live s ++ freed s).
  Proof. intros M. eapply Permutation_NoDup; [apply Permutation_sym, memory_perm, M|apply seq_NoDup]. Qed.

  Lemma inv_wstep s s' : inv cap s -> wstep cap s s' -> inv cap s'.
  Proof.
    intros [M O D R Hh Hl] Hs.
    assert (Ro : forall s'', r s'' = r s -> writing (w s'') = false -> base s'' = base s -> deltas s'' = deltas s -> readers_ok s'').
    { intros s'' E1 E2 E3 E4 t. rewrite E1, E3, E4. intros Hr. destruct (R t Hr). auto. }
    assert (Rw : writing (w s) = true -> forall t, reading (r s t) = false).
    { intros E t. destruct (reading (r s t)) eqn:Er; [|reflexivity]. destruct (R t Er). congruence. }
    assert (Rn : writing (w s) = true -> forall s'', r s'' = r s -> readers_ok s'').
    { intros E s'' E1 t. rewrite E1. intros Hr. rewrite Rw in Hr by exact E. discriminate. }
    inversion Hs; subst; clear Hs; unfold old_is, data_is, memory, live, shared in *; rewrite H in *; split;
      try (apply Ro; reflexivity); try (apply Rn; reflexivity); try assumption; try exact Logic.I;
      unfold old_is, data_is, last_is, current, memory, live, shared in *;
      cbn [base serial deltas w r c next freed published answers set_w set_r set_c set_data allocate free publish answer owned ids writing] in *;
      try (intros i; specialize (M i); rewrite ?cnt_seq, ?cnt_app, ?cnt_nil in *; rewrite ?(cnt_cons i _ (freed s)) in *; cbn [app] in *; rewrite ?cnt_app, ?cnt_nil in *; lia);
      try tauto.
    all: try (split; [assumption|split; congruence]).
    - (* differs *) intros i. specialize (M i). rewrite cnt_seq. rewrite ?cnt_app in *. rewrite (cnt_cons i new [next s]). lia.
    - (* lock *) intros t. cbn. rewrite H0. discriminate.
    - (* base *) destruct O as [-> _]. intros i. specialize (M i). rewrite ?cnt_app in *. rewrite (cnt_cons i new (ids d)) in M. lia.
    - destruct O as [E1 E2]. split; [exact E2|split; [eauto|]]. destruct D as [D1 D2]. rewrite <- E1 in *. destruct old; auto.
    - destruct D as (E1 & E2 & E3). split; [exact E1|split; [exact E2|]]. destruct old; [exists (serial s); auto|exact E3].
    - (* deltas *) intros i. specialize (M i). pose proof (darray_add_cnt _ _ _ _ _ H0 (or_intror (or_intror Logic.I)) i). rewrite ?cnt_app in *. lia.
    - destruct D as (E1 & (b & E2) & E3). exists b. split; [exact E2|]. destruct old as [o|]; [|destruct E1 as [E1 _]; specialize (E1 eq_refl); discriminate].
      destruct E3 as (n & E3 & E4). exists n, (deltas s), d, x. split; [exact E3|split; [exact E4|split; [|split; [exact H0|]]]].
      + intros Hi. apply cnt_in in Hi. specialize (M d). pose proof (cnt_nodup d _ (seq_NoDup (next s) 0)). rewrite ?cnt_app in M.
        assert (cnt d [d] > 0)%nat by (apply cnt_in; left; reflexivity). lia.
      + intros ->. specialize (M b). pose proof (cnt_nodup b _ (seq_NoDup (next s) 0)). rewrite E2 in M. rewrite ?cnt_app in M. cbn [ids] in M.
        assert (cnt b [b] > 0)%nat by (apply cnt_in; left; reflexivity). lia.
    - unfold darray_add in H0. destruct (Nat.ltb_spec (length (deltas s)) cap); injection H0 as <- <-; rewrite app_length; cbn [length]; [lia|].
      destruct (deltas s); cbn [tl length] in *; lia.
    - destruct D as (E1 & (b & E2) & E3). exists b. split; [exact E2|]. destruct old as [o|]; [destruct E1 as [_ E1]; specialize (E1 eq_refl); discriminate|exact E3].
    - destruct D as (b & E2 & E3). rewrite E2. split; [reflexivity|discriminate].
    - destruct D as (b & E2 & E3). rewrite E2. destruct (published s) as [|e l] eqn:Ep; cbn [app hd_error] in *.
      + cbn. destruct old as [o|]; [destruct E3 as (n & ds & d & f & _ & E & _); discriminate|tauto].
      + destruct old as [o|]; [|destruct E3 as [E3 _]; discriminate].
        destruct E3 as (n & ds & d & f & E3 & E4 & E5 & E6 & E7). injection E4 as ->. split; [|exact Hh].
        cbn. split; [congruence|split; [exact E3|]]. exists d, f. unfold darray_add in E6.
        destruct (Nat.ltb_spec (length ds) cap); injection E6 as E8 E9; rewrite <- E8 in *; rewrite <- E9.
        * split; [reflexivity|split; [exact E5|]]. rewrite app_length. cbn [length]. lia.
        * split; [|split; [exact E5|]].
          -- destruct ds; [cbn in *; lia|reflexivity].
          -- rewrite app_length in *. destruct ds; cbn [tl length] in *; lia.
    - destruct (base s) eqn:Eb; cbn [answer base deltas freed next]; rewrite ?Eb; exact M.
    - destruct (base s) eqn:Eb; cbn [published answer base serial deltas]; rewrite ?Eb; exact D.
    - destruct (base s) eqn:Eb; apply Ro; cbn; congruence.
    - destruct (base s); exact Hh.
    - destruct (base s); exact Hl.
  Qed.

  Lemma inv_step s s' : inv cap s -> step cap s s' -> inv cap s'.
  Proof.
    intros I Hs. destruct Hs as [s s' Hw|t s s' Hr|t x s].
    - exact (inv_wstep _ _ I Hw).
    - exact (inv_rstep _ _ _ I Hr).
    - destruct I. split; assumption.
  Qed.
  Lemma reachable_inv s : reachable cap s -> inv cap s.
  Proof. induction 1; [now apply inv_initial|]. eapply inv_step; eauto. Qed.

  Lemma accesses_live s i : inv cap s -> accesses s i -> In i (live s).
  Proof.
    intros [M O D R Hh Hl] A. unfold live, shared. unfold old_is, data_is in *. destruct A; try (rewrite H in * ).
    - apply in_or_app. left. apply in_or_app. left. specialize (R t). rewrite H in R. destruct (R eq_refl) as [_ ->]. left. reflexivity.
    - apply in_or_app. left. apply in_or_app. left. specialize (R t). rewrite H in R. destruct (R eq_refl) as [_ ->]. left. reflexivity.
    - apply in_or_app. left. apply in_or_app. right. specialize (R t). rewrite H in R. destruct (R eq_refl) as (_ & _ & k & ->).
      rewrite <- (firstn_skipn k (deltas s)). apply in_or_app. now right.
    - apply in_or_app. right. now left.
    - rewrite <- O. now left.
    - apply in_or_app. right. now left.
    - apply in_or_app. right. cbn. apply in_or_app. right. now left.
    - apply in_or_app. left. apply in_or_app. right. destruct (deltas s); [discriminate|]. injection H0 as ->. now left.
    - apply in_or_app. right. now left.
    - rewrite H0. now left.
  Qed.

  Lemma reader_current s t : inv cap s -> reading (r s t) = true -> last_is s (current s).
  Proof.
    intros [M O D R Hh Hl] Hr. destruct (R t Hr) as [Hw _]. unfold data_is in D. destruct (w s); try discriminate; apply D.
  Qed.
End Inv.
