(** Proofs about the thread pool. *)
From Coq Require Import Permutation.
From Verif Require Import Base ThreadPool.

Definition holds (p : wpc) : bool := match p with W_Check | W_Claimed _ | W_After | W_Leave => true | _ => false end.
Definition pholds (p : ppc) : bool :=
  match p with P_Pushing _ | P_Pushed | P_Check | P_Waited | P_Clear | P_Broadcast | P_Cleared => true | _ => false end.
Definition is_working (p : wpc) : bool := match p with W_Claimed _ | W_Run _ | W_Ran => true | _ => false end.
Definition count (ws : list wpc) : nat := length (filter is_working ws).
Definition task_of (p : wpc) : list task := match p with W_Claimed (Some t) | W_Run (Some t) => [t] | _ => [] end.
Definition running (ws : list wpc) : list task := flat_map task_of ws.
Definition stopping (p : ppc) : bool := match p with P_Broadcast | P_Cleared | P_Join | P_End => true | _ => false end.
Definition destroying (p : ppc) : bool := match p with P_Destroy | P_Clear => true | _ => stopping p end.
Definition gone (p : wpc) : bool := match p with W_Leave | W_End => true | _ => false end.
Definition idle (p : wpc) : bool := match p with W_Sleep | W_End => true | _ => false end.

Record inv (s : state) : Prop := {
  i_size : 0 < Z.of_nat (length (workers s)) < 4294967296;
  i_lock : forall i pc, nth_error (workers s) i = Some pc -> (holds pc = true <-> lock s = Some (Worker i));
  i_plock : pholds (parent s) = true <-> lock s = Some Parent;
  i_owner : forall i, lock s = Some (Worker i) -> (i < length (workers s))%nat;
  i_working : working s = Z.of_nat (count (workers s));
  i_fifo : pushed s = claimed s ++ rev (queue s) ++ dropped s;
  i_dropped : stop s = false -> dropped s = [];
  i_once : Permutation (claimed s) (finished s ++ running (workers s));
  i_stop : stop s = stopping (parent s);
  i_stopped : stop s = true -> queue s = [];
  i_gone : forall w, In w (workers s) -> gone w = true -> stop s = true;
  i_awake : stop s = true -> In W_Sleep (workers s) -> parent s = P_Broadcast;
  i_wakeup : queue s <> [] -> (exists w, In w (workers s) /\ idle w = false) \/ parent s = P_Pushed \/ parent s = P_Signal;
  i_sleep : parent s = P_Sleep -> queue s <> [] \/ 0 < working s \/ In W_After (workers s);
  i_waited : parent s = P_Waited -> queue s = [] /\ working s = 0;
  i_end : parent s = P_End -> Forall (fun w => w = W_End) (workers s);
  i_todo : forall a b, todo s = a ++ Destroy :: b -> b = [];
  i_last : destroying (parent s) = true -> todo s = []
}.

Lemma count_mid l p r : count (l ++ p :: r) = (count (l ++ r) + (if is_working p then 1 else 0))%nat.
Proof. unfold count. rewrite !filter_app, !app_length. cbn [filter]. destruct (is_working p); cbn [length]; lia. Qed.
Lemma running_mid l p r : Permutation (running (l ++ p :: r)) (task_of p ++ running (l ++ r)).
Proof. unfold running. rewrite !flat_map_app. cbn [flat_map]. rewrite !app_assoc. apply Permutation_app_tail, Permutation_app_comm. Qed.
Lemma nth_mid (l : list wpc) p q r i x : nth_error (l ++ p :: r) i = Some x -> (i = length l /\ x = p) \/ (i <> length l /\ nth_error (l ++ q :: r) i = Some x).
Proof.
  intros H. destruct (lt_eq_lt_dec i (length l)) as [[L| ->]|L].
  - right. split; [lia|]. rewrite nth_error_app1 in * by auto. auto.
  - left. rewrite nth_error_app2, Nat.sub_diag in H by lia. cbn in H. inversion H. auto.
  - right. split; [lia|]. rewrite nth_error_app2 in * by lia. destruct (i - length l)%nat eqn:Q; [lia|]. auto.
Qed.
Lemma nth_here (l : list wpc) p r : nth_error (l ++ p :: r) (length l) = Some p.
Proof. rewrite nth_error_app2, Nat.sub_diag by lia. reflexivity. Qed.
Lemma in_mid (l : list wpc) p q r w : In w (l ++ p :: r) -> w = p \/ In w (l ++ q :: r).
Proof. rewrite !in_app_iff. cbn [In]. intros [H|[H|H]]; auto. Qed.
Lemma len_mid (l : list wpc) p q r : length (l ++ p :: r) = length (l ++ q :: r).
Proof. rewrite !app_length. reflexivity. Qed.
Lemma count_le ws : (count ws <= length ws)%nat.
Proof. unfold count. induction ws as [|x ws IH]; cbn [filter length]; [lia|]. destruct (is_working x); cbn [length]; lia. Qed.
Lemma split_last_spec q : match split_last q with None => q = [] | Some (q', t) => q = q' ++ [t] end.
Proof.
  induction q as [|x q IH]; cbn [split_last]; auto. destruct (split_last q) as [[q' t]|]; subst; auto.
Qed.
Lemma empty_iff s : queue_empty s = true <-> queue s = [].
Proof. unfold queue_empty. destruct (queue s); split; congruence. Qed.

Ltac proj := cbn [workers parent todo queue working stop lock pushed claimed finished dropped set_workers set_parent set_todo set_lock set_working set_finished mutex_unlock clear_and_stop task_queue_push broadcast] in *.

Lemma inv_created n p : 0 < Z.of_nat n < 4294967296 -> (forall a b, p = a ++ Destroy :: b -> b = []) -> inv (created n p).
Proof.
  intros N P. constructor; unfold created; proj; auto; try discriminate; try congruence.
  - rewrite repeat_length. auto.
  - intros i pc H. apply nth_error_In, repeat_spec in H. subst. split; discriminate.
  - split; discriminate.
  - unfold count. 
    assert (filter is_working (repeat W_Start n) = []) as ->; [|reflexivity]. clear. induction n; cbn; auto.
  - cbn [app]. assert (running (repeat W_Start n) = []) as ->; [|constructor]. clear. induction n; cbn; auto.
  - intros w I. apply repeat_spec in I. subst. discriminate.
Qed.

(** A worker's step that leaves alone all but the worker and the lock. *)
Lemma idle_gone w : gone w = false -> w <> W_Sleep -> idle w = false.
Proof. destruct w; cbn; congruence. Qed.

Lemma worker_inv s l pc r s1 pc' : inv s -> workers s = l ++ pc :: r -> worker_next (length l) pc s = Some (s1, pc') ->
  inv (set_workers s1 (l ++ pc' :: r)).
Proof.
  intros I W H.
  assert (HL := i_lock s I (length l) pc). rewrite W, nth_here in HL. specialize (HL eq_refl).
  assert (OTHER : forall i x, i <> length l -> nth_error (l ++ pc' :: r) i = Some x -> (holds x = true <-> lock s = Some (Worker i))).
  { intros i x NE N. apply (nth_mid l pc' pc r) in N. destruct N as [[-> _]|[_ N]]; [congruence|]. apply (i_lock s I). rewrite W. auto. }
  assert (OWN : forall x, nth_error (l ++ pc' :: r) (length l) = Some x -> x = pc') by (intros x Q; rewrite nth_here in Q; congruence).
  assert (SZ : 0 < Z.of_nat (length (l ++ pc' :: r)) < 4294967296) by (rewrite (len_mid l pc' pc r), <- W; apply I).
  assert (LEN : (length l < length (l ++ pc' :: r))%nat) by (rewrite app_length; cbn; lia).
  assert (PL := i_plock s I).
  assert (CNT := i_working s I). rewrite W, count_mid in CNT.
  assert (CN' : count (l ++ pc' :: r) = (count (l ++ r) + (if is_working pc' then 1 else 0))%nat) by apply count_mid.
  assert (CB : (count (l ++ pc' :: r) <= length (l ++ pc' :: r))%nat) by apply count_le.
  assert (RUN := i_once s I). rewrite W in RUN. rewrite running_mid in RUN.
  assert (GO := i_gone s I). rewrite W in GO.
  assert (AW := i_awake s I). rewrite W in AW.
  assert (SL := i_sleep s I). rewrite W in SL.
  assert (INN : forall w, In w (l ++ pc' :: r) -> w = pc' \/ In w (l ++ pc :: r)) by (intros w; apply in_mid).
  assert (INO : forall w, In w (l ++ pc :: r) -> w = pc \/ In w (l ++ pc' :: r)) by (intros w; apply in_mid).
  assert (HERE : In pc' (l ++ pc' :: r)) by (apply in_app_iff; right; left; auto).
  assert (HERE0 : In pc (l ++ pc :: r)) by (apply in_app_iff; right; left; auto).
  assert (END : parent s = P_End -> pc = W_End).
  { intros Q. apply (i_end s I) in Q. rewrite W in Q. rewrite Forall_forall in Q. auto. }
  destruct pc; cbn [worker_next] in H; cbn [holds is_working task_of app] in *.
  - (* W_Start *)
    unfold mutex_lock in H. destruct (lock s) eqn:LK; [discriminate|]. cbn [option_map] in H. injection H as <- <-.
    constructor; proj; try apply I; auto.
    + intros i x N. destruct (Nat.eq_dec i (length l)) as [->|NE]; [rewrite (OWN _ N); cbn; tauto|]. rewrite (OTHER _ _ NE N). split; congruence.
    + rewrite PL. split; congruence.
    + intros i Q. inversion Q; subst. auto.
    + rewrite CN'. auto.
    + rewrite running_mid. exact RUN.
    + intros w IW G. destruct (INN _ IW) as [->|IW']; [discriminate|eauto].
    + intros S IW. destruct (INN _ IW) as [Q|IW']; [discriminate|eauto].
    + intros _. left. exists W_Check. auto.
    + intros Q. destruct (SL Q) as [A|[A|A]]; auto. destruct (INO _ A); [discriminate|auto].
    + intros Q. apply END in Q. discriminate.
  - (* W_Check *)
    assert (LK : lock s = Some (Worker (length l))) by tauto.
    assert (NP : pholds (parent s) = false) by (destruct (pholds (parent s)); auto; destruct PL as [PL _]; rewrite PL in LK by auto; discriminate).
    destruct (queue_empty s && negb (stop s)) eqn:Q1; [|destruct (stop s) eqn:ST].
    + apply andb_prop in Q1. destruct Q1 as [QE NS]. apply empty_iff in QE. apply negb_true_iff in NS. injection H as <- <-.
      constructor; proj; try apply I; auto.
      * intros i x N. destruct (Nat.eq_dec i (length l)) as [->|NE]; [rewrite (OWN _ N); cbn; split; discriminate|]. rewrite (OTHER _ _ NE N), LK. split; congruence.
      * rewrite NP. split; discriminate.
      * discriminate.
      * rewrite CN'. auto.
      * rewrite running_mid. exact RUN.
      * intros w IW G. destruct (INN _ IW) as [->|IW']; [discriminate|eauto].
      * congruence.
      * congruence.
      * intros Q. destruct (SL Q) as [A|[A|A]]; auto. destruct (INO _ A); [discriminate|auto].
      * intros Q. apply END in Q. discriminate.
    + injection H as <- <-. constructor; proj; try apply I; auto.
      * intros i x N. destruct (Nat.eq_dec i (length l)) as [->|NE]; [rewrite (OWN _ N); cbn; tauto|]. apply OTHER; auto.
      * intros i Q. rewrite LK in Q. inversion Q; subst. auto.
      * rewrite CN'. auto.
      * rewrite running_mid. exact RUN.
      * intros S IW. destruct (INN _ IW) as [Q|IW']; [discriminate|eauto].
      * intros NE. rewrite (i_stopped s I ST) in NE. congruence.
      * intros Q. destruct (SL Q) as [A|[A|A]]; auto. destruct (INO _ A); [discriminate|auto].
      * intros Q. apply END in Q. discriminate.
    + rewrite andb_true_r in Q1. assert (QN : queue s <> []) by (intros Q; apply empty_iff in Q; congruence).
      unfold task_queue_pull in H. pose proof (split_last_spec (queue s)) as SP. destruct (split_last (queue s)) as [[q t]|]; [|congruence].
      cbn iota zeta in H. injection H as <- <-. proj. cbn [is_working] in *.
      constructor; proj; try apply I; auto.
      * intros i x N. destruct (Nat.eq_dec i (length l)) as [->|NE]; [rewrite (OWN _ N); cbn; tauto|]. apply OTHER; auto.
      * intros i Q. rewrite LK in Q. inversion Q; subst. auto.
      * rewrite CN', CNT. unfold wrap32. rewrite Z.mod_small; lia.
      * rewrite (i_fifo s I), SP, rev_app_distr, <- !app_assoc. reflexivity.
      * rewrite running_mid. cbn [task_of app]. rewrite Permutation_app_comm. cbn [app]. rewrite RUN. apply Permutation_middle.
      * congruence.
      * intros w IW G. destruct (INN _ IW) as [->|IW']; [discriminate|]. specialize (GO w IW' G). congruence.
      * congruence.
      * intros _. left. exists (W_Claimed (Some t)). auto.
      * intros Q. right. left. unfold wrap32. rewrite Z.mod_small; lia.
      * intros Q. rewrite Q in NP. discriminate.
      * intros Q. apply END in Q. discriminate.
  - discriminate.
  - (* W_Woken *)
    unfold mutex_lock in H. destruct (lock s) eqn:LK; [discriminate|]. cbn [option_map] in H. injection H as <- <-.
    constructor; proj; try apply I; auto.
    + intros i x N. destruct (Nat.eq_dec i (length l)) as [->|NE]; [rewrite (OWN _ N); cbn; tauto|]. rewrite (OTHER _ _ NE N). split; congruence.
    + rewrite PL. split; congruence.
    + intros i Q. inversion Q; subst. auto.
    + rewrite CN'. auto.
    + rewrite running_mid. exact RUN.
    + intros w IW G. destruct (INN _ IW) as [->|IW']; [discriminate|eauto].
    + intros S IW. destruct (INN _ IW) as [Q|IW']; [discriminate|eauto].
    + intros _. left. exists W_Check. auto.
    + intros Q. destruct (SL Q) as [A|[A|A]]; auto. destruct (INO _ A); [discriminate|auto].
    + intros Q. apply END in Q. discriminate.
  - (* W_Claimed *)
    assert (LK : lock s = Some (Worker (length l))) by tauto.
    assert (NP : pholds (parent s) = false) by (destruct (pholds (parent s)); auto; destruct PL as [PL _]; rewrite PL in LK by auto; discriminate).
    injection H as <- <-. constructor; proj; try apply I; auto.
    + intros i x N. destruct (Nat.eq_dec i (length l)) as [->|NE]; [rewrite (OWN _ N); cbn; split; discriminate|]. rewrite (OTHER _ _ NE N), LK. split; congruence.
    + rewrite NP. split; discriminate.
    + discriminate.
    + rewrite CN'. auto.
    + rewrite running_mid. exact RUN.
    + intros w IW G. destruct (INN _ IW) as [->|IW']; [discriminate|eauto].
    + intros S IW. destruct (INN _ IW) as [Q|IW']; [discriminate|eauto].
    + intros _. left. exists (W_Run t). auto.
    + intros Q. destruct (SL Q) as [A|[A|A]]; auto. destruct (INO _ A); [discriminate|auto].
    + intros Q. apply END in Q. discriminate.
  - (* W_Run *)
    assert (HH : holds W_Ran = false) by reflexivity.
    injection H as <- <-. assert (S1 : forall (A : Type) (f : state -> A), (forall l, f (set_finished s l) = f s) -> f (match t with Some t => set_finished s (finished s ++ [t]) | None => s end) = f s) by (intros A f Q; destruct t; auto).
    constructor; proj; rewrite ?(S1 _ lock), ?(S1 _ parent), ?(S1 _ queue), ?(S1 _ working), ?(S1 _ pushed), ?(S1 _ claimed), ?(S1 _ dropped), ?(S1 _ stop), ?(S1 _ todo) by reflexivity; try apply I; auto.
    + intros i x N. destruct (Nat.eq_dec i (length l)) as [->|NE]; [rewrite (OWN _ N); rewrite <- HL; cbn; tauto|]. apply OTHER; auto.
    + intros i Q. apply (i_owner s I) in Q. rewrite W in Q. rewrite (len_mid l W_Ran (W_Run t) r). auto.
    + rewrite CN'. auto.
    + rewrite running_mid. cbn [task_of app]. rewrite RUN. destruct t as [t|]; cbn [task_of app finished set_finished]; [|reflexivity].
      rewrite <- app_assoc. reflexivity.
    + intros w IW G. destruct (INN _ IW) as [->|IW']; [discriminate|eauto].
    + intros S IW. destruct (INN _ IW) as [Q|IW']; [discriminate|eauto].
    + intros _. left. exists W_Ran. auto.
    + intros Q. destruct (SL Q) as [A|[A|A]]; auto. destruct (INO _ A); [discriminate|auto].
    + intros Q. apply END in Q. discriminate.
  - (* W_Ran *)
    unfold mutex_lock in H. destruct (lock s) eqn:LK; [discriminate|]. cbn [option_map] in H. injection H as <- <-. proj.
    assert (NP : pholds (parent s) = false) by (destruct (pholds (parent s)); auto; destruct PL as [PL _]; specialize (PL eq_refl); discriminate).
    constructor; proj; try apply I; auto.
    + intros i x N. destruct (Nat.eq_dec i (length l)) as [->|NE]; [rewrite (OWN _ N); cbn; tauto|]. rewrite (OTHER _ _ NE N). split; congruence.
    + rewrite PL. split; congruence.
    + intros i Q. inversion Q; subst. auto.
    + rewrite CN'. unfold wrap32. cbn [is_working] in *. rewrite Z.mod_small; lia.
    + rewrite running_mid. exact RUN.
    + intros w IW G. destruct (INN _ IW) as [->|IW']; [discriminate|eauto].
    + intros S IW. destruct (INN _ IW) as [Q|IW']; [discriminate|eauto].
    + intros _. left. exists W_After. auto.
    + intros Q. rewrite Q in NP. discriminate.
    + intros Q. apply END in Q. discriminate.
  - (* W_After *)
    assert (LK : lock s = Some (Worker (length l))) by tauto.
    assert (NP : pholds (parent s) = false) by (destruct (pholds (parent s)); auto; destruct PL as [PL _]; rewrite PL in LK by auto; discriminate).
    destruct (stop s) eqn:ST.
    + injection H as <- <-. constructor; proj; try apply I; auto.
      * intros i x N. destruct (Nat.eq_dec i (length l)) as [->|NE]; [rewrite (OWN _ N); cbn; tauto|]. apply OTHER; auto.
      * intros i Q. rewrite LK in Q. inversion Q; subst. auto.
      * rewrite CN'. auto.
      * rewrite running_mid. exact RUN.
      * intros S IW. destruct (INN _ IW) as [Q|IW']; [discriminate|eauto].
      * intros NE. rewrite (i_stopped s I ST) in NE. congruence.
      * intros Q. rewrite (i_stop s I), Q in ST. discriminate.
      * intros Q. apply END in Q. discriminate.
    + assert (PS : s1 = s /\ (parent s = P_Sleep -> queue s <> [] \/ 0 < working s) \/ parent s = P_Sleep /\ s1 = set_parent s P_Woken).
      { destruct ((working s =? 0) && queue_empty s) eqn:Q.
        - injection H as <- <-. unfold signal_to_parent. destruct (parent s) eqn:PP; auto; left; split; auto; discriminate.
        - injection H as <- <-. left. split; auto. intros _. apply andb_false_iff in Q. destruct Q as [Q|Q]; [right; lia|left]. intros E. apply empty_iff in E. congruence. }
      assert (pc' = W_Check) by (destruct ((working s =? 0) && queue_empty s); inversion H; auto). subst pc'. clear H.
      assert (X : forall s2, lock s2 = lock s -> pholds (parent s2) = pholds (parent s) -> queue s2 = queue s -> working s2 = working s -> pushed s2 = pushed s -> claimed s2 = claimed s -> finished s2 = finished s ->
        dropped s2 = dropped s -> stop s2 = stop s -> todo s2 = todo s -> stopping (parent s2) = stopping (parent s) -> destroying (parent s2) = destroying (parent s) ->
        (parent s2 = P_Sleep -> queue s <> [] \/ 0 < working s) -> (parent s2 = P_End -> parent s = P_End) -> inv (set_workers s2 (l ++ W_Check :: r))).
      { intros s2 A1 A2 A3 A4 A5 A6 A7 A8 A9 A10 A11 A12 A13 A14. constructor; proj; rewrite ?A1, ?A2, ?A3, ?A4, ?A5, ?A6, ?A7, ?A8, ?A9, ?A10, ?A11, ?A12; try apply I; auto.
        - intros i x N. destruct (Nat.eq_dec i (length l)) as [->|NE]; [rewrite (OWN _ N); cbn; tauto|]. apply OTHER; auto.
        - intros i Q. rewrite LK in Q. inversion Q; subst. auto.
        - rewrite CN'. auto.
        - rewrite running_mid. exact RUN.
        - intros w IW G. destruct (INN _ IW) as [->|IW']; [discriminate|]. apply GO in IW'; auto. congruence.
        - congruence.
        - intros _. left. exists W_Check. auto.
        - intros Q. destruct (A13 Q) as [A|A]; auto.
        - intros Q. exfalso. rewrite Q in A2. cbn in A2. congruence.
        - intros Q. apply A14 in Q. apply END in Q. discriminate. }
      destruct PS as [[-> PS]|[PS ->]]; apply X; auto; proj; rewrite ?PS; auto; discriminate.
  - (* W_Leave *)
    assert (LK : lock s = Some (Worker (length l))) by tauto.
    assert (NP : pholds (parent s) = false) by (destruct (pholds (parent s)); auto; destruct PL as [PL _]; rewrite PL in LK by auto; discriminate).
    assert (ST : stop s = true) by (apply (GO W_Leave); auto).
    injection H as <- <-. constructor; proj; try apply I; auto.
    + intros i x N. destruct (Nat.eq_dec i (length l)) as [->|NE]; [rewrite (OWN _ N); cbn; split; discriminate|]. rewrite (OTHER _ _ NE N), LK. split; congruence.
    + rewrite NP. split; discriminate.
    + discriminate.
    + rewrite CN'. auto.
    + rewrite running_mid. exact RUN.
    + intros S IW. destruct (INN _ IW) as [Q|IW']; [discriminate|eauto].
    + intros NE. rewrite (i_stopped s I ST) in NE. congruence.
    + intros Q. destruct (SL Q) as [A|[A|A]]; auto. destruct (INO _ A); [discriminate|auto].
    + intros Q. apply END in Q. discriminate.
  - discriminate.
Qed.

Definition rel (a b : wpc) : Prop := b = a \/ (a = W_Sleep /\ b = W_Woken).
Lemma rel_same a b : rel a b -> holds b = holds a /\ is_working b = is_working a /\ task_of b = task_of a /\ gone b = gone a /\ (b = W_Sleep -> a = W_Sleep) /\ (a = W_After -> b = W_After) /\ (idle a = false -> idle b = false) /\ (b = W_End <-> a = W_End).
Proof. intros [->|[-> ->]]; repeat split; auto; discriminate. Qed.
Lemma rel_facts ws ws' : Forall2 rel ws ws' -> length ws' = length ws /\ count ws' = count ws /\ running ws' = running ws /\
  (forall i b, nth_error ws' i = Some b -> exists a, nth_error ws i = Some a /\ rel a b) /\
  (forall b, In b ws' -> exists a, In a ws /\ rel a b) /\ (forall a, In a ws -> exists b, In b ws' /\ rel a b) /\
  (Forall (fun w => w = W_End) ws -> Forall (fun w => w = W_End) ws').
Proof.
  induction 1 as [|a b ws ws' R F (IH1 & IH2 & IH3 & IH4 & IH5 & IH6 & IH7)].
  - repeat split; auto; intros; try contradiction. destruct i; discriminate.
  - destruct (rel_same _ _ R) as (A1 & A2 & A3 & A4 & A5 & A6 & A7 & A8). unfold count, running in *. cbn [length filter flat_map]. repeat split; auto.
    + rewrite A2. destruct (is_working a); cbn [length]; lia.
    + rewrite A3, IH3. auto.
    + intros [|i] x H; cbn in H; [inversion H; subst; exists a; auto|]. apply IH4 in H. auto.
    + intros x [<-|I]; [exists a; cbn; auto|]. apply IH5 in I. destruct I as (y & I & R'). exists y. cbn; auto.
    + intros x [<-|I]; [exists b; cbn; auto|]. apply IH6 in I. destruct I as (y & I & R'). exists y. cbn; auto.
    + intros G. inversion G; subst. constructor; auto. tauto.
Qed.
Lemma rel_changed ws ws' : Forall2 rel ws ws' -> ws' <> ws -> In W_Woken ws'.
Proof.
  induction 1 as [|a b ws ws' R F IH]; [congruence|]. intros N. destruct R as [->|[-> ->]]; [|left; auto]. right. apply IH. congruence.
Qed.

(** Waking workers keeps everything else. *)
Lemma wake_inv s ws : inv s -> Forall2 rel (workers s) ws -> inv (set_workers s ws).
Proof.
  intros I F. destruct (rel_facts _ _ F) as (R1 & R2 & R3 & R4 & R5 & R6 & R7).
  constructor; proj; rewrite ?R1, ?R2, ?R3; try apply I; auto.
  - intros i b H. destruct (R4 _ _ H) as (a & H' & R). destruct (rel_same _ _ R) as (-> & _). apply I. auto.
  - intros b H G. destruct (R5 _ H) as (a & H' & R). destruct (rel_same _ _ R) as (_ & _ & _ & G' & _). rewrite G' in G. eapply i_gone; eauto.
  - intros S H. apply (i_awake s I S). destruct (R5 _ H) as (a & H' & R). destruct (rel_same _ _ R) as (_ & _ & _ & _ & A & _). rewrite <- A; auto.
  - intros Q. destruct (i_wakeup s I Q) as [(a & IA & A)|A]; auto. left. destruct (R6 _ IA) as (b & IB & R). exists b. split; auto.
    destruct (rel_same _ _ R) as (_ & _ & _ & _ & _ & _ & B & _). auto.
  - intros Q. destruct (i_sleep s I Q) as [A|[A|A]]; auto. right. right. destruct (R6 _ A) as (b & IB & R). destruct (rel_same _ _ R) as (_ & _ & _ & _ & _ & B & _). rewrite <- B; auto.
  - intros Q. apply R7, I, Q.
Qed.

Lemma parent_inv s s' : inv s -> parent_step s s' -> inv s'.
Proof.
  intros I H.
  assert (PL := i_plock s I). assert (ST := i_stop s I). assert (LS := i_last s I).
  assert (LW : forall i pc, nth_error (workers s) i = Some pc -> lock s = None \/ lock s = Some Parent -> holds pc = false).
  { intros i pc N L. destruct (holds pc) eqn:HH; auto. apply (i_lock s I i pc N) in HH. destruct L; congruence. }
  destruct H as [s t l P T|s l P T|s l P T|s t s1 P L|s t P|s P|s s1 P SG|s s1 P L|s P|s P|s s1 P L|s P|s P|s P|s P F].
  - rewrite P in *. constructor; proj; try apply I; auto; try discriminate; try (intros S; rewrite ST in S; discriminate).
    + intros Q. destruct (i_wakeup s I Q) as [A|[A|A]]; auto; congruence.
    + intros a b Q. apply (i_todo s I (Push t :: a)). rewrite T, Q. auto.
  - rewrite P in *. constructor; proj; try apply I; auto; try discriminate; try (intros S; rewrite ST in S; discriminate).
    + intros Q. destruct (i_wakeup s I Q) as [A|[A|A]]; auto; congruence.
    + intros a b Q. apply (i_todo s I (Wait :: a)). rewrite T, Q. auto.
  - rewrite P in *. assert (l = []) by (apply (i_todo s I []); auto). subst l. constructor; proj; try apply I; auto; try discriminate; try (intros S; rewrite ST in S; discriminate).
    + intros Q. destruct (i_wakeup s I Q) as [A|[A|A]]; auto; congruence.
    + intros [|] ? Q; discriminate.
  - rewrite P in *. unfold mutex_lock in L. destruct (lock s) eqn:LK; [discriminate|]. injection L as <-. constructor; proj; try apply I; auto; try discriminate; try (intros S; rewrite ST in S; discriminate).
    + intros i pc N. rewrite (LW i pc N) by auto. split; discriminate.
    + cbn. tauto.
    + intros Q. destruct (i_wakeup s I Q) as [A|[A|A]]; auto; congruence.
  - rewrite P in *. constructor; proj; try apply I; auto; try discriminate; try (intros S; rewrite ST in S; discriminate).
    + rewrite (i_fifo s I). assert (dropped s = []) as -> by (apply I; rewrite ST; auto). cbn [rev]. rewrite !app_nil_r, <- app_assoc. reflexivity.
  - rewrite P in *. cbn in PL. constructor; proj; try apply I; auto; try discriminate; try (intros S; rewrite ST in S; discriminate).
    + intros i pc N. rewrite (LW i pc N) by (right; tauto). split; discriminate.
    + split; discriminate.
  - rewrite P in *. destruct SG as (ws & [F NE] & ->). assert (I' := wake_inv s ws I F).
    assert (AW : exists w, In w ws /\ idle w = false).
    { destruct (in_dec (fun a b : wpc => ltac:(decide equality; decide equality; apply Z.eq_dec) : {a = b} + {a <> b}) W_Sleep (workers s)) as [IS|NS].
      - exists W_Woken. split; auto. apply (rel_changed (workers s)); auto.
      - assert (SZ := i_size s I). destruct (workers s) as [|w0 l0] eqn:W; [cbn in SZ; lia|]. inversion F as [|a b ws1 ws2 R F']; subst. exists b. split; [left; auto|].
        destruct R as [->|[-> _]]; [|exfalso; apply NS; left; auto]. apply idle_gone.
        + destruct (gone w0) eqn:G; auto. apply (i_gone s I) in G; [rewrite ST in G; discriminate|]. rewrite W. left. auto.
        + intros ->. apply NS. left. auto. }
    constructor; proj; try apply I'; auto; try discriminate; try (intros S; rewrite ST in S; discriminate).
  - assert (PH : pholds (parent s) = false /\ stopping (parent s) = false) by (destruct P as [-> | ->]; auto). destruct PH as [PH PS]. rewrite PS in ST.
    unfold mutex_lock in L. destruct (lock s) eqn:LK; [discriminate|]. injection L as <-. constructor; proj; try apply I; auto; try discriminate; try (intros S; rewrite ST in S; discriminate).
    + intros i pc N. rewrite (LW i pc N) by auto. split; discriminate.
    + cbn. tauto.
    + intros Q. destruct (i_wakeup s I Q) as [A|[A|A]]; auto; destruct P; congruence.
  - rewrite P in *. cbn in PL, ST. rewrite ST. destruct ((working s =? 0) && queue_empty s) eqn:C.
    + apply andb_prop in C. destruct C as [C1 C2]. apply empty_iff in C2. constructor; proj; try apply I; auto; try discriminate; try (intros S; rewrite ST in S; discriminate).
      * congruence.
      * intros _. split; auto. lia.
    + constructor; proj; try apply I; auto; try discriminate; try (intros S; rewrite ST in S; discriminate).
      * intros i pc N. rewrite (LW i pc N) by (right; tauto). split; discriminate.
      * split; discriminate.
      * intros Q. destruct (i_wakeup s I Q) as [A|[A|A]]; auto; congruence.
      * intros _. apply andb_false_iff in C. destruct C as [C|C].
        -- right. left. pose proof (i_working s I). lia.
        -- left. intros Q. apply empty_iff in Q. congruence.
  - rewrite P in *. cbn in PL, ST. constructor; proj; try apply I; auto; try discriminate; try (intros S; rewrite ST in S; discriminate).
    + intros i pc N. rewrite (LW i pc N) by (right; tauto). split; discriminate.
    + split; discriminate.
    + intros Q. destruct (i_wakeup s I Q) as [A|[A|A]]; auto; congruence.
  - rewrite P in *. unfold mutex_lock in L. destruct (lock s) eqn:LK; [discriminate|]. injection L as <-. constructor; proj; try apply I; auto; try discriminate; try (intros S; rewrite ST in S; discriminate).
    + intros i pc N. rewrite (LW i pc N) by auto. split; discriminate.
    + cbn. tauto.
    + intros Q. destruct (i_wakeup s I Q) as [A|[A|A]]; auto; congruence.
  - rewrite P in *. constructor; proj; try apply I; auto; try discriminate; try (intros S; rewrite ST in S; discriminate).
    + rewrite (i_fifo s I). assert (dropped s = []) as -> by (apply I; rewrite ST; auto). cbn [rev app]. rewrite !app_nil_r. reflexivity.
    + congruence.
  - rewrite P in *. cbn in PL, ST. assert (F : Forall2 rel (workers s) (map (fun w => match w with W_Sleep => W_Woken | _ => w end) (workers s))).
    { clear. induction (workers s) as [|w l IH]; cbn [map]; constructor; auto. destruct w; unfold rel; auto. }
    assert (I' := wake_inv s _ I F). fold (broadcast s) in I'. constructor; proj; try apply I'; auto; try discriminate; try (intros S; rewrite ST in S; discriminate).
    + intros S IW. exfalso. apply in_map_iff in IW. destruct IW as (w & Q & _). destruct w; discriminate.
    + rewrite (i_stopped s I ST). congruence.
  - rewrite P in *. cbn in PL, ST. constructor; proj; try apply I; auto; try discriminate; try (intros S; rewrite ST in S; discriminate).
    + intros i pc N. rewrite (LW i pc N) by (right; tauto). split; discriminate.
    + split; discriminate.
    + intros S IW. apply (i_awake s I) in IW; auto. congruence.
    + rewrite (i_stopped s I ST). congruence.
  - rewrite P in *. cbn in PL, ST. constructor; proj; try apply I; auto; try discriminate; try (intros S; rewrite ST in S; discriminate).
    + intros S IW. apply (i_awake s I) in IW; auto. congruence.
    + rewrite (i_stopped s I ST). congruence.
Qed.

Lemma spurious_inv s s' : inv s -> spurious s s' -> inv s'.
Proof.
  intros I H. destruct H as [s l r W|s P].
  - apply wake_inv; auto. rewrite W. apply Forall2_app; [|constructor; [right; auto|]].
    + clear. induction l; constructor; auto. left. auto.
    + clear. induction r; constructor; auto. left. auto.
  - assert (PL := i_plock s I). assert (ST := i_stop s I). rewrite P in *. constructor; proj; try apply I; auto; try discriminate; try (intros S; rewrite ST in S; discriminate).
    + intros Q. destruct (i_wakeup s I Q) as [A|[A|A]]; auto; congruence.
Qed.
Lemma step_inv s s' : inv s -> any_step s s' -> inv s'.
Proof.
  intros I [H|H]; [|eapply spurious_inv; eauto]. destruct H as [s l pc r s1 pc' W H|s s1 H].
  - eapply worker_inv; eauto.
  - eapply parent_inv; eauto.
Qed.
Lemma steps_inv s s' : inv s -> steps any_step s s' -> inv s'.
Proof. intros I H. induction H; auto. apply IHsteps. eapply step_inv; eauto. Qed.

(** ** Progress *)
Definition wwt (p : wpc) : nat :=
  match p with W_End | W_Sleep => 0 | W_Leave => 1 | W_Check => 2 | W_Start | W_Woken => 3 | W_After => 6 | W_Ran => 7 | W_Run _ => 8 | W_Claimed _ => 9 end.
Definition pwt (n : nat) (p : ppc) : nat :=
  match p with
  | P_Idle | P_Sleep | P_End => 0 | P_Waited => 1 | P_Check => 2 | P_Woken => 3 | P_Wait => 4
  | P_Signal => 3 * n + 1 | P_Pushed => 3 * n + 2 | P_Pushing _ => 3 * n + 11 | P_Push _ => 3 * n + 12
  | P_Join => 1 | P_Cleared => 2 | P_Broadcast => 3 * n + 3 | P_Clear => 3 * n + 4 | P_Destroy => 3 * n + 5
  end.
Definition owt (n : nat) (o : op) : nat := match o with Push _ => 3 * n + 13 | Wait => 5 | Destroy => 3 * n + 6 end.
Definition sum (l : list nat) : nat := fold_right Nat.add 0%nat l.
Definition measure (s : state) : nat :=
  (sum (map wwt (workers s)) + 8 * length (queue s) + pwt (length (workers s)) (parent s) + sum (map (owt (length (workers s))) (todo s)))%nat.

Lemma sum_app a b : sum (a ++ b) = (sum a + sum b)%nat.
Proof. induction a as [|x a IH]; cbn; auto. unfold sum in *. lia. Qed.
Lemma sum_mid l p r : sum (map wwt (l ++ p :: r)) = (sum (map wwt (l ++ r)) + wwt p)%nat.
Proof. rewrite !map_app, !sum_app. cbn [map sum fold_right]. unfold sum. lia. Qed.
Lemma wake_measure ws ws' : Forall2 rel ws ws' -> (sum (map wwt ws') <= sum (map wwt ws) + 3 * length ws)%nat.
Proof.
  induction 1 as [|a b ws ws' R F IH]; cbn [map sum fold_right length]; [lia|]. fold (sum (map wwt ws)). fold (sum (map wwt ws')).
  assert (wwt b <= wwt a + 3)%nat by (destruct R as [->|[-> ->]]; cbn; lia). lia.
Qed.

Lemma step_measure s s' : inv s -> step s s' -> (measure s' < measure s)%nat.
Proof.
  intros I H. destruct H as [s l pc r s1 pc' W H|s s1 H].
  - unfold measure. proj. rewrite W, !sum_mid, (len_mid l pc' pc r).
    destruct pc; cbn [worker_next] in H.
    1,4: (unfold mutex_lock in H; destruct (lock s); [discriminate|]; cbn [option_map] in H; injection H as <- <-; proj; cbn [wwt]; lia).
    + destruct (queue_empty s && negb (stop s)) eqn:Q1; [|destruct (stop s) eqn:ST].
      * injection H as <- <-. proj. cbn [wwt]. lia.
      * injection H as <- <-. proj. cbn [wwt]. lia.
      * unfold task_queue_pull in H. pose proof (split_last_spec (queue s)) as SP. rewrite andb_true_r in Q1.
        assert (QN : queue s <> []) by (intros Q; apply empty_iff in Q; congruence).
        destruct (split_last (queue s)) as [[q t]|]; [|congruence]. cbn iota zeta in H. injection H as <- <-. proj. assert (QL : length (queue s) = S (length q)) by (rewrite SP, app_length; cbn; lia). rewrite QL. cbn [wwt]. lia.
    + discriminate.
    + injection H as <- <-. proj. cbn [wwt]. lia.
    + injection H as <- <-. destruct t; proj; cbn [wwt]; lia.
    + unfold mutex_lock in H; destruct (lock s); [discriminate|]; cbn [option_map] in H; injection H as <- <-; proj; cbn [wwt]; lia.
    + destruct (stop s); [injection H as <- <-; cbn [wwt]; lia|]. destruct ((working s =? 0) && queue_empty s); injection H as <- <-; [|cbn [wwt]; lia].
      unfold signal_to_parent. destruct (parent s) eqn:P; proj; rewrite ?P; cbn [wwt pwt]; lia.
    + injection H as <- <-. proj. cbn [wwt]. lia.
    + discriminate.
  - destruct H as [s t l P T|s l P T|s l P T|s t s1 P L|s t P|s P|s s1 P SG|s s1 P L|s P|s P|s s1 P L|s P|s P|s P|s P F]; unfold measure; proj.
    + rewrite P, T. cbn [map sum fold_right pwt owt]. fold (sum (map (owt (length (workers s))) l)). lia.
    + rewrite P, T. cbn [map sum fold_right pwt owt]. fold (sum (map (owt (length (workers s))) l)). lia.
    + rewrite P, T. cbn [map sum fold_right pwt owt]. fold (sum (map (owt (length (workers s))) l)). lia.
    + unfold mutex_lock in L. destruct (lock s); [discriminate|]. injection L as <-. proj. rewrite P. cbn [pwt]. lia.
    + rewrite P. cbn [pwt length]. lia.
    + rewrite P. cbn [pwt length]. lia.
    + destruct SG as (ws & [F _] & ->). proj. destruct (rel_facts _ _ F) as (R1 & _). rewrite R1, P. cbn [pwt]. apply wake_measure in F. lia.
    + unfold mutex_lock in L. destruct (lock s); [discriminate|]. injection L as <-. proj. destruct P as [-> | ->]; cbn [pwt]; lia.
    + rewrite P. destruct (stop s); [|destruct ((working s =? 0) && queue_empty s)]; proj; cbn [pwt]; lia.
    + rewrite P. cbn [pwt]. lia.
    + unfold mutex_lock in L. destruct (lock s); [discriminate|]. injection L as <-. proj. rewrite P. cbn [pwt]. lia.
    + rewrite P. cbn [pwt length]. lia.
    + rewrite P. cbn [pwt]. rewrite map_length.
      assert (F : Forall2 rel (workers s) (map (fun w => match w with W_Sleep => W_Woken | _ => w end) (workers s))).
      { clear. induction (workers s) as [|w l IH]; cbn [map]; constructor; auto. destruct w; unfold rel; auto. }
      apply wake_measure in F. lia.
    + rewrite P. cbn [pwt]. lia.
    + rewrite P. cbn [pwt]. lia.
Qed.
Lemma spurious_measure s s' : spurious s s' -> (measure s' <= measure s + 3)%nat.
Proof.
  intros H. destruct H as [s l r W|s P]; unfold measure; proj.
  - rewrite W, !sum_mid, (len_mid l W_Woken W_Sleep r). cbn [wwt]. lia.
  - rewrite P. cbn [pwt]. lia.
Qed.

(** A state in which nobody can move. *)
Definition stuck (s : state) : Prop := forall s', ~ step s s'.
Lemma worker_can s l pc r : workers s = l ++ pc :: r -> stuck s -> worker_next (length l) pc s = None.
Proof.
  intros W N. destruct (worker_next (length l) pc s) as [[s1 pc']|] eqn:Q; auto. exfalso. eapply N. eapply st_worker; eauto.
Qed.
Lemma stuck_unlocked s : inv s -> stuck s -> lock s = None.
Proof.
  intros I N. destruct (lock s) as [[i|]|] eqn:L; auto; exfalso.
  - pose proof (i_owner s I i L) as B. destruct (nth_error (workers s) i) as [pc|] eqn:E; [|apply nth_error_None in E; lia].
    apply (i_lock s I) in L; [|exact E] || idtac. pose proof (proj2 (i_lock s I i pc E) L) as HH.
    apply nth_error_split in E. destruct E as (l & r & W & <-). pose proof (worker_can _ _ _ _ W N) as C.
    destruct pc; try discriminate; cbn [worker_next] in C.
    + destruct (queue_empty s && negb (stop s)); [discriminate|]. destruct (stop s); [discriminate|]. destruct (task_queue_pull s). discriminate.
    + destruct (stop s); discriminate.
  - apply (i_plock s I) in L. destruct (parent s) eqn:P; try discriminate; eapply N, st_parent.
    + eapply ps_pushing; eauto.
    + eapply ps_pushed; eauto.
    + eapply ps_check; eauto.
    + eapply ps_waited; eauto.
    + eapply ps_clear; eauto.
    + eapply ps_broadcast; eauto.
    + eapply ps_cleared; eauto.
Qed.
Lemma stuck_worker s w : inv s -> stuck s -> In w (workers s) -> idle w = true.
Proof.
  intros I N IW. pose proof (stuck_unlocked s I N) as L. apply in_split in IW. destruct IW as (l & r & W).
  pose proof (worker_can _ _ _ _ W N) as C.
  assert (HH : holds w = false). { destruct (holds w) eqn:H; auto. apply (i_lock s I (length l) w) in H; [congruence|]. rewrite W. apply nth_here. }
  destruct w; try discriminate; auto; cbn [worker_next] in C; unfold mutex_lock in C; try rewrite L in C; discriminate.
Qed.
Lemma signal_exists s : exists s', signal_to_worker s s'.
Proof.
  exists (broadcast s). exists (map (fun w => match w with W_Sleep => W_Woken | _ => w end) (workers s)). split; auto. split.
  - clear. induction (workers s) as [|w l IH]; cbn [map]; constructor; auto. destruct w; auto.
  - intros IW Q. rewrite <- Q in IW. apply in_map_iff in IW. destruct IW as (w & E & _). destruct w; discriminate.
Qed.
(** Then all there was to do is done. *)
Lemma stuck_done s : inv s -> stuck s ->
  queue s = [] /\ running (workers s) = [] /\ todo s = [] /\
  ((stop s = false /\ parent s = P_Idle /\ Forall (fun w => w = W_Sleep) (workers s)) \/ (stop s = true /\ parent s = P_End /\ Forall (fun w => w = W_End) (workers s))).
Proof.
  intros I N. pose proof (stuck_unlocked s I N) as L. pose proof (fun w => stuck_worker s w I N) as WI.
  assert (Q : queue s = []).
  { destruct (queue s) as [|t q] eqn:Q; auto. exfalso. assert (QN : queue s <> []) by congruence. destruct (i_wakeup s I QN) as [(w & IW & H)|[P|P]].
    - apply WI in IW. congruence.
    - eapply N, st_parent, ps_pushed; eauto.
    - destruct (signal_exists s) as (s' & S). eapply N, st_parent, ps_signal; eauto. }
  assert (WK : count (workers s) = 0%nat).
  { unfold count. assert (filter is_working (workers s) = []) as ->; auto. apply not_in_empty || idtac.
    destruct (filter is_working (workers s)) as [|w l] eqn:F; auto. exfalso. assert (IW : In w (filter is_working (workers s))) by (rewrite F; left; auto).
    apply filter_In in IW. destruct IW as [IW H]. apply WI in IW. destruct w; discriminate. }
  assert (R : running (workers s) = []).
  { unfold running. clear -WI. induction (workers s) as [|w l IH]; cbn [flat_map]; auto. rewrite IH by (intros; apply WI; right; auto).
    specialize (WI w (or_introl eq_refl)). destruct w; try discriminate; auto. }
  assert (ML : exists s1, mutex_lock s Parent = Some s1) by (unfold mutex_lock; rewrite L; eauto). destruct ML as (s1 & ML).
  split; auto. split; auto.
  destruct (stop s) eqn:ST.
  - assert (NS : parent s <> P_Broadcast) by (intros P; eapply N, st_parent, ps_broadcast; eauto).
    assert (EN : Forall (fun w => w = W_End) (workers s)).
    { apply Forall_forall. intros w IW. pose proof (WI w IW) as H. destruct w; try discriminate; auto. exfalso. apply NS. apply (i_awake s I); auto. }
    assert (P : parent s = P_End).
    { pose proof (i_stop s I) as SP. rewrite ST in SP. destruct (parent s) eqn:P; try discriminate; auto; exfalso; eapply N, st_parent; [eapply ps_broadcast|eapply ps_cleared|eapply ps_join]; eauto. }
    split; [apply (i_last s I); rewrite P; auto|]. right. auto.
  - assert (SL : Forall (fun w => w = W_Sleep) (workers s)).
    { apply Forall_forall. intros w IW. pose proof (WI w IW) as H. destruct w; try discriminate; auto. exfalso. pose proof (i_gone s I W_End IW eq_refl). congruence. }
    assert (P : parent s = P_Idle).
    { pose proof (i_stop s I) as SP. rewrite ST in SP. destruct (parent s) eqn:P; try discriminate; auto; exfalso.
      - eapply N, st_parent, ps_push_lock; eauto.
      - eapply N, st_parent, ps_pushing; eauto.
      - eapply N, st_parent, ps_pushed; eauto.
      - destruct (signal_exists s) as (s' & S). eapply N, st_parent, ps_signal; eauto.
      - eapply N, st_parent, ps_wait_lock; eauto.
      - eapply N, st_parent, ps_check; eauto.
      - destruct (i_sleep s I P) as [A|[A|A]]; [congruence|rewrite (i_working s I), WK in A; lia|]. apply WI in A. discriminate.
      - eapply N, st_parent, ps_wait_lock; eauto.
      - eapply N, st_parent, ps_waited; eauto.
      - eapply N, st_parent, ps_destroy_lock; eauto.
      - eapply N, st_parent, ps_clear; eauto. }
    split; [|left; auto]. destruct (todo s) as [|[t| |] l] eqn:T; auto; exfalso; eapply N, st_parent; [eapply ps_push|eapply ps_wait|eapply ps_destroy]; eauto.
Qed.

(** What has been pushed is what the program has asked for so far. *)
Definition pushes (l : list op) : list task := flat_map (fun o => match o with Push t => [t] | _ => [] end) l.
Definition pending (p : ppc) : list task := match p with P_Push t | P_Pushing t => [t] | _ => [] end.
Lemma acct_step s s' : any_step s s' -> pushed s' ++ pending (parent s') ++ pushes (todo s') = pushed s ++ pending (parent s) ++ pushes (todo s).
Proof.
  intros [H|H].
  - destruct H as [s l pc r s1 pc' W H|s s1 H].
    + assert (X : pushed s1 = pushed s /\ pending (parent s1) = pending (parent s) /\ todo s1 = todo s).
      { destruct pc; cbn [worker_next] in H; unfold mutex_lock in H; try discriminate.
        1,3,6: (destruct (lock s); [discriminate|]; injection H as <- <-; auto).
        - destruct (queue_empty s && negb (stop s)); [injection H as <- <-; auto|]. destruct (stop s); [injection H as <- <-; auto|].
          unfold task_queue_pull in H. destruct (split_last (queue s)) as [[q t]|]; injection H as <- <-; auto.
        - injection H as <- <-; auto.
        - injection H as <- <-; destruct t; auto.
        - destruct (stop s); [injection H as <- <-; auto|]. injection H as <- <-. destruct ((working s =? 0) && queue_empty s); auto.
          unfold signal_to_parent. destruct (parent s) eqn:P; proj; rewrite ?P; auto.
        - injection H as <- <-; auto. }
      destruct X as (A & B & C). proj. rewrite A, B, C. auto.
    + destruct H as [s t l P T|s l P T|s l P T|s t s1 P L|s t P|s P|s s1 P SG|s s1 P L|s P|s P|s s1 P L|s P|s P|s P|s P F]; proj.
      * rewrite P, T. reflexivity.
      * rewrite P, T. reflexivity.
      * rewrite P, T. reflexivity.
      * unfold mutex_lock in L. destruct (lock s); [discriminate|]. injection L as <-. proj. rewrite P. reflexivity.
      * rewrite P. cbn [pending app]. rewrite <- app_assoc. reflexivity.
      * rewrite P. reflexivity.
      * destruct SG as (ws & _ & ->). proj. rewrite P. reflexivity.
      * unfold mutex_lock in L. destruct (lock s); [discriminate|]. injection L as <-. proj. destruct P as [-> | ->]; reflexivity.
      * rewrite P. destruct (stop s); [|destruct ((working s =? 0) && queue_empty s)]; reflexivity.
      * rewrite P. reflexivity.
      * unfold mutex_lock in L. destruct (lock s); [discriminate|]. injection L as <-. proj. rewrite P. reflexivity.
      * rewrite P. reflexivity.
      * rewrite P. reflexivity.
      * rewrite P. reflexivity.
      * rewrite P. reflexivity.
  - destruct H as [s l r W|s P]; proj; auto. rewrite P. reflexivity.
Qed.
Lemma acct_steps s s' : steps any_step s s' -> pushed s' ++ pending (parent s') ++ pushes (todo s') = pushed s ++ pending (parent s) ++ pushes (todo s).
Proof. intros H. induction H; auto. rewrite IHsteps. apply acct_step. auto. Qed.
