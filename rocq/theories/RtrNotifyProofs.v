(** C82: proofs. *)
From Verif Require Import Base BaseLemmas RtrNotify RtrNotifySpec.
Notation length := List.length.

(** The list: in block [b], [cs] and room. *)
Definition holds (h : list block) (b cap : nat) (cs : list Z) : Prop :=
  exists bl, nth_error h b = Some (Some bl) /\ length bl = cap /\ (length cs < cap)%nat /\ firstn (length cs) bl = map Some cs.
Definition ready (s : state) : Prop :=
  (al_array (list_ s) = None /\ al_len (list_ s) = 0%nat /\ clients_ s = []) \/
  (exists b, al_array (list_ s) = Some b /\ al_len (list_ s) = length (clients_ s) /\ holds (heap s) b (al_capacity (list_ s)) (clients_ s)).
Definition at_adder (s : state) : Prop :=
  let l := list_ s in let cs := clients_ s in
  match adder s with
  | A_Idle | A_Null _ => ready s
  | A_Alloc _ => al_array l = None /\ al_len l = 0%nat /\ cs = []
  | A_Len _ => exists b, al_array l = Some b /\ al_len l = length cs /\ holds (heap s) b (al_capacity l) cs
  | A_While _ | A_Double _ => exists b, al_array l = Some b /\ al_len l = S (length cs) /\ holds (heap s) b (al_capacity l) cs
  | A_Realloc _ => exists b cap, al_array l = Some b /\ al_len l = S (length cs) /\ al_capacity l = (cap * 2)%nat /\ holds (heap s) b cap cs
  | A_Assign _ b => al_len l = S (length cs) /\ holds (heap s) b (al_capacity l) cs
  | A_Store _ => exists b, al_array l = Some b /\ al_len l = S (length cs) /\ (S (length cs) < al_capacity l)%nat /\ holds (heap s) b (al_capacity l) cs
  end.
Definition at_notifier (s : state) : Prop :=
  let cs := clients_ s in
  match notifier s with
  | N_Idle => True
  | N_First => round s = (cs, [])
  | N_Check b i => b = al_array (list_ s) /\ (i <= length cs)%nat /\ round s = (cs, firstn i cs)
  | N_Visit b i => b = al_array (list_ s) /\ (i < length cs)%nat /\ round s = (cs, firstn i cs)
  | N_Unlock => round s = (cs, cs)
  end.
Definition pending (a : apc) : list op :=
  match a with A_Idle => [] | A_Null c | A_Alloc c | A_Len c | A_While c | A_Double c | A_Realloc c | A_Assign c _ | A_Store c => [Add c] end.
Record inv (ops : list op) (s : state) : Prop := {
  v_adder : at_adder s;
  v_notifier : at_notifier s;
  v_apart : notifier s = N_Idle \/ adder s = A_Idle;
  v_rounds : Forall (fun r => snd r = fst r) (rounds s);
  v_history : exists past, ops = past ++ pending (adder s) ++ todo s /\ clients_ s = present past;
}.
Lemma present_snoc past o : present (past ++ [o]) = match o with Add c => present past ++ [c] | Keep f => filter f (present past) end.
Proof. unfold present. rewrite fold_left_app. reflexivity. Qed.
Lemma nth_app_last {A} (l : list A) x : nth_error (l ++ [x]) (length l) = Some x.
Proof. rewrite nth_error_app2, Nat.sub_diag by lia. reflexivity. Qed.
Lemma upd_length {A} (l : list A) n x : length (upd l n x) = length l.
Proof. revert n. induction l as [|a l IH]; intros [|n]; cbn; auto. Qed.
Lemma nth_upd {A} (l : list A) n x : (n < length l)%nat -> nth_error (upd l n x) n = Some x.
Proof. revert n. induction l as [|a l IH]; intros [|n] H; cbn in *; try lia; [reflexivity|apply IH; lia]. Qed.
Lemma firstn_upd {A} (l : list A) n x : (n < length l)%nat -> firstn (S n) (upd l n x) = firstn n l ++ [x].
Proof. revert n. induction l as [|a l IH]; intros [|n] H; cbn in *; try lia; [reflexivity|]. f_equal. apply IH. lia. Qed.
Lemma nth_Some {A} (l : list A) n x : nth_error l n = Some x -> (n < length l)%nat.
Proof. intros H. apply nth_error_Some. congruence. Qed.
Lemma filter_somes f (cs : list Z) : filter (fun x => match x with Some c => f c | None => true end) (map Some cs) = map Some (filter f cs).
Proof. induction cs as [|c cs IH]; cbn; [reflexivity|]. destruct (f c); cbn; congruence. Qed.
Lemma filter_length_le (f : Z -> bool) l : (length (filter f l) <= length l)%nat.
Proof. induction l as [|a l IH]; cbn; [lia|]. destruct (f a); cbn; lia. Qed.

Lemma mk ops s : notifier s = N_Idle -> Forall (fun r => snd r = fst r) (rounds s) -> at_adder s -> (exists past, ops = past ++ pending (adder s) ++ todo s /\ clients_ s = present past) -> inv ops s.
Proof. intros A B C D. constructor; auto. unfold at_notifier. rewrite A. exact I. Qed.
Lemma adder_inv ops s o : inv ops s -> notifier s = N_Idle -> adder_step s = Some o -> exists s', o = Ok s' /\ inv ops s'.
Proof.
  intros [Va Vn Vp Vr (past & Eo & Ec)] Ni H. unfold adder_step in H. unfold at_adder in Va.
  destruct (adder s) as [|c|c|c|c|c|c|c nb|c] eqn:A.
  - (* idle *)
    destruct (todo s) as [|[c|f] t] eqn:T; [discriminate H|..]; cbn [pending app] in Eo.
    + injection H as <-. eexists. split; [reflexivity|]. apply mk; [exact Ni|exact Vr|exact Va|]. exists past. auto.
    + rewrite Ni in H. destruct Va as [(En & El & Ecs)|(b & Eb & El & bl & Hb & Lb & Lc & F)].
      * rewrite En in H. injection H as <-. eexists. split; [reflexivity|]. apply mk; [reflexivity|exact Vr|left; cbn; rewrite Ecs; auto|].
        exists (past ++ [Keep f]). rewrite present_snoc, <- app_assoc. split; [exact Eo|cbn; rewrite Ec; reflexivity].
      * rewrite Eb in H. cbn [get_block] in H. rewrite Hb in H. rewrite El, F, filter_somes in H. injection H as <-. eexists. split; [reflexivity|].
        pose proof (filter_length_le f (clients_ s)) as Lf.
        apply mk; [reflexivity|exact Vr| |cbn; exists (past ++ [Keep f]); rewrite present_snoc, <- app_assoc; split; [exact Eo|cbn; rewrite Ec; reflexivity]].
        right. exists b. cbn. split; [reflexivity|]. rewrite map_length. split; [reflexivity|].
        exists (map Some (filter f (clients_ s)) ++ skipn (length (filter f (clients_ s))) bl). split; [rewrite nth_upd by (eapply nth_Some; exact Hb); reflexivity|].
        split; [rewrite app_length, map_length, skipn_length; lia|]. split; [lia|].
        rewrite firstn_app, map_length, Nat.sub_diag. cbn [firstn]. rewrite app_nil_r, firstn_all2 by (rewrite map_length; lia). reflexivity.
  - injection H as <-. eexists. split; [reflexivity|]. apply mk; [exact Ni|exact Vr| |cbn; exists past; destruct (al_array (list_ s)); auto].
    unfold at_adder. cbn. destruct Va as [(En & El & Ecs)|(b & Eb & El & Hh)]; [rewrite En; auto|rewrite Eb; exists b; auto].
  - injection H as <-. destruct Va as (En & El & Ecs). eexists. split; [reflexivity|]. apply mk; [exact Ni|exact Vr| |cbn; exists past; auto].
    unfold at_adder. cbn. exists (length (heap s)). split; [reflexivity|]. rewrite Ecs, El. split; [reflexivity|]. eexists. rewrite nth_app_last. split; [reflexivity|]. cbn. repeat split; lia.
  - injection H as <-. destruct Va as (b & Eb & El & Hh). eexists. split; [reflexivity|]. apply mk; [exact Ni|exact Vr| |cbn; exists past; auto].
    unfold at_adder. cbn. exists b. rewrite El. auto.
  - injection H as <-. destruct Va as (b & Eb & El & Hh). eexists. split; [reflexivity|].
    destruct (Nat.leb_spec (al_capacity (list_ s)) (al_len (list_ s))) as [G|G]; (apply mk; [exact Ni|exact Vr| |cbn; exists past; auto]);
      unfold at_adder; cbn; exists b; repeat split; auto; lia.
  - injection H as <-. destruct Va as (b & Eb & El & Hh). eexists. split; [reflexivity|]. apply mk; [exact Ni|exact Vr| |cbn; exists past; auto].
    unfold at_adder. cbn. exists b, (al_capacity (list_ s)). auto.
  - destruct Va as (b & cap & Eb & El & Ecap & bl & Hb & Lb & Lc & F). rewrite Eb in H. cbn [get_block] in H. rewrite Hb in H. injection H as <-. eexists. split; [reflexivity|].
    apply mk; [exact Ni|exact Vr| |cbn; exists past; auto]. unfold at_adder. cbn. split; [exact El|].
    eexists. split; [rewrite <- (upd_length (heap s) b None); apply nth_app_last|]. rewrite Ecap. split; [rewrite app_length, repeat_length; lia|]. split; [lia|].
    rewrite firstn_app. replace (length (clients_ s) - length bl)%nat with 0%nat by lia. cbn [firstn]. rewrite app_nil_r. exact F.
  - injection H as <-. destruct Va as (El & Hh). eexists. split; [reflexivity|]. apply mk; [exact Ni|exact Vr| |cbn; exists past; auto].
    unfold at_adder. cbn. exists nb. auto.
  - destruct Va as (b & Eb & El & Lc' & bl & Hb & Lb & Lc & F). rewrite Eb in H. cbn [get_block] in H. rewrite Hb in H. rewrite El in H. cbn [Nat.sub] in H. rewrite Nat.sub_0_r in H.
    destruct (Nat.ltb_spec (length (clients_ s)) (length bl)) as [G|G]; [|lia]. injection H as <-. eexists. split; [reflexivity|].
    apply mk; [exact Ni|exact Vr| |cbn; exists (past ++ [Add c]); rewrite present_snoc, <- app_assoc; cbn [app]; split; [exact Eo|cbn; rewrite Ec; reflexivity]].
    right. exists b. cbn. rewrite app_length. cbn [length]. split; [exact Eb|]. split; [lia|]. eexists. rewrite nth_upd by (eapply nth_Some; exact Hb). split; [reflexivity|].
    rewrite upd_length, app_length. cbn [length]. split; [exact Lb|]. split; [lia|]. replace (length (clients_ s) + 1)%nat with (S (length (clients_ s))) by lia. rewrite firstn_upd by exact G. rewrite F, map_app. reflexivity.
Qed.
Lemma firstn_snoc {A} (l : list A) i x : nth_error l i = Some x -> firstn (S i) l = firstn i l ++ [x].
Proof. revert i. induction l as [|a l IH]; intros [|i] H; cbn in *; try discriminate H; [congruence|]. f_equal. apply IH. exact H. Qed.
Lemma notifier_inv ops s : inv ops s -> adder s = A_Idle -> exists s', notifier_step s = Ok s' /\ inv ops s'.
Proof.
  intros [Va Vn Vp Vr Vh] Ai. unfold at_adder in Va. rewrite Ai in Va. unfold at_notifier in Vn. unfold notifier_step.
  assert (K : forall n r rs, at_notifier (with_notifier s n r rs) -> Forall (fun r => snd r = fst r) rs -> inv ops (with_notifier s n r rs)).
  { intros n r rs H1 H2. constructor; cbn; auto. unfold at_adder. cbn. rewrite Ai. exact Va. }
  destruct (notifier s) as [| |b i|b i|].
  - eexists. split; [reflexivity|]. apply K; [reflexivity|exact Vr].
  - eexists. split; [reflexivity|]. apply K; [|exact Vr]. cbn. repeat split; [lia|]. rewrite Vn. reflexivity.
  - destruct Vn as (-> & Li & Er). destruct Va as [(En & El & Ecs)|(b & Eb & El & Hh)].
    + rewrite En. eexists. split; [reflexivity|]. apply K; [|exact Vr]. cbn. rewrite Er, Ecs. rewrite firstn_nil. reflexivity.
    + rewrite Eb, Nat.eqb_refl. eexists. split; [reflexivity|]. apply K; [|exact Vr]. rewrite El. unfold at_notifier. cbn [notifier with_notifier clients_ list_ round].
      destruct (Nat.ltb_spec i (length (clients_ s))) as [G|G]; cbn [notifier]; [rewrite Eb; auto|]. rewrite Er, firstn_all2 by exact G. reflexivity.
  - destruct Vn as (-> & Li & Er). destruct Va as [(En & El & Ecs)|(b & Eb & El & bl & Hb & Lb & Lc & F)]; [rewrite Ecs in Li; cbn in Li; lia|].
    rewrite Eb. cbn [get_block]. rewrite Hb. destruct (nth_error (clients_ s) i) as [c|] eqn:Hc; [|apply nth_error_None in Hc; lia].
    assert (Hn : nth_error bl i = Some (Some c)).
    { rewrite <- (firstn_skipn (length (clients_ s)) bl), nth_error_app1 by (rewrite F, map_length; exact Li). rewrite F. apply map_nth_error. exact Hc. }
    rewrite Hn. eexists. split; [reflexivity|]. apply K; [|exact Vr]. unfold at_notifier. cbn [notifier with_notifier clients_ list_ round]. rewrite Eb. split; [reflexivity|]. split; [lia|].
    rewrite Er. cbn [fst snd]. rewrite (firstn_snoc _ _ _ Hc). reflexivity.
  - eexists. split; [reflexivity|]. apply K; [exact I|]. apply Forall_app. split; [exact Vr|]. constructor; [|constructor]. rewrite Vn. reflexivity.
Qed.
Lemma exec_inv : forall ts ops s o, inv ops s -> exclusive s ts -> exec s ts = Some o -> exists s', o = Ok s' /\ inv ops s'.
Proof.
  induction ts as [|t ts IH]; intros ops s o V X H; cbn [exec exclusive] in *; [injection H as <-; eauto|]. destruct X as (X & Xs). destruct t; cbn [step] in *.
  - destruct (adder_step s) as [o1|] eqn:A; [|discriminate H]. destruct (adder_inv _ _ _ V X A) as (s1 & -> & V1). eapply IH; eassumption.
  - destruct (notifier_inv _ _ V X) as (s1 & E & V1). rewrite E in *. eapply IH; eassumption.
Qed.
Lemma inv_start ops : inv ops (start ops).
Proof. constructor; cbn; auto. - left. auto. - exists []. auto. Qed.
