(** C80, C81: proofs. *)
From Verif Require Import Base BaseLemmas Types PduHandler PduStream Rtr RtrRun RtrRunSpec.
Notation length := List.length.

Lemma owner_forget fd fd' l : owner_of fd (forget fd' l) = if fd =? fd' then None else owner_of fd l.
Proof.
  unfold forget. induction l as [|[f o] l IH]; cbn [filter fst owner_of]; [destruct (fd =? fd'); reflexivity|].
  destruct (Z.eqb_spec f fd') as [->|Nf]; cbn [negb owner_of]; rewrite IH; destruct (Z.eqb_spec fd fd') as [->|N]; auto.
  - destruct (Z.eqb_spec fd' fd); [congruence|reflexivity].
  - destruct (Z.eqb_spec f fd'); [contradiction|reflexivity].
Qed.
Lemma owner_cons fd f o l : owner_of fd ((f, o) :: l) = if f =? fd then Some o else owner_of fd l.
Proof. reflexivity. Qed.

Record inv (r : run) : Prop := {
  i_conns : forall fd n, owner_of fd (rn_fds r) = Some (Conn n) -> (n < rn_conns r)%nat;
  i_inj : forall fd fd' n, owner_of fd (rn_fds r) = Some (Conn n) -> owner_of fd' (rn_fds r) = Some (Conn n) -> fd = fd';
  i_jobs : forall k j, nth_error (rn_jobs r) k = Some j -> jb_done j = false -> owner_of (jb_fd j) (rn_fds r) = Some (Conn (jb_conn j));
  i_log : forall e k, In e (rn_log r) -> en_from e = Some k -> exists j, nth_error (rn_jobs r) k = Some j /\ en_to e = Conn (jb_conn j);
}.
Lemma owner_started l fd o : owner_of fd (map (fun fd => (fd, Foreign)) l) = Some o -> o = Foreign.
Proof. induction l as [|f l IH]; cbn; [discriminate|]. destruct (f =? fd); [congruence|exact IH]. Qed.
Lemma inv_started l : inv (started l).
Proof.
  constructor; cbn [rn_fds rn_conns rn_jobs rn_log started].
  - intros fd n H. apply owner_started in H. discriminate H.
  - intros fd fd' n H. apply owner_started in H. discriminate H.
  - intros [|k] j H; discriminate H.
  - intros e k [].
Qed.
Lemma nth_upd_eq {A} (l : list A) k x j : nth_error l k = Some j -> nth_error (upd l k x) k = Some x.
Proof. revert k. induction l as [|a l IH]; intros [|k] H; cbn in *; try discriminate H; [reflexivity|apply IH; exact H]. Qed.
Lemma nth_upd_ne {A} (l : list A) k k' x : k <> k' -> nth_error (upd l k x) k' = nth_error l k'.
Proof. revert k k'. induction l as [|a l IH]; intros [|k] [|k'] H; cbn; try reflexivity; [contradiction|apply IH; congruence]. Qed.

(** The tasks of a later moment are those of an earlier one, some of them
    finished meanwhile, and others. *)
Definition later (r r' : run) : Prop := forall k j, nth_error (rn_jobs r) k = Some j ->
  exists j', nth_error (rn_jobs r') k = Some j' /\ jb_conn j' = jb_conn j /\ jb_fd j' = jb_fd j.
Lemma later_refl r r' : rn_jobs r' = rn_jobs r -> later r r'.
Proof. intros E k j H. exists j. rewrite E. auto. Qed.
Lemma step_later r s r' : run_step r s = Some r' -> later r r'.
Proof.
  intros H. destruct s as [[fd|fd|fd q|fd b]|k b|k|fd|fd]; cbn [run_step] in H.
  - destruct (owner_of fd (rn_fds r)); [discriminate H|]. injection H as <-. apply later_refl. reflexivity.
  - injection H as <-. apply later_refl. reflexivity.
  - destruct (owner_of fd (rn_fds r)) as [[n|]|]; try discriminate H. injection H as <-. intros k j E. exists j. cbn [rn_jobs]. rewrite nth_error_app1; [auto|]. apply nth_error_Some. congruence.
  - destruct (owner_of fd (rn_fds r)); [|discriminate H]. injection H as <-. apply later_refl. reflexivity.
  - destruct (nth_error (rn_jobs r) k) as [j|]; [|discriminate H]. destruct (jb_done j); [discriminate H|]. destruct (owner_of (jb_fd j) (rn_fds r)); injection H as <-; apply later_refl; reflexivity.
  - destruct (nth_error (rn_jobs r) k) as [j|] eqn:E; [|discriminate H]. destruct (jb_done j); [discriminate H|]. injection H as <-. intros k' j' E'. cbn [rn_jobs].
    destruct (Nat.eq_dec k k') as [->|N]; [rewrite (nth_upd_eq _ _ _ _ E); eexists; split; [reflexivity|]; cbn; split; congruence|rewrite nth_upd_ne by exact N; eauto].
  - destruct (owner_of fd (rn_fds r)); [discriminate H|]. injection H as <-. apply later_refl. reflexivity.
  - destruct (owner_of fd (rn_fds r)) as [[n|]|]; try discriminate H. injection H as <-. apply later_refl. reflexivity.
Qed.

Lemma step_inv r s r' : inv r -> patient r s -> run_step r s = Some r' -> inv r'.
Proof.
  intros [C J U L] P H. pose proof (step_later _ _ _ H) as Lt.
  assert (Log : rn_log r' = rn_log r -> forall e k, In e (rn_log r') -> en_from e = Some k -> exists j, nth_error (rn_jobs r') k = Some j /\ en_to e = Conn (jb_conn j)).
  { intros E e k He Hk. rewrite E in He. destruct (L _ _ He Hk) as (j & Hj & Ht). destruct (Lt _ _ Hj) as (j' & Hj' & Ec & _). exists j'. split; [exact Hj'|congruence]. }
  destruct s as [[fd|fd|fd q|fd b]|k b|k|fd|fd]; cbn [run_step] in H.
  - destruct (owner_of fd (rn_fds r)) as [o|] eqn:O; [discriminate H|]. injection H as <-. constructor; cbn [rn_fds rn_conns rn_jobs rn_log] in *; [| | |exact (Log eq_refl)].
    + intros f n. rewrite owner_cons. destruct (fd =? f); [intros E; injection E as <-; lia|intros E; pose proof (C _ _ E); lia].
    + intros f f' n. rewrite !owner_cons. destruct (Z.eqb_spec fd f) as [<-|N]; destruct (Z.eqb_spec fd f') as [<-|N']; auto.
      * intros E E'. injection E as <-. pose proof (C _ _ E'). lia.
      * intros E E'. injection E' as <-. pose proof (C _ _ E). lia.
      * apply J.
    + intros k j Hj D. rewrite owner_cons. destruct (Z.eqb_spec fd (jb_fd j)) as [E|N]; [|exact (U _ _ Hj D)]. pose proof (U _ _ Hj D). congruence.
  - injection H as <-. cbn in P. constructor; cbn [rn_fds rn_conns rn_jobs rn_log] in *; [| | |exact (Log eq_refl)].
    + intros f n. rewrite owner_forget. destruct (f =? fd); [discriminate|apply C].
    + intros f f' n. rewrite !owner_forget. destruct (f =? fd); [discriminate|]. destruct (f' =? fd); [discriminate|apply J].
    + intros k j Hj D. rewrite owner_forget. destruct (Z.eqb_spec (jb_fd j) fd) as [E|N]; [|exact (U _ _ Hj D)]. exfalso. apply P. exists j. split; [eapply nth_error_In; exact Hj|auto].
  - destruct (owner_of fd (rn_fds r)) as [[n|]|] eqn:O; try discriminate H. injection H as <-. constructor; cbn [rn_fds rn_conns rn_jobs rn_log] in *; [exact C|exact J| |exact (Log eq_refl)].
    intros k j Hj D. destruct (Nat.lt_ge_cases k (length (rn_jobs r))) as [Lk|Gk].
    + rewrite nth_error_app1 in Hj by exact Lk. exact (U _ _ Hj D).
    + rewrite nth_error_app2 in Hj by exact Gk. destruct (k - length (rn_jobs r))%nat as [|m]; cbn in Hj; [injection Hj as <-; exact O|destruct m; discriminate Hj].
  - destruct (owner_of fd (rn_fds r)) as [o|] eqn:O; [|discriminate H]. injection H as <-. constructor; cbn [rn_fds rn_conns rn_jobs rn_log] in *; [exact C|exact J|exact U|].
    intros e k He Hk. apply in_app_or in He. destruct He as [He|[<-|[]]]; [eapply L; eassumption|discriminate Hk].
  - destruct (nth_error (rn_jobs r) k) as [j|] eqn:Hj; [|discriminate H]. destruct (jb_done j) eqn:D; [discriminate H|]. pose proof (U _ _ Hj D) as Uj. rewrite Uj in H. injection H as <-.
    constructor; cbn [rn_fds rn_conns rn_jobs rn_log] in *; [exact C|exact J|exact U|]. intros e k' He Hk. apply in_app_or in He. destruct He as [He|[<-|[]]]; [eapply L; eassumption|].
    cbn [en_from en_to] in *. injection Hk as <-. exists j. auto.
  - destruct (nth_error (rn_jobs r) k) as [j|] eqn:Hj; [|discriminate H]. destruct (jb_done j) eqn:D; [discriminate H|]. injection H as <-.
    constructor; cbn [rn_fds rn_conns rn_jobs rn_log] in *; [exact C|exact J| |exact (Log eq_refl)]. intros k' j' Hj' D'.
    destruct (Nat.eq_dec k k') as [->|N]; [rewrite (nth_upd_eq _ _ _ _ Hj) in Hj'; injection Hj' as <-; discriminate D'|rewrite nth_upd_ne in Hj' by exact N; exact (U _ _ Hj' D')].
  - destruct (owner_of fd (rn_fds r)) as [o|] eqn:O; [discriminate H|]. injection H as <-. constructor; cbn [rn_fds rn_conns rn_jobs rn_log] in *; [| | |exact (Log eq_refl)].
    + intros f n. rewrite owner_cons. destruct (fd =? f); [discriminate|apply C].
    + intros f f' n. rewrite !owner_cons. destruct (fd =? f); [discriminate|]. destruct (fd =? f'); [discriminate|apply J].
    + intros k j Hj D. rewrite owner_cons. destruct (Z.eqb_spec fd (jb_fd j)) as [E|N]; [|exact (U _ _ Hj D)]. pose proof (U _ _ Hj D). congruence.
  - destruct (owner_of fd (rn_fds r)) as [[n|]|] eqn:O; try discriminate H. injection H as <-. constructor; cbn [rn_fds rn_conns rn_jobs rn_log] in *; [| | |exact (Log eq_refl)].
    + intros f n. rewrite owner_forget. destruct (f =? fd); [discriminate|apply C].
    + intros f f' n. rewrite !owner_forget. destruct (f =? fd); [discriminate|]. destruct (f' =? fd); [discriminate|apply J].
    + intros k j Hj D. rewrite owner_forget. destruct (Z.eqb_spec (jb_fd j) fd) as [E|N]; [|exact (U _ _ Hj D)]. pose proof (U _ _ Hj D). congruence.
Qed.
Lemma exec_inv : forall ss r r', inv r -> always patient r ss -> exec r ss = Some r' -> inv r'.
Proof.
  induction ss as [|s ss IH]; intros r r' I P H; cbn [exec always] in *; [injection H as <-; exact I|].
  destruct P as (P & Ps). destruct (run_step r s) as [r1|] eqn:E; [|discriminate H]. exact (IH _ _ (step_inv _ _ _ I P E) Ps H).
Qed.
Lemma exec_later : forall ss r r', exec r ss = Some r' -> later r r'.
Proof.
  induction ss as [|s ss IH]; intros r r' H; cbn [exec] in H; [injection H as <-; apply later_refl; reflexivity|].
  destruct (run_step r s) as [r1|] eqn:E; [|discriminate H]. intros k j Hj. destruct (step_later _ _ _ E _ _ Hj) as (j1 & H1 & E1 & F1). destruct (IH _ _ H _ _ H1) as (j2 & H2 & E2 & F2).
  exists j2. split; [exact H2|]. split; congruence.
Qed.

(** *** Everything that a task writes is received *)
Lemma received_app n k a b : received n k (a ++ b) = received n k a ++ received n k b.
Proof. apply flat_map_app. Qed.
Lemma written_cons k s ss : written k (s :: ss) = written k [s] ++ written k ss.
Proof. unfold written. cbn [flat_map]. rewrite app_nil_r. reflexivity. Qed.
Lemma exec_received : forall ss r r' k j, inv r -> always patient r ss -> exec r ss = Some r' -> nth_error (rn_jobs r') k = Some j ->
  received (jb_conn j) k (rn_log r') = received (jb_conn j) k (rn_log r) ++ written k ss.
Proof.
  induction ss as [|s ss IH]; intros r r' k j I P H Hj; cbn [exec always] in *; [injection H as <-; cbn; rewrite app_nil_r; reflexivity|].
  destruct P as (P & Ps). destruct (run_step r s) as [r1|] eqn:E; [|discriminate H].
  rewrite (IH _ _ _ _ (step_inv _ _ _ I P E) Ps H Hj). pose proof (exec_later _ _ _ H) as Lt. rewrite (written_cons k s ss), app_assoc. f_equal.
  destruct s as [[fd|fd|fd q|fd b]|k' b|k'|fd|fd]; cbn [run_step] in E; cbn [written flat_map app].
  - destruct (owner_of fd (rn_fds r)); [discriminate E|]. injection E as <-. cbn. rewrite app_nil_r. reflexivity.
  - injection E as <-. cbn. rewrite app_nil_r. reflexivity.
  - destruct (owner_of fd (rn_fds r)) as [[n|]|]; try discriminate E. injection E as <-. cbn. rewrite app_nil_r. reflexivity.
  - destruct (owner_of fd (rn_fds r)) as [o|]; [|discriminate E]. injection E as <-. cbn [rn_log]. rewrite received_app. cbn. destruct o; reflexivity.
  - destruct (nth_error (rn_jobs r) k') as [j'|] eqn:Hj'; [|discriminate E]. destruct (jb_done j') eqn:D; [discriminate E|]. pose proof (i_jobs _ I _ _ Hj' D) as Uj. rewrite Uj in E. injection E as <-.
    cbn [rn_log]. rewrite received_app. f_equal. cbn [received flat_map en_to en_from en_bytes]. destruct (Nat.eqb_spec k' k) as [->|N]; [|rewrite andb_false_r; reflexivity].
    destruct (Lt _ _ Hj') as (j2 & H2 & E2 & _). assert (j2 = j) by congruence. subst j2. rewrite E2, Nat.eqb_refl. reflexivity.
  - destruct (nth_error (rn_jobs r) k') as [j'|] eqn:Hj'; [|discriminate E]. destruct (jb_done j'); [discriminate E|]. injection E as <-. cbn. rewrite app_nil_r. reflexivity.
  - destruct (owner_of fd (rn_fds r)); [discriminate E|]. injection E as <-. cbn. rewrite app_nil_r. reflexivity.
  - destruct (owner_of fd (rn_fds r)) as [[n|]|]; try discriminate E. injection E as <-. cbn. rewrite app_nil_r. reflexivity.
Qed.

(** *** Turns *)
Record turns (r : run) : Prop := {
  t_inv : inv r;
  t_last : forall a b ja jb, (a < b)%nat -> nth_error (rn_jobs r) a = Some ja -> nth_error (rn_jobs r) b = Some jb -> jb_conn ja = jb_conn jb -> jb_done ja = true;
  t_log : in_turns (rn_log r);
}.
Lemma turns_same_log r r' : in_turns (rn_log r) -> rn_log r' = rn_log r -> in_turns (rn_log r').
Proof. intros H E. rewrite E. exact H. Qed.
Lemma in_turns_snoc log e : in_turns log -> (forall e1 n a b, In e1 log -> en_to e1 = Conn n -> en_to e = Conn n -> en_from e1 = Some a -> en_from e = Some b -> (a <= b)%nat) -> in_turns (log ++ [e]).
Proof.
  intros H He l1 e1 l2 e2 l3 n a b E T1 T2 F1 F2. destruct l3 as [|x l3] using rev_ind.
  - assert (E' : log ++ [e] = (l1 ++ e1 :: l2) ++ [e2]) by (rewrite E, <- app_assoc; reflexivity). apply app_inj_tail in E'. destruct E' as (-> & <-).
    eapply He; [|exact T1|exact T2|exact F1|exact F2]. apply in_or_app. right. left. reflexivity.
  - assert (E' : log ++ [e] = (l1 ++ e1 :: l2 ++ e2 :: l3) ++ [x]) by (rewrite E, <- !app_assoc; cbn [app]; rewrite <- app_assoc; reflexivity). apply app_inj_tail in E'. destruct E' as (-> & <-).
    eapply H; [reflexivity|exact T1|exact T2|exact F1|exact F2].
Qed.
Lemma step_turns r s r' : turns r -> patient r s -> one_at_a_time r s -> run_step r s = Some r' -> turns r'.
Proof.
  intros [I L T] P O H. constructor; [exact (step_inv _ _ _ I P H)|..].
  - destruct s as [[fd|fd|fd q|fd b]|k b|k|fd|fd]; cbn [run_step] in H.
    + destruct (owner_of fd (rn_fds r)); [discriminate H|]. injection H as <-. exact L.
    + injection H as <-. exact L.
    + destruct (owner_of fd (rn_fds r)) as [[n|]|] eqn:Of; try discriminate H. injection H as <-. cbn [rn_jobs]. intros a b ja jb Lab Ha Hb Ec. cbn in O.
      assert (La : (a < length (rn_jobs r))%nat).
      { assert (K : (b < length (rn_jobs r ++ [{| jb_fd := fd; jb_conn := n; jb_request := q; jb_done := false |}]))%nat) by (apply nth_error_Some; congruence). rewrite app_length in K. cbn in K. lia. }
      rewrite nth_error_app1 in Ha by exact La. destruct (Nat.lt_ge_cases b (length (rn_jobs r))) as [Lb|Gb].
      * rewrite nth_error_app1 in Hb by exact Lb. exact (L _ _ _ _ Lab Ha Hb Ec).
      * rewrite nth_error_app2 in Hb by exact Gb. destruct (b - length (rn_jobs r))%nat as [|m]; cbn in Hb; [|destruct m; discriminate Hb]. injection Hb as <-. cbn [jb_conn] in Ec.
        destruct (jb_done ja) eqn:D; [reflexivity|]. exfalso. apply O. exists ja. split; [eapply nth_error_In; exact Ha|]. split; [exact D|].
        pose proof (i_jobs _ I _ _ Ha D) as Ua. rewrite Ec in Ua. exact (i_inj _ I _ _ _ Ua Of).
    + destruct (owner_of fd (rn_fds r)); [|discriminate H]. injection H as <-. exact L.
    + destruct (nth_error (rn_jobs r) k) as [j|]; [|discriminate H]. destruct (jb_done j); [discriminate H|]. destruct (owner_of (jb_fd j) (rn_fds r)); injection H as <-; exact L.
    + destruct (nth_error (rn_jobs r) k) as [j|] eqn:Hj; [|discriminate H]. destruct (jb_done j) eqn:D; [discriminate H|]. injection H as <-. cbn [rn_jobs]. intros a b ja jb Lab Ha Hb Ec.
      assert (Back : forall x jx, nth_error (upd (rn_jobs r) k {| jb_fd := jb_fd j; jb_conn := jb_conn j; jb_request := jb_request j; jb_done := true |}) x = Some jx ->
        exists jx', nth_error (rn_jobs r) x = Some jx' /\ jb_conn jx' = jb_conn jx /\ (jb_done jx' = true -> jb_done jx = true)).
      { intros x jx Hx. destruct (Nat.eq_dec k x) as [<-|N]; [rewrite (nth_upd_eq _ _ _ _ Hj) in Hx; injection Hx as <-; exists j; auto|rewrite nth_upd_ne in Hx by exact N; exists jx; auto]. }
      destruct (Back _ _ Ha) as (ja' & Ha' & Ea & Da). destruct (Back _ _ Hb) as (jb' & Hb' & Eb & _). apply Da. apply (L _ _ _ _ Lab Ha' Hb'). congruence.
    + destruct (owner_of fd (rn_fds r)); [discriminate H|]. injection H as <-. exact L.
    + destruct (owner_of fd (rn_fds r)) as [[n|]|]; try discriminate H. injection H as <-. exact L.
  - destruct s as [[fd|fd|fd q|fd b]|k b|k|fd|fd]; cbn [run_step] in H.
    + destruct (owner_of fd (rn_fds r)); [discriminate H|]. injection H as <-. exact T.
    + injection H as <-. exact T.
    + destruct (owner_of fd (rn_fds r)) as [[n|]|]; try discriminate H. injection H as <-. exact T.
    + destruct (owner_of fd (rn_fds r)); [|discriminate H]. injection H as <-. apply in_turns_snoc; [exact T|]. cbn [en_from]. discriminate.
    + destruct (nth_error (rn_jobs r) k) as [j|] eqn:Hj; [|discriminate H]. destruct (jb_done j) eqn:D; [discriminate H|]. pose proof (i_jobs _ I _ _ Hj D) as Uj. rewrite Uj in H. injection H as <-.
      apply in_turns_snoc; [exact T|]. cbn [en_from en_to]. intros e1 n a b' He1 Et E2 F1 F2. injection F2 as <-. injection E2 as E2. destruct (i_log _ I _ _ He1 F1) as (ja & Ha & Ta).
      destruct (Nat.le_gt_cases a k) as [|G]; [assumption|]. exfalso. assert (Ec : jb_conn j = jb_conn ja) by congruence. pose proof (L _ _ _ _ G Hj Ha Ec). congruence.
    + destruct (nth_error (rn_jobs r) k) as [j|] eqn:Hj; [|discriminate H]. destruct (jb_done j) eqn:D; [discriminate H|]. injection H as <-. exact T.
    + destruct (owner_of fd (rn_fds r)); [discriminate H|]. injection H as <-. exact T.
    + destruct (owner_of fd (rn_fds r)) as [[n|]|]; try discriminate H. injection H as <-. exact T.
Qed.
Lemma exec_turns : forall ss r r', turns r -> always patient r ss -> always one_at_a_time r ss -> exec r ss = Some r' -> turns r'.
Proof.
  induction ss as [|s ss IH]; intros r r' I P O H; cbn [exec always] in *; [injection H as <-; exact I|].
  destruct P as (P & Ps). destruct O as (O & Os). destruct (run_step r s) as [r1|] eqn:E; [|discriminate H]. exact (IH _ _ (step_turns _ _ _ I P O E) Ps Os H).
Qed.
Lemma turns_started l : turns (started l).
Proof.
  constructor; [apply inv_started|..].
  - intros [|a] b ja jb _ H; discriminate H.
  - intros [|? ?] e1 l2 e2 l3 n a b E; discriminate E.
Qed.

(** *** To check examples *)
Definition busyb (r : run) (fd : Z) : bool := existsb (fun j => negb (jb_done j) && (jb_fd j =? fd)) (rn_jobs r).
Lemma busyb_spec r fd : busyb r fd = false -> ~ busy r fd.
Proof.
  intros H (j & Hj & D & F). assert (K : busyb r fd = true); [|congruence]. apply existsb_exists. exists j. split; [exact Hj|]. rewrite D, F, Z.eqb_refl. reflexivity.
Qed.
Fixpoint checked (r : run) (ss : list step) : bool :=
  match ss with
  | [] => true
  | s :: ss => match s with Poll (Closed fd) | Poll (Pushed fd _) | Poll (Wrote fd _) => negb (busyb r fd) | _ => true end && match run_step r s with Some r => checked r ss | None => true end
  end.
Lemma checked_spec : forall ss r, checked r ss = true -> always patient r ss /\ always one_at_a_time r ss.
Proof.
  induction ss as [|s ss IH]; intros r H; cbn [checked always] in *; [auto|]. apply andb_prop in H. destruct H as (A & B).
  assert (N : match run_step r s with Some r => always patient r ss /\ always one_at_a_time r ss | None => True end) by (destruct (run_step r s); auto).
  assert (M : patient r s /\ one_at_a_time r s) by (destruct s as [[]| | | |]; cbn [patient one_at_a_time]; auto; apply negb_true_iff in A; apply busyb_spec in A; auto).
  destruct (run_step r s); intuition.
Qed.
