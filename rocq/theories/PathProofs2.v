(** Proofs about local paths of URIs. *)
From Coq Require Import String.
From Verif Require Import Base BaseLemmas CString CLib PathBuilder PathSpec PathProofs.
Notation length := List.length.

(** A string followed by components. *)
Definition ext (B : list Z) (d : list (list Z)) : list Z := B ++ flat_map (fun c => 47 :: c) d.
Lemma ext_nil B : ext B [] = B.
Proof. unfold ext. cbn. apply app_nil_r. Qed.
Lemma ext_snoc B d x : ext B (d ++ [x]) = ext B d ++ [47] ++ x.
Proof. unfold ext. rewrite flat_map_app. cbn. rewrite app_nil_r, <- app_assoc. reflexivity. Qed.
Lemma ext_app B d e : ext B (d ++ e) = ext (ext B d) e.
Proof. unfold ext. rewrite flat_map_app, app_assoc. reflexivity. Qed.
Lemma ext_ne B d : B <> [] -> ext B d <> [].
Proof. destruct B; [congruence|discriminate]. Qed.
Lemma glue_ext B d x : B <> [] -> glue (ext B d) x = ext B (d ++ [x]).
Proof. intros NE. rewrite ext_snoc. pose proof (ext_ne B d NE). unfold glue. destruct (ext B d); [congruence|reflexivity]. Qed.
Lemma join_ext x l : join (x :: l) = ext x l.
Proof.
  revert x. induction l as [|y l IH]; intros x; [rewrite ext_nil; reflexivity|].
  change (join (x :: y :: l)) with (x ++ [47] ++ join (y :: l)). rewrite IH. unfold ext. cbn. reflexivity.
Qed.
Lemma join_app l r : l <> [] -> join (l ++ r) = ext (join l) r.
Proof.
  destruct l as [|x l]; [congruence|]. intros _. cbn [app]. rewrite !join_ext, ext_app. reflexivity.
Qed.

(** Reading back slash-free components. *)
Lemma ext_inj B d e : Forall (fun c => ~ In 47 c) d -> Forall (fun c => ~ In 47 c) e -> ext B d = ext B e -> d = e.
Proof.
  unfold ext. intros Fd Fe H. apply app_inv_head in H. revert e Fe H.
  assert (SP : forall a b u v, ~ In 47 a -> ~ In 47 b -> a ++ flat_map (fun c => 47 :: c) u = b ++ flat_map (fun c => 47 :: c) v ->
            a = b /\ flat_map (fun c => 47 :: c) u = flat_map (fun c : list Z => 47 :: c) v).
  { induction a as [|x a IH]; intros b u v Na Nb H.
    - destruct b as [|y b]; [auto|]. cbn [app] in H. destruct u as [|w u]; [discriminate|].
      cbn in H. inversion H; subst. destruct Nb. left. auto.
    - destruct b as [|y b]; cbn [app] in H.
      + destruct v as [|w v]; [discriminate|]. cbn in H. inversion H; subst. destruct Na. left. auto.
      + inversion H; subst. destruct (IH b u v) as [-> E]; auto; intros I; [apply Na|apply Nb]; right; auto. }
  induction d as [|x d IH]; intros [|y e] Fe H; auto; try discriminate.
  inversion Fd; subst. inversion Fe; subst. cbn in H. inversion H as [H'].
  apply SP in H'; auto. destruct H' as [-> E]. f_equal. apply IH; auto.
Qed.

(** ** Splitting. *)
Lemma split_nonempty s l : split_at s l -> l <> [].
Proof. destruct 1; discriminate. Qed.
Lemma split_exists s : exists l, split_at s l.
Proof.
  remember (length s) as n. revert s Heqn. induction n as [n IH] using lt_wf_ind. intros s ->.
  destruct (in_dec Z.eq_dec 47 s) as [I|I]; [|exists [s]; constructor; auto].
  assert (E : exists a t, s = a ++ 47 :: t /\ ~ In 47 a).
  { clear IH. induction s as [|c s IHs]; [destruct I|]. destruct (Z.eq_dec c 47) as [->|NE].
    - exists [], s. auto.
    - destruct I as [I|I]; [congruence|]. destruct (IHs I) as (a & t & -> & N). exists (c :: a), t. split; auto.
      intros [H|H]; auto. }
  destruct E as (a & t & -> & N). destruct (IH (length t)) with (s := t) as (l & L); auto.
  { rewrite app_length. cbn. lia. }
  exists (a :: l). constructor; auto.
Qed.
Lemma split_fun s l : split_at s l -> forall l', split_at s l' -> l = l'.
Proof.
  induction 1 as [s N|a s l N S IH]; intros l' H; inversion H; subst; auto.
  - destruct N. apply in_app_iff. right. left. auto.
  - match goal with H : ~ In 47 (a ++ _) |- _ => destruct H; apply in_app_iff; right; left; auto end.
  - assert (E : a0 = a /\ s0 = s).
    { clear - N H0 H1. revert a0 H0 H1. induction a as [|x a IHa]; intros [|y b] E Nb; cbn in E; inversion E; subst; auto.
      - destruct Nb. left; auto.
      - destruct N. left; auto.
      - destruct (IHa) with (a0 := b) as [-> ->]; auto; intros I; [apply N|apply Nb]; right; auto. }
    destruct E; subst. f_equal. apply IH; auto.
Qed.
Lemma split_noslash s l : split_at s l -> Forall (fun c => ~ In 47 c) l.
Proof. induction 1; constructor; auto. Qed.
Lemma split_incl s l c x : split_at s l -> In c l -> In x c -> In x s.
Proof.
  intros S. revert c. induction S as [s N|a s l N S IH]; intros c Ic Ix.
  - destruct Ic as [<-|[]]. auto.
  - apply in_app_iff. destruct Ic as [<-|Ic]; auto. right. right. eauto.
Qed.

Lemma index_of_app a b : ~ In 47 a -> index_of 47 (a ++ 47 :: b) = Some (length a).
Proof.
  induction a as [|x a IH]; intros N; cbn; [reflexivity|].
  destruct (Z.eqb_spec x 47) as [->|]; [destruct N; left; auto|]. rewrite IH; [reflexivity|]. intros I. apply N. right. auto.
Qed.
Lemma index_of_none a : ~ In 47 a -> index_of 47 a = None.
Proof.
  induction a as [|x a IH]; intros N; cbn; [reflexivity|].
  destruct (Z.eqb_spec x 47) as [->|]; [destruct N; left; auto|]. rewrite IH; [reflexivity|]. intros I. apply N. right. auto.
Qed.
Lemma skipn_S_app {A} (a : list A) x b : skipn (S (length a)) (a ++ x :: b) = b.
Proof. induction a; cbn; auto. Qed.

(** path_next() yields the components, and stops at the end of the text. *)
Lemma path_next_last c : ~ In 47 c -> path_next (Some c) = match c with [] => None | _ => Some (c, length c, None) end.
Proof. intros N. unfold path_next. rewrite index_of_none by auto. reflexivity. Qed.
Lemma path_next_cons c s : ~ In 47 c -> path_next (Some (c ++ 47 :: s)) = Some (c ++ 47 :: s, length c, Some s).
Proof.
  intros N. unfold path_next. rewrite index_of_app, skipn_S_app by auto. destruct (c ++ 47 :: s) eqn:E; auto.
  destruct c; discriminate.
Qed.

Lemma dot_iff c t : ~ In 47 c -> (path_is_dot (c ++ t) (length c) = true <-> c = DOT).
Proof.
  intros N. unfold path_is_dot, DOT. destruct c as [|x [|y c]]; cbn; split; try discriminate.
  - intros H. f_equal. lia.
  - intros H. inversion H; subst. reflexivity.
Qed.
Lemma dotdots_iff c t : ~ In 47 c -> (path_is_dotdots (c ++ t) (length c) = true <-> c = DOTDOT).
Proof.
  intros N. unfold path_is_dotdots, DOTDOT. destruct c as [|x [|y [|z c]]]; cbn; split; try discriminate.
  - intros H. apply andb_true_iff in H. destruct H. repeat f_equal; lia.
  - intros H. inversion H; subst. reflexivity.
Qed.

(** ** walk. *)
Lemma snoc_cases {A} (d : list A) : d = [] \/ exists d' x, d = d' ++ [x].
Proof. destruct d as [|a d] using rev_ind; [auto|right; eauto]. Qed.
Lemma snoc_inj {A} (d e : list A) x y : d ++ [x] = e ++ [y] -> d = e /\ x = y.
Proof. apply app_inj_tail. Qed.
Lemma walk_stay_inv d c cs r : c = [] \/ c = DOT -> walk d (c :: cs) r -> walk d cs r.
Proof.
  intros C W. inversion W; subst; auto; unfold DOT, DOTDOT in *; exfalso.
  - destruct C as [C|C]; discriminate.
  - destruct C as [C|C]; congruence.
Qed.
Lemma walk_up_inv d cs r : walk d (DOTDOT :: cs) r -> exists d' x, d = d' ++ [x] /\ walk d' cs r.
Proof.
  intros W. inversion W; subst; unfold DOT, DOTDOT in *; try congruence; eauto.
  match goal with H : _ \/ _ |- _ => destruct H; discriminate end.
Qed.
Lemma walk_down_inv d c cs r : c <> [] -> c <> DOT -> c <> DOTDOT -> walk d (c :: cs) r -> walk (d ++ [c]) cs r.
Proof. intros N1 N2 N3 W. inversion W; subst; auto; [match goal with H : _ \/ _ |- _ => destruct H; congruence end|congruence]. Qed.
Lemma walk_fun d cs r : walk d cs r -> forall r', walk d cs r' -> r = r'.
Proof.
  induction 1 as [d|d c cs r C W IH|d x cs r W IH|d c cs r N1 N2 N3 W IH]; intros r' H.
  - inversion H; subst; auto.
  - apply walk_stay_inv in H; auto.
  - apply walk_up_inv in H. destruct H as (d' & y & E & H). apply snoc_inj in E. destruct E; subst. auto.
  - apply walk_down_inv in H; auto.
Qed.

Section Junk.
  Variable J : Z.

  Definition okc (c : list Z) : Prop := ~ In 47 c /\ ~ In 0 c.

  Lemma guri_loop_spec B cs : B <> [] -> forall text, split_at text cs -> ~ In 0 text ->
    forall fuel pb d, (length text + 2 <= fuel)%nat -> repr pb (ext B d) -> Forall plain d ->
    (exists r pb', guri_loop J fuel pb (length B) (Some text) = Ok pb' /\ walk d cs r /\ repr pb' (ext B r) /\ Forall plain r) \/
    (guri_loop J fuel pb (length B) (Some text) = Err EINVAL /\ forall r, ~ walk d cs r) \/
    (guri_loop J fuel pb (length B) (Some text) = Err ENOSPC /\ (4096 < length (ext B d) + length text + 2)%nat).
  Proof.
    intros NB text S. induction S as [c N|c s cs N S IH]; intros N0 fuel pb d FU R PL.
    - destruct fuel as [|fuel]; [lia|]. cbn [guri_loop]. rewrite path_next_last by auto.
      destruct c as [|z c].
      { left. exists d, pb. repeat split; auto; try apply R. apply w_stay; auto. constructor. }
      set (t := z :: c) in *. assert (NE : t <> []) by discriminate. clearbody t. clear z c.
      assert (K : forall pb, guri_loop J fuel pb (length B) None = Ok pb) by (intros; destruct fuel; [lia|reflexivity]).
      destruct (path_is_dotdots t (length t)) eqn:DD.
      { rewrite <- (app_nil_r t) in DD at 1. apply dotdots_iff in DD; auto. subst t.
        destruct (snoc_cases d) as [->|(d' & x & ->)].
        - right. left. rewrite ext_nil in R.
          destruct (pop_shrinks _ _ R) as [E|(pb' & E & L)]; rewrite E; cbn [bind].
          + split; auto. intros r W. apply walk_up_inv in W. destruct W as (d' & x & E' & _). destruct d'; discriminate.
          + destruct (Nat.ltb_spec (pb_len pb') (length B)); [|lia]. split; auto.
            intros r W. apply walk_up_inv in W. destruct W as (d' & x & E' & _). destruct d'; discriminate.
        - left. rewrite ext_snoc in R. apply Forall_app in PL. destruct PL as [PL PX]. inversion PX; subst.
          destruct (pop_spec pb (ext B d') x false R (ext_ne B d' NB)) as (pb' & E & R').
          { match goal with H : plain x |- _ => apply H end. }
          rewrite E. cbn [bind]. destruct R' as (LN & R'). rewrite LN. unfold ext at 1. rewrite app_length.
          destruct (Nat.ltb_spec (length B + length (flat_map (fun c => 47 :: c) d')) (length B)); [lia|].
          rewrite K. exists d', pb'. split; [reflexivity|]. split; [apply w_up; constructor|]. split; auto. split; auto. }
      destruct (path_is_dot t (length t)) eqn:D; cbn [negb].
      { rewrite K. left. rewrite <- (app_nil_r t) in D at 1. apply dot_iff in D; auto.
        exists d, pb. split; auto. split; [apply w_stay; auto; constructor|]. auto. }
      assert (ND : t <> DOT). { intros E. apply (dot_iff t []) in E; auto. rewrite app_nil_r in E. congruence. }
      assert (NDD : t <> DOTDOT). { intros E. apply (dotdots_iff t []) in E; auto. rewrite app_nil_r in E. congruence. }
      change (t ++ [0]) with (t ++ 0 :: []).
      destruct (appendn_spec J pb (ext B d) t 0 [] R NE N0) as [A1 A2].
      rewrite glue_ext in A1, A2 by auto.
      destruct (le_dec (length (ext B (d ++ [t])) + 1) 4096) as [F|F].
      + destruct (A1 F) as (pb' & E & R'). rewrite E. cbn [bind]. rewrite K. left.
        exists (d ++ [t]), pb'. split; auto. split; [apply w_down; auto; constructor|]. split; auto.
        apply Forall_app. split; auto. constructor; [|constructor]. repeat split; auto.
      + rewrite (A2 F). right. right. cbn [bind]. split; auto. rewrite ext_snoc in F. rewrite !app_length in F. cbn in F. lia.
    - assert (N0c : ~ In 0 c) by (intros I; apply N0, in_app_iff; auto).
      assert (N0s : ~ In 0 s) by (intros I; apply N0, in_app_iff; right; right; auto).
      rewrite app_length in FU. cbn [length] in FU.
      destruct fuel as [|fuel]; [lia|]. cbn [guri_loop]. rewrite path_next_cons by auto.
      assert (FU' : (length s + 2 <= fuel)%nat) by lia.
      destruct (path_is_dotdots (c ++ 47 :: s) (length c)) eqn:DD.
      { apply dotdots_iff in DD; auto. subst c.
        destruct (snoc_cases d) as [->|(d' & x & ->)].
        - right. left. rewrite ext_nil in R.
          destruct (pop_shrinks _ _ R) as [E|(pb' & E & L)]; rewrite E; cbn [bind].
          + split; auto. intros r W. apply walk_up_inv in W. destruct W as (d' & x & E' & _). destruct d'; discriminate.
          + destruct (Nat.ltb_spec (pb_len pb') (length B)); [|lia]. split; auto.
            intros r W. apply walk_up_inv in W. destruct W as (d' & x & E' & _). destruct d'; discriminate.
        - rewrite ext_snoc in R. apply Forall_app in PL. destruct PL as [PL PX]. inversion PX; subst.
          destruct (pop_spec pb (ext B d') x false R (ext_ne B d' NB)) as (pb' & E & R').
          { match goal with H : plain x |- _ => apply H end. }
          rewrite E. cbn [bind]. pose proof (proj1 R') as LN. rewrite LN.
          destruct (Nat.ltb_spec (length (ext B d')) (length B)) as [LT|_]; [unfold ext in LT; rewrite app_length in LT; lia|].
          destruct (IH N0s fuel pb' d' FU' R' PL) as [(r & p & E1 & W & R1 & P1)|[(E1 & W)|(E1 & L)]]; rewrite E1.
          + left. exists r, p. split; auto. split; [apply w_up; auto|auto].
          + right. left. split; auto. intros r W'. apply walk_up_inv in W'. destruct W' as (d2 & x2 & E2 & W').
            apply snoc_inj in E2. destruct E2; subst. apply (W r W').
          + right. right. split; auto. rewrite ext_snoc. rewrite !app_length. cbn [length]. unfold DOTDOT. cbn [length]. lia. }
      destruct (path_is_dot (c ++ 47 :: s) (length c)) eqn:D; cbn [negb].
      { apply dot_iff in D; auto. subst c.
        destruct (IH N0s fuel pb d FU' R PL) as [(r & p & E1 & W & R1 & P1)|[(E1 & W)|(E1 & L)]]; rewrite E1.
        - left. exists r, p. split; auto. split; [apply w_stay; auto|auto].
        - right. left. split; auto. intros r W'. apply walk_stay_inv in W'; auto. apply (W r W').
        - right. right. split; auto. rewrite app_length. cbn. lia. }
      assert (ND : c <> DOT). { intros E. apply (dot_iff c (47 :: s)) in E; auto. congruence. }
      assert (NDD : c <> DOTDOT). { intros E. apply (dotdots_iff c (47 :: s)) in E; auto. congruence. }
      destruct c as [|z c].
      { cbn [length app PathBuilder.pb_appendn bind].
        destruct (IH N0s fuel pb d FU' R PL) as [(r & p & E1 & W & R1 & P1)|[(E1 & W)|(E1 & L)]]; rewrite E1.
        - left. exists r, p. split; auto. split; [apply w_stay; auto|auto].
        - right. left. split; auto. intros r W'. apply walk_stay_inv in W'; auto. apply (W r W').
        - right. right. split; auto. cbn. lia. }
      set (t := z :: c) in *. assert (NE : t <> []) by discriminate. clearbody t. clear z c.
      rewrite <- app_assoc. cbn [app].
      destruct (appendn_spec J pb (ext B d) t 47 (s ++ [0]) R NE N0c) as [A1 A2].
      rewrite glue_ext in A1, A2 by auto.
      destruct (le_dec (length (ext B (d ++ [t])) + 1) 4096) as [F|F].
      + destruct (A1 F) as (pb' & E & R'). rewrite E. cbn [bind].
        assert (PL' : Forall plain (d ++ [t])) by (apply Forall_app; split; auto; constructor; [repeat split; auto|constructor]).
        destruct (IH N0s fuel pb' (d ++ [t]) FU' R' PL') as [(r & p & E1 & W & R1 & P1)|[(E1 & W)|(E1 & L)]]; rewrite E1.
        * left. exists r, p. split; auto. split; [apply w_down; auto|auto].
        * right. left. split; auto. intros r W'. apply walk_down_inv in W'; auto. apply (W r W').
        * right. right. split; auto. rewrite ext_snoc in L. rewrite !app_length in *. cbn [length] in *. lia.
      + rewrite (A2 F). right. right. cbn [bind]. split; auto. rewrite ext_snoc in F. rewrite !app_length in *. cbn [length] in *. lia.
  Qed.
End Junk.
