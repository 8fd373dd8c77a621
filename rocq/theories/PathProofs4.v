(** Proofs about sequences of operations on a path, hexadecimal text and
    mirroring. *)
From Coq Require Import String.
From Verif Require Import Base BaseLemmas CString CLib PathBuilder PathSpec PathProofs PathProofs2 PathProofs3.
Notation length := List.length.

(** ** pb_pop() on any string. *)
Lemma last_split (s : list Z) : ~ In 47 s \/ exists a x, s = a ++ 47 :: x /\ ~ In 47 x.
Proof.
  induction s as [|c s IH]; [left; auto|].
  destruct IH as [N|(a & x & -> & N)]; [|right; exists (c :: a), x; auto].
  destruct (Z.eq_dec c 47) as [->|NE]; [right; exists [], s; auto|]. left. intros [H|H]; auto.
Qed.

Lemma pop_full pb s fatal : repr pb s ->
  (exists s' pb', popped s s' /\ pb_pop pb fatal = Ok pb' /\ repr pb' s') \/
  ((s = [] \/ s = [47]) /\ pb_pop pb fatal = if fatal then UB else Err EINVAL).
Proof.
  intros R. pose proof R as (LN & N0 & CO & rest & M).
  assert (RS : forall k m x t, store (pb_mem pb) k [0] = Ok m -> s = x ++ t -> length x = k -> t <> [] \/ True -> (k <= length s)%nat ->
     repr {| pb_mem := m; pb_len := k |} x).
  { intros k m x t ST E L _ _. subst s. unfold store in ST.
    destruct (Nat.leb_spec (k + 1) (length (pb_mem pb))) as [LE|LE]; cbn [length] in *;
      destruct (Nat.leb (k + 1) (length (pb_mem pb))); try discriminate; inversion ST; subst m.
    - split; [auto|]. split; [intros I; apply N0, in_app_iff; auto|]. split.
      + unfold pb_capacity in *. cbn [pb_mem]. rewrite !app_length. cbn [length]. rewrite firstn_length, skipn_length.
        match goal with |- cap_ok ?a => replace a with (length (pb_mem pb)) by lia end. exact CO.
      + cbn [pb_mem]. rewrite M, <- app_assoc, <- L. rewrite firstn_app, firstn_all, Nat.sub_diag. cbn [firstn app]. rewrite app_nil_r. eauto.
    - exfalso. rewrite M, !app_length in LE. cbn [length] in LE. lia. }
  assert (SM : forall i, (i <= length s)%nat -> exists m, store (pb_mem pb) i [0] = Ok m).
  { intros i L. unfold store. rewrite M, app_length. cbn [length].
    destruct (Nat.leb_spec (i + 1) (length s + S (length rest))); [eauto|lia]. }
  destruct (last_split s) as [N|(a & x & E & N)].
  - destruct s as [|c s'] eqn:ES; [right; split; auto; unfold pb_pop; rewrite LN; reflexivity|]. rewrite <- ES in *. 
    assert (NE : s <> []) by (rewrite ES; discriminate).
    left. exists [].
    assert (FI : (match pb_mem pb with c :: _ => c | [] => 0 end) =? 47 = false).
    { rewrite M, ES. cbn [app]. destruct (Z.eqb_spec c 47) as [->|]; auto. destruct N. rewrite ES. left. auto. }
    unfold pb_pop. rewrite LN. rewrite FI. rewrite andb_false_r, orb_false_r.
    destruct (Nat.eqb_spec (length s) 0) as [L0|L0]; [rewrite ES in L0; discriminate|].
    rewrite last_slash_none.
    2:{ intros j Hj H. rewrite M, nth_error_app1 in H by lia. apply nth_error_In in H. auto. }
    destruct (SM 0%nat ltac:(lia)) as (m & ST). rewrite ST. cbn [bind]. eexists. split; [apply po_all; auto|]. split; [reflexivity|].
    apply (RS 0%nat m [] s ST); auto. lia.
  - destruct a as [|c a].
    + (* "/x" *)
      cbn [app] in E. destruct x as [|y x].
      { right. subst s. split; auto. unfold pb_pop. rewrite LN, M. reflexivity. }
      left. exists [47].
      assert (FI : (match pb_mem pb with c :: _ => c | [] => 0 end) =? 47 = true) by (rewrite M, E; reflexivity).
      unfold pb_pop. rewrite LN, FI. destruct (Nat.eqb_spec (length s) 0) as [L0|L0]; [rewrite E in L0; discriminate|].
      destruct (Nat.eqb_spec (length s) 1) as [L1|L1]; [rewrite E in L1; discriminate|]. cbn [orb andb].
      rewrite last_slash_none.
      2:{ intros j Hj H. rewrite M, E in H. destruct j as [|j]; [lia|]. cbn [app] in H.
          rewrite E in Hj. cbn [length] in Hj. change (nth_error ((y :: x) ++ 0 :: rest) j = Some 47) in H.
          rewrite nth_error_app1 in H by (cbn [length]; lia). apply nth_error_In in H. auto. }
      destruct (SM 1%nat) as (m & ST). { rewrite E. cbn. lia. }
      rewrite ST. cbn [bind]. eexists. split; [rewrite E; apply po_root; auto; discriminate|]. split; [reflexivity|].
      apply (RS 1%nat m [47] (y :: x) ST); auto. rewrite E. cbn. lia.
    + left. exists (c :: a). subst s. change ((c :: a) ++ 47 :: x) with ((c :: a) ++ [47] ++ x) in R.
      destruct (pop_spec pb (c :: a) x fatal R) as (pb' & E1 & R1); auto; [discriminate|].
      exists pb'. split; [apply po_slash; auto; discriminate|]. auto.
Qed.

Lemma popped_fun s a b : popped s a -> popped s b -> a = b.
Proof.
  assert (K : forall a x b y : list Z, ~ In 47 x -> ~ In 47 y -> a ++ 47 :: x = b ++ 47 :: y -> a = b).
  { intros p x q y Nx Ny H. revert q H. induction p as [|c p IH]; intros [|d q] H; cbn in H; inversion H; subst; auto.
    - destruct Nx. apply in_app_iff. right. left. auto.
    - destruct Ny. apply in_app_iff. right. left. auto.
    - f_equal. auto. }
  assert (NI : forall a x y : list Z, ~ In 47 y -> a ++ 47 :: x <> y).
  { intros p x y N E. apply N. subst y. apply in_app_iff. right. left. auto. }
  assert (C : forall s a, popped s a -> (exists x, a <> [] /\ ~ In 47 x /\ s = a ++ 47 :: x) \/
     (exists x, x <> [] /\ ~ In 47 x /\ s = 47 :: x /\ a = [47]) \/ (s <> [] /\ ~ In 47 s /\ a = [])).
  { intros u v P. inversion P; subst; eauto 10. }
  intros H1 H2. apply C in H1. apply C in H2.
  destruct H1 as [(x & A1 & A2 & A3)|[(x & A1 & A2 & A3 & A4)|(A1 & A2 & A3)]];
  destruct H2 as [(y & B1 & B2 & B3)|[(y & B1 & B2 & B3 & B4)|(B1 & B2 & B3)]]; subst; auto.
  - eapply K; [exact A2|exact B2|auto].
  - destruct a as [|c p]; [congruence|]. cbn in B3. inversion B3; subst. destruct B2. apply in_app_iff. right. left. auto.
  - destruct B2. apply in_app_iff. right. left. auto.
  - destruct b as [|c p]; [congruence|]. cbn in B3. inversion B3; subst. destruct A2. apply in_app_iff. right. left. auto.
  - destruct B2. left. auto.
  - destruct A2. apply in_app_iff. right. left. auto.
  - destruct A2. left. auto.
Qed.

(** ** Hexadecimal text. *)
Lemma hex_digit_ok d : 0 <= d < 16 -> hex_digit_of (hex_digit d) d.
Proof. unfold hex_digit, hex_digit_of. destruct (Z.ltb_spec d 10); lia. Qed.
Lemma hex_digits_acc fuel n acc : hex_digits fuel n acc = hex_digits fuel n [] ++ acc.
Proof.
  revert n acc. induction fuel as [|f IH]; intros n acc; [reflexivity|]. cbn [hex_digits]. cbv zeta.
  destruct (n / 16 =? 0); [reflexivity|]. rewrite IH, (IH _ [_]), <- app_assoc. reflexivity.
Qed.
Lemma hex_digits_text fuel n : 0 <= n < 16 ^ Z.of_nat (S fuel) -> hex_text (hex_digits (S fuel) n []) n.
Proof.
  revert n. induction fuel as [|f IH]; intros n B.
  - cbn [hex_digits]. cbv zeta. change (16 ^ Z.of_nat 1) with 16 in B.
    assert (E : n / 16 = 0) by (apply Z.div_small; lia). rewrite E. cbn. rewrite Z.mod_small by lia. constructor. apply hex_digit_ok. lia.
  - change (hex_digits (S (S f)) n []) with (let acc := [hex_digit (n mod 16)] in if n / 16 =? 0 then acc else hex_digits (S f) (n / 16) acc).
    cbv zeta. pose proof (Z.div_mod n 16 ltac:(lia)) as DM. pose proof (Z.mod_pos_bound n 16 ltac:(lia)) as MB.
    destruct (Z.eqb_spec (n / 16) 0) as [E|E].
    + rewrite DM at 2. rewrite E. replace (16 * 0 + n mod 16) with (n mod 16) by lia. constructor. apply hex_digit_ok. lia.
    + rewrite hex_digits_acc. rewrite DM at 3. apply ht_snoc; auto; [|apply hex_digit_ok; lia].
      apply IH. rewrite Nat2Z.inj_succ, Z.pow_succ_r in B by lia. split; [apply Z.div_pos; lia|apply Z.div_lt_upper_bound; lia].
Qed.
Lemma hex_digit_bound c d : hex_digit_of c d -> 0 <= d < 16 /\ c <> 0 /\ c <> 47.
Proof. unfold hex_digit_of. lia. Qed.
Lemma hex_text_pos s v : hex_text s v -> 0 <= v.
Proof. induction 1 as [c d H|s v c d H IH NZ D]; [apply hex_digit_bound in H|apply hex_digit_bound in D]; lia. Qed.
Lemma hex_text_ne s v : hex_text s v -> s <> [].
Proof. destruct 1; [discriminate|]. destruct s; discriminate. Qed.
Lemma hex_text_no s v x : hex_text s v -> x = 0 \/ x = 47 -> ~ In x s.
Proof.
  intros H E. induction H as [c d D|s v c d H IH NZ D]; apply hex_digit_bound in D.
  - intros [I|[]]; lia.
  - intros I. apply in_app_iff in I. destruct I as [I|[I|[]]]; [auto|lia].
Qed.
Lemma hex_digit_inj c c' d : hex_digit_of c d -> hex_digit_of c' d -> c = c'.
Proof. unfold hex_digit_of. lia. Qed.
Lemma hex_text_inv s v : hex_text s v -> (exists c, s = [c] /\ hex_digit_of c v) \/
  (exists u w c d, s = u ++ [c] /\ hex_text u w /\ w <> 0 /\ hex_digit_of c d /\ v = 16 * w + d).
Proof. inversion 1; subst; [left|right]; eauto 12. Qed.
Lemma hex_text_unique s v : hex_text s v -> forall s', hex_text s' v -> s = s'.
Proof.
  induction 1 as [c d D|s v c d H IH NZ D]; intros s' H'; apply hex_text_inv in H'; pose proof (hex_digit_bound _ _ D);
    destruct H' as [(c' & -> & D')|(u & w & c' & d' & -> & HT & NZ' & D' & E)]; pose proof (hex_digit_bound _ _ D').
  - f_equal. eapply hex_digit_inj; eauto.
  - exfalso. apply hex_text_pos in HT. lia.
  - exfalso. apply hex_text_pos in H. lia.
  - assert (w = v) by lia. assert (d' = d) by lia. subst w d'. rewrite (IH _ HT), (hex_digit_inj _ _ _ D D'). reflexivity.
Qed.
Lemma hex_text_inj s v v' : hex_text s v -> hex_text s v' -> v = v'.
Proof.
  intros H. revert v'. induction H as [c d D|s v c d H IH NZ D]; intros v' H'; apply hex_text_inv in H';
    destruct H' as [(c' & E & D')|(u & w & c' & d' & E & HT & NZ' & D' & ->)].
  - inversion E; subst. unfold hex_digit_of in *. lia.
  - apply hex_text_ne in HT. destruct u; [congruence|destruct u; discriminate].
  - apply hex_text_ne in H. destruct s; [congruence|destruct s; discriminate].
  - apply app_inj_tail in E. destruct E; subst. rewrite (IH _ HT). unfold hex_digit_of in *. lia.
Qed.

(** ** Sequences of operations. *)
Section Junk.
  Variable J : Z.
  Notation apply_op := (apply_op J).
  Notation apply_ops := (apply_ops J).

  Lemma append_step pb s x : repr pb s -> ~ In 0 x ->
    (exists s' pb', op_step s (OpAppend (Some x)) (Ok s') /\ pb_append J pb (Some x) = Ok pb' /\ repr pb' s') \/
    (op_step s (OpAppend (Some x)) (Err ENOSPC) /\ pb_append J pb (Some x) = Err ENOSPC).
  Proof.
    intros R N0. destruct (append_spec J pb s x R N0) as [A1 A2].
    destruct x as [|c x]; [left; exists s, pb; split; [constructor|]; split; auto|].
    set (e := c :: x) in *. assert (NE : e <> []) by discriminate. clearbody e. clear c x.
    destruct (fits_dec (glue s e)) as [F|F].
    - left. destruct (A1 F) as (pb' & E & R').
      exists (glue s e), pb'. split; [|split; auto]. unfold fits in F. unfold glue in *. destruct s as [|y s].
      + apply os_first; auto. lia.
      + rewrite !app_length in F. cbn [length] in F. apply os_next; auto; [discriminate|]. cbn [length]. lia.
    - right. split; [|auto]. unfold fits in F. unfold glue in *.
      destruct s as [|y s].
      + apply os_first_long. lia.
      + rewrite !app_length in F. cbn [length] in F. apply os_next_long; auto; [discriminate|]. cbn [length]. lia.
  Qed.

  Lemma op_spec pb s o : repr pb s -> op_ok o ->
    (exists s' pb', op_step s o (Ok s') /\ apply_op pb o = Ok pb' /\ repr pb' s') \/
    (exists e, op_step s o (Err e) /\ apply_op pb o = Err e).
  Proof.
    intros R OK. destruct o as [[x|]|n|]; cbn [PathSpec.apply_op].
    - destruct (append_step pb s x R OK) as [H|H]; [left|right]; eauto.
    - left. exists s, pb. split; [constructor|]. auto.
    - unfold pb_append_u32. assert (HT : hex_text (hex_digits 8 n []) n).
      { apply (hex_digits_text 7). unfold op_ok, is_u32 in OK. change (16 ^ Z.of_nat 8) with 4294967296. lia. }
      set (x := hex_digits 8 n []) in *. clearbody x.
      assert (N0 : ~ In 0 x) by (eapply hex_text_no; eauto).
      pose proof (append_step pb s x R N0) as A. unfold pb_append in A.
      destruct A as [(s' & pb' & S & E & R')|[S E]].
      + left. exists s', pb'. split; [eapply os_hex; eauto|]. auto.
      + right. exists ENOSPC. split; [eapply os_hex; eauto|]. auto.
    - destruct (pop_full pb s false R) as [(s' & pb' & P & E & R')|[P E]].
      + left. exists s', pb'. split; [apply os_pop; auto|]. auto.
      + right. exists EINVAL. split; [apply os_pop_none; auto|]. auto.
  Qed.

  Lemma ops_spec os : forall pb s, repr pb s -> Forall op_ok os ->
    (exists s' pb', op_steps s os (Ok s') /\ apply_ops pb os = Ok pb' /\ repr pb' s') \/
    (exists e, op_steps s os (Err e) /\ apply_ops pb os = Err e).
  Proof.
    induction os as [|o os IH]; intros pb s R OK; [left; exists s, pb; split; [constructor|]; split; auto; reflexivity|].
    inversion OK; subst. cbn [PathSpec.apply_ops]. destruct (op_spec pb s o R) as [(s' & pb' & S & E & R')|(e & S & E)]; auto; rewrite E; cbn [bind].
    - destruct (IH pb' s' R') as [(s2 & p2 & S2 & E2 & R2)|(e & S2 & E2)]; auto.
      + left. exists s2, p2. split; [eapply oss_ok; eauto|]. auto.
      + right. exists e. split; [eapply oss_ok; eauto|]. auto.
    - right. exists e. split; [apply oss_err; auto|]. auto.
  Qed.
End Junk.

Lemma op_step_append_fun s x r r' : op_step s (OpAppend (Some x)) r -> op_step s (OpAppend (Some x)) r' -> r = r'.
Proof. intros H1 H2. inversion H1; subst; inversion H2; subst; cbn [length] in *; try reflexivity; try congruence; lia. Qed.
Lemma op_step_fun s o r r' : op_step s o r -> op_step s o r' -> r = r'.
Proof.
  intros H1 H2. destruct o as [[x|]|n|].
  - eapply op_step_append_fun; eauto.
  - inversion H1; inversion H2; subst; reflexivity.
  - inversion H1 as [| | | | | |? ? x ? HT S| |]; subst. inversion H2 as [| | | | | |? ? x' ? HT' S'| |]; subst.
    rewrite (hex_text_unique _ _ HT _ HT') in S. eapply op_step_append_fun; eauto.
  - assert (NP : forall s a, popped s a -> s <> [] /\ s <> [47]).
    { intros u a P. inversion P; subst.
      - split; [destruct a; discriminate|]. destruct a as [|c [|d a]]; [congruence|discriminate|discriminate].
      - split; [discriminate|]. intros E. inversion E. congruence.
      - split; auto. intros ->. match goal with H : ~ In 47 _ |- _ => apply H end. left. auto. }
    inversion H1; subst; inversion H2; subst.
    + f_equal. eapply popped_fun; eauto.
    + exfalso. match goal with P : popped _ _ |- _ => apply NP in P end. intuition congruence.
    + exfalso. match goal with P : popped _ _ |- _ => apply NP in P end. intuition congruence.
    + reflexivity.
Qed.
Lemma op_steps_fun s os r r' : op_steps s os r -> op_steps s os r' -> r = r'.
Proof.
  intros H. revert r'. induction H as [s|s o s' os r S SS IH|s o e os S]; intros r' H'; inversion H'; subst.
  - reflexivity.
  - match goal with A : op_step s o (Ok ?x) |- _ => pose proof (op_step_fun _ _ _ _ S A) as E; inversion E; subst; try (apply IH; assumption) end.
  - match goal with A : op_step s o (Err _) |- _ => pose proof (op_step_fun _ _ _ _ S A) as E; discriminate end.
  - match goal with A : op_step s o (Ok _) |- _ => pose proof (op_step_fun _ _ _ _ S A) as E; discriminate end.
  - match goal with A : op_step s o (Err ?x), B : op_step s o (Err e) |- _ => pose proof (op_step_fun _ _ _ _ B A) as E; inversion E; subst; reflexivity end.
Qed.

(** ** Mirroring. *)
Lemma reverse_string_app a b c : reverse_string (a ++ b ++ c) (length a) (length b) = a ++ rev b ++ c.
Proof.
  unfold reverse_string. rewrite firstn_app, firstn_all, Nat.sub_diag. cbn [firstn]. rewrite app_nil_r.
  rewrite skipn_app, skipn_all, Nat.sub_diag. cbn [skipn app].
  rewrite firstn_app, firstn_all, Nat.sub_diag. cbn [firstn]. rewrite app_nil_r. f_equal. f_equal.
  rewrite app_assoc, skipn_app, skipn_all2 by (rewrite app_length; lia). rewrite app_length, Nat.sub_diag. reflexivity.
Qed.
Lemma ext_rev l x : rev (ext x l) = match rev l with [] => rev x | y :: t => ext (rev y) (map (@rev Z) t ++ [rev x]) end.
Proof.
  revert x. induction l as [|y l IH] using rev_ind; intros x; [cbn; rewrite ext_nil; reflexivity|].
  rewrite ext_snoc, rev_app_distr, rev_app_distr. cbn [rev app]. rewrite rev_app_distr. cbn [rev app].
  rewrite IH. clear IH. destruct (rev l) as [|z t]; cbn [map app].
  - unfold ext. cbn [flat_map]. rewrite app_nil_r, <- app_assoc. reflexivity.
  - unfold ext. cbn [flat_map]. rewrite <- !app_assoc. reflexivity.
Qed.
Lemma join_rev l : rev (join l) = join (map (@rev Z) (rev l)).
Proof.
  destruct l as [|x l]; [reflexivity|]. rewrite join_ext, ext_rev. cbn [rev]. destruct (rev l) as [|y t]; [reflexivity|].
  cbn [app map]. rewrite join_ext, map_app. reflexivity.
Qed.

Definition okd (c : list Z) : Prop := c <> [] /\ ~ In 47 c.
Lemma reverse_loop_spec ds : forall d P T fuel k, Forall okd (d :: ds) -> (1 <= k <= length d)%nat ->
  (length (P ++ join (d :: ds)) <= fuel + (length P + k))%nat ->
  exists Q e, reverse_loop fuel (length (P ++ join (d :: ds))) (P ++ join (d :: ds) ++ T) (length P) (length P + k) = (Q ++ e ++ T, length Q) /\
    Q ++ rev e = P ++ join (map (@rev Z) (d :: ds)).
Proof.
  assert (SC : forall d P R fuel j, ~ In 47 d -> forall k, (k + j = length d)%nat -> (0 < k)%nat -> forall len, (length P + length d <= len)%nat ->
     reverse_loop (j + fuel) len (P ++ d ++ R) (length P) (length P + k) = reverse_loop fuel len (P ++ d ++ R) (length P) (length P + length d)).
  { intros d P R fuel j N. induction j as [|j IH]; intros k E K len L.
    - cbn [Nat.add]. repeat f_equal. lia.
    - cbn [Nat.add reverse_loop]. destruct (Nat.ltb_spec (length P + k) len); [|lia].
      rewrite slash_case. { rewrite <- (IH (S k)); [|lia|lia|lia]. f_equal. lia. }
      rewrite nth_error_app2 by lia. rewrite nth_error_app1 by lia. intros H'. apply nth_error_In in H'. auto. }
  induction ds as [|e ds IH]; intros d P T fuel k F K FU.
  - cbn [join map]. inversion F as [|? ? [NE N] _]; subst. cbn [join] in FU. rewrite app_length in FU.
    replace fuel with ((length d - k) + (fuel - (length d - k)))%nat by lia.
    rewrite (SC d P T _ (length d - k)%nat N k); try lia; [|rewrite app_length; lia].
    exists P, d. split; [|reflexivity].
    destruct (fuel - (length d - k))%nat as [|f]; cbn [reverse_loop]; [reflexivity|].
    rewrite app_length. destruct (Nat.ltb_spec (length P + length d) (length P + length d)); [lia|reflexivity].
  - inversion F as [|? ? [NE N] F']; subst. inversion F' as [|? ? [NEe Ne] F'']; subst.
    change (join (d :: e :: ds)) with (d ++ [47] ++ join (e :: ds)) in *.
    assert (LJ : length (join (e :: ds)) <> 0%nat).
    { rewrite join_ext. unfold ext. rewrite app_length. destruct e; [congruence|]. cbn. lia. }
    rewrite !app_length in FU. cbn [length] in FU.
    replace fuel with ((length d - k) + (fuel - (length d - k)))%nat by lia.
    rewrite <- !app_assoc.
    rewrite (SC d P ([47] ++ join (e :: ds) ++ T) _ (length d - k)%nat N k); try lia; [|rewrite !app_length; lia].
    remember (fuel - (length d - k))%nat as f eqn:Ef. destruct f as [|f]; [lia|].
    cbn [reverse_loop]. rewrite !app_length. cbn [length]. destruct (Nat.ltb_spec (length P + length d) (length P + (length d + (1 + length (join (e :: ds)))))); [|lia].
    rewrite nth_error_app2 by lia. replace (length P + length d - length P)%nat with (length d) by lia.
    rewrite nth_error_app2 by lia. rewrite Nat.sub_diag. cbn [nth_error app].
    replace (length P + length d - length P)%nat with (length d) by lia.
    change (P ++ d ++ 47 :: join (e :: ds) ++ T) with (P ++ d ++ ([47] ++ join (e :: ds) ++ T)).
    rewrite reverse_string_app.
    replace (P ++ rev d ++ [47] ++ join (e :: ds) ++ T) with ((P ++ rev d ++ [47]) ++ join (e :: ds) ++ T) by (rewrite <- !app_assoc; reflexivity).
    assert (LQ : length (P ++ rev d ++ [47]) = (length P + length d + 1)%nat) by (rewrite !app_length, rev_length; cbn; lia).
    destruct (IH e (P ++ rev d ++ [47]) T f 1%nat F') as (Q & w & E & EQ).
    { destruct e; [congruence|]. cbn. lia. }
    { rewrite app_length, LQ. lia. }
    exists Q, w. rewrite app_length, LQ in E.
    replace (length P + length d + 1 + length (join (e :: ds)))%nat with (length P + (length d + (1 + length (join (e :: ds)))))%nat in E by lia.
    replace (length P + length d + 1 + 1)%nat with (length P + length d + 2)%nat in E by lia.
    split; [exact E|]. rewrite EQ, <- !app_assoc. reflexivity.
Qed.

Lemma reverse_spec pb cs : repr pb (join cs) -> Forall okd cs -> repr (pb_reverse pb) (join (rev cs)).
Proof.
  intros (LN & N0 & CO & rest & M) F. unfold pb_reverse. rewrite LN, M.
  pose proof (reverse_string_app [] (join cs) (0 :: rest)) as RS. cbn [app length] in RS. rewrite RS. clear RS.
  rewrite join_rev. set (ds := rev cs).
  assert (LR : length (join cs) = length (join (map (@rev Z) ds))) by (unfold ds; rewrite <- join_rev, rev_length; reflexivity).
  assert (Fd : Forall okd (map (@rev Z) ds)).
  { unfold ds. apply Forall_forall. intros x I. apply in_map_iff in I. destruct I as (y & <- & I). apply in_rev in I.
    rewrite Forall_forall in F. destruct (F y I) as [A B]. split.
    - intros E. apply A. rewrite <- (rev_involutive y), E. reflexivity.
    - intros E. apply B. apply in_rev. exact E. }
  assert (RM : map (@rev Z) (map (@rev Z) ds) = ds).
  { rewrite map_map. rewrite <- (map_id ds) at 2. apply map_ext. intros. apply rev_involutive. }
  assert (DONE : forall m, m = join ds ++ 0 :: rest -> repr {| pb_mem := m; pb_len := length (join cs) |} (join ds)).
  { intros m ->. assert (LE : length (join cs) = length (join ds)).
    { rewrite LR. rewrite <- (rev_length (join ds)), join_rev. 
      assert (X : forall l : list (list Z), length (join (map (@rev Z) l)) = length (join l)).
      { intros [|x l]; [reflexivity|]. cbn [map]. rewrite !join_ext. unfold ext. rewrite !app_length, rev_length. f_equal.
        induction l as [|y l IH]; [reflexivity|]. cbn [map flat_map]. rewrite !app_length. cbn [length]. rewrite rev_length, IH. reflexivity. }
      rewrite !X. assert (Y : length (join (rev ds)) = length (join ds)).
      { rewrite <- (rev_length (join ds)), join_rev, X. reflexivity. }
      lia. }
    split; [exact LE|]. split.
    - intros I. apply N0. apply in_rev. rewrite join_rev. fold ds.
      assert (X : forall (l : list (list Z)) z, In z (join (map (@rev Z) l)) <-> In z (join l)).
      { intros [|x l] z; [reflexivity|]. cbn [map]. rewrite !join_ext. unfold ext. rewrite !in_app_iff, <- in_rev.
        assert (In z (flat_map (fun c => 47 :: c) (map (@rev Z) l)) <-> In z (flat_map (fun c => 47 :: c) l)); [|tauto].
        rewrite !in_flat_map. split.
        - intros (y & Iy & Iz). apply in_map_iff in Iy. destruct Iy as (w & <- & Iw). exists w. split; auto.
          destruct Iz as [Iz|Iz]; [left; auto|right; apply in_rev; auto].
        - intros (y & Iy & Iz). exists (rev y). split; [apply in_map; auto|]. destruct Iz as [Iz|Iz]; [left; auto|right; apply in_rev in Iz; auto]. }
      apply X. exact I.
    - split; [|exists rest; reflexivity]. unfold pb_capacity in *. cbn [pb_mem]. rewrite M in CO. rewrite app_length in *. cbn [length] in *. rewrite <- LE. exact CO. }
  destruct (map (@rev Z) ds) as [|d t] eqn:ED.
  - assert (ds = []) as -> by (destruct ds; [reflexivity|discriminate]). cbn [join app length] in *. rewrite LR in *. cbn [reverse_loop].
    cbn [reverse_string firstn skipn app rev Nat.add]. apply DONE. reflexivity.
  - destruct (reverse_loop_spec t d [] (0 :: rest) (length (join (d :: t))) 1%nat Fd) as (Q & e & E & EQ).
    { inversion Fd as [|? ? [NE _] _]; subst. destruct d; [congruence|]. cbn. lia. }
    { cbn [app length Nat.add]. lia. }
    cbn [app length Nat.add] in E. rewrite LR. rewrite E. rewrite RM in EQ. cbn [app] in EQ.
    assert (LQ : (length (join (d :: t)) - length Q = length e)%nat).
    { assert (X : length (Q ++ rev e) = length (join ds)) by (rewrite EQ; reflexivity).
      rewrite app_length, rev_length in X. rewrite <- LR in *.
      assert (Y : repr {| pb_mem := join ds ++ 0 :: rest; pb_len := length (join cs) |} (join ds)) by (apply DONE; reflexivity).
      destruct Y as (Y & _). cbn [pb_len] in Y. lia. }
    rewrite LQ, reverse_string_app, <- LR. apply DONE. rewrite app_assoc, EQ. reflexivity.
Qed.
