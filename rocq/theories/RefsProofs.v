From Verif Require Import Base Refs RefsSpec.
Notation length := List.length.

Definition one (i x : nat) : nat := if Nat.eqb i x then 1%nat else O.
Fixpoint cnt (i : nat) (l : list nat) : nat := match l with [] => O | x :: l => (one i x + cnt i l)%nat end.
Lemma cnt_app i a b : cnt i (a ++ b) = (cnt i a + cnt i b)%nat.
Proof. induction a; cbn; lia. Qed.
Lemma cnt_in i l : In i l -> (cnt i l > 0)%nat.
Proof. induction l as [|x l IH]; intros []; cbn; unfold one. { subst. rewrite Nat.eqb_refl. lia. } specialize (IH H). lia. Qed.
Lemma one_same i : one i i = 1%nat.
Proof. unfold one. now rewrite Nat.eqb_refl. Qed.
Lemma one_other i j : i <> j -> one i j = O.
Proof. unfold one. intros H. destruct (Nat.eqb_spec i j); congruence. Qed.

Fixpoint sum (f : nat -> nat) (n : nat) : nat := match n with O => O | S n => (sum f n + f n)%nat end.
Lemma sum_ext f g n : (forall p, (p < n)%nat -> f p = g p) -> sum f n = sum g n.
Proof. induction n; intros H; cbn; [reflexivity|]. rewrite IHn by (intros; apply H; lia). rewrite H by lia. reflexivity. Qed.
Lemma sum_upd f g n p : (p < n)%nat -> (forall q, q <> p -> f q = g q) -> (sum f n + g p = sum g n + f p)%nat.
Proof.
  induction n; intros H E; [lia|]. cbn. destruct (Nat.eq_dec p n) as [->|Hn].
  - rewrite (sum_ext f g n) by (intros; apply E; lia). lia.
  - specialize (IHn ltac:(lia) E). rewrite (E n) by congruence. lia.
Qed.

Definition d_refs (d : defer) : list nat := match d with Separator => [] | Deferred u p => [u; p] end.
Definition m_refs (m : meta) : list nat := [m_uri m; m_x509 m; m_resources m].
Definition stack (s : st) : list nat := flat_map d_refs (defers s) ++ flat_map m_refs (metas s).
Definition mine (s : st) (i p : nat) : nat := if Nat.eqb (refs s p) 0 then O else cnt i (map snd (kids s p)).
Definition complete (s : st) (p : nat) : Prop := point s p = true /\ of_kind KCrl (kids s p) <> [].
Definition separators (l : list defer) : nat := length (filter (fun d => match d with Separator => true | _ => false end) l).
Definition d_ok (s : st) (d : defer) : Prop := match d with Separator => True | Deferred u p => point s u = false /\ complete s p end.
Definition m_ok (s : st) (m : meta) : Prop := point s (m_uri m) = false /\ point s (m_x509 m) = false /\ point s (m_resources m) = false.

(** [L]: the references that local variables own. *)
Record I (s : st) (L : list nat) : Prop := {
  i_refs : forall i, refs s i = (cnt i (stack s ++ L) + sum (mine s i) (next s))%nat;
  i_new : forall p, (next s <= p)%nat -> refs s p = O /\ kids s p = [];
  i_kids : forall p k, In k (kids s p) -> point s p = true /\ point s (snd k) = false /\ (snd k < next s)%nat;
  i_defers : Forall (d_ok s) (defers s);
  i_metas : Forall (m_ok s) (metas s) }.

Lemma I_perm s L L' : I s L -> (forall i, cnt i L = cnt i L') -> I s L'.
Proof. intros [A B C D E] H. split; auto. intros i. rewrite A, !cnt_app, H. reflexivity. Qed.
Ltac perm := let i := fresh "i" in intros i; cbn [app opt cnt]; rewrite ?cnt_app; cbn [app opt cnt]; rewrite ?cnt_app; lia.

Lemma I_live s L i : I s L -> In i L -> refs s i <> O.
Proof. intros H Hi. rewrite (i_refs _ _ H). rewrite cnt_app. pose proof (cnt_in i L Hi). lia. Qed.
Lemma I_stack_live s L i : I s L -> In i (stack s) -> refs s i <> O.
Proof. intros H Hi. rewrite (i_refs _ _ H). rewrite cnt_app. pose proof (cnt_in i _ Hi). lia. Qed.
Lemma live_old s L i : I s L -> refs s i <> O -> (i < next s)%nat.
Proof. intros H Hi. destruct (Nat.lt_ge_cases i (next s)) as [?|Hn]; [assumption|]. destruct (i_new _ _ H i Hn). contradiction. Qed.
Lemma sum_ge f n p : (p < n)%nat -> (f p <= sum f n)%nat.
Proof. induction n; intros H; [lia|]. cbn. destruct (Nat.eq_dec p n) as [->|]; [lia|]. specialize (IHn ltac:(lia)). lia. Qed.
Lemma I_kid_live s L p i : I s L -> refs s p <> O -> In i (map snd (kids s p)) -> refs s i <> O.
Proof.
  intros H Hp Hi. rewrite (i_refs _ _ H). pose proof (live_old _ _ _ H Hp) as Hl. pose proof (sum_ge (mine s i) (next s) p Hl) as G.
  unfold mine in G at 1. destruct (Nat.eqb_spec (refs s p) 0); [contradiction|]. pose proof (cnt_in i _ Hi). lia.
Qed.

(** What steps never change. *)
Record ext (s s' : st) : Prop := {
  e_next : (next s <= next s')%nat;
  e_point : forall p, (p < next s)%nat -> point s' p = point s p;
  e_kids : forall p, exists l, kids s' p = kids s p ++ l }.
Definition same (s s' : st) : Prop := defers s' = defers s /\ metas s' = metas s.
Lemma ext_refl s : ext s s.
Proof. split; auto. intros p. exists []. now rewrite app_nil_r. Qed.
Lemma ext_trans s s' s'' : ext s s' -> ext s' s'' -> ext s s''.
Proof.
  intros [A1 A2 A3] [B1 B2 B3]. split; [lia| |].
  - intros p Hp. rewrite B2, A2 by lia. reflexivity.
  - intros p. destruct (A3 p) as (l & E1), (B3 p) as (l' & E2). exists (l ++ l'). now rewrite E2, E1, app_assoc.
Qed.
Lemma ext_refs s f : ext s (set_refs s f).
Proof. split; auto. intros p. exists []. cbn. now rewrite app_nil_r. Qed.
Lemma same_refs s f : same s (set_refs s f).
Proof. split; reflexivity. Qed.
Lemma same_refl s : same s s.
Proof. split; reflexivity. Qed.
Lemma same_trans s s' s'' : same s s' -> same s' s'' -> same s s''.
Proof. intros [? ?] [? ?]. split; congruence. Qed.

Definition wp {A} (m : M A) (s : st) (Q : A -> st -> Prop) : Prop := match m s with Ok (a, s') => Q a s' | Err _ => True | UB => False end.
Lemma wp_mono {A} (m : M A) s (P Q : A -> st -> Prop) : wp m s P -> (forall a s', P a s' -> Q a s') -> wp m s Q.
Proof. unfold wp. destruct (m s) as [[a s']| |]; auto. Qed.
Lemma wp_bnd {A B} (m : M A) (f : A -> M B) s Q : wp m s (fun a s' => wp (f a) s' Q) -> wp (bnd m f) s Q.
Proof. unfold wp, bnd. destruct (m s) as [[a s']| |]; auto. Qed.
Lemma wp_ret {A} (a : A) s (Q : A -> st -> Prop) : Q a s -> wp (ret a) s Q.
Proof. exact (fun x => x). Qed.

(** A change of counts only, for some object that isn't created nor freed meanwhile, or that has nothing. *)
Lemma mine_refs s f i p : (Nat.eqb (f p) 0 = Nat.eqb (refs s p) 0 \/ kids s p = []) -> mine (set_refs s f) i p = mine s i p.
Proof. unfold mine. cbn. intros [->| ->]; [reflexivity|]. cbn. destruct (_ =? _)%nat, (_ =? _)%nat; reflexivity. Qed.

Lemma use_ok s L i : I s L -> refs s i <> O -> wp (use i) s (fun _ s' => s' = s).
Proof. intros H Hi. unfold wp, use. destruct (Nat.eqb_spec (refs s i) 0); [contradiction|reflexivity]. Qed.
Lemma get_ok s L i : I s L -> refs s i <> O -> wp (get i) s (fun _ s' => I s' (i :: L) /\ ext s s' /\ same s s').
Proof.
  intros H Hi. unfold wp, get. destruct (Nat.eqb_spec (refs s i) 0); [contradiction|]. split; [|split; [apply ext_refs|apply same_refs]].
  destruct H as [A B C D E]. split; try assumption.
  - intros j. rewrite (sum_ext _ (mine s j)).
    + cbn. unfold at_. unfold stack in *. cbn. specialize (A j). rewrite cnt_app in *. cbn. unfold one. destruct (Nat.eqb_spec j i); [subst|]; lia.
    + intros p Hp. apply mine_refs. left. unfold at_. destruct (Nat.eqb_spec p i); [subst|reflexivity]. cbn. destruct (Nat.eqb_spec (refs s i) 0); [contradiction|reflexivity].
  - intros p Hp. destruct (B p Hp). split; [|assumption]. cbn. unfold at_. destruct (Nat.eqb_spec p i); [subst; contradiction|assumption].
Qed.
Lemma put_ok s L i : I s (i :: L) -> point s i = false -> wp (put i) s (fun _ s' => I s' L /\ ext s s' /\ same s s').
Proof.
  intros H Hi. pose proof (I_live _ _ i H (or_introl eq_refl)) as Hl. unfold wp, put. destruct (Nat.eqb_spec (refs s i) 0); [contradiction|]. split; [|split; [apply ext_refs|apply same_refs]].
  destruct H as [A B C D E].
  assert (K : kids s i = []). { destruct (kids s i) as [|k l] eqn:Ek; [reflexivity|]. destruct (C i k) as (X & _); [rewrite Ek; now left|]. congruence. }
  split; try assumption.
  - intros j. rewrite (sum_ext _ (mine s j)).
    + cbn. unfold at_. unfold stack in *. cbn. specialize (A j). rewrite cnt_app in *. cbn in A. unfold one in A. destruct (Nat.eqb_spec j i); [subst|]; lia.
    + intros p Hp. apply mine_refs. unfold at_. destruct (Nat.eqb_spec p i); [subst; now right|now left].
  - intros p Hp. destruct (B p Hp). split; [|assumption]. cbn. unfold at_. destruct (Nat.eqb_spec p i); [subst; lia|assumption].
Qed.
Lemma create_ok s L p : I s L -> wp (create p) s (fun i s' => I s' (i :: L) /\ ext s s' /\ same s s' /\ point s' i = p /\ kids s' i = [] /\ (i < next s')%nat).
Proof.
  intros H. unfold wp, create. destruct H as [A B C D E].
  assert (Ks : forall q, at_ (kids s) (next s) [] q = kids s q).
  { intros q. unfold at_. destruct (Nat.eqb_spec q (next s)); [subst|reflexivity]. destruct (B (next s) ltac:(lia)) as [_ ->]. reflexivity. }
  assert (Dk : forall d, d_ok s d -> (forall i, In i (d_refs d) -> (i < next s)%nat) -> d_ok {| refs := at_ (refs s) (next s) 1%nat; point := at_ (point s) (next s) p; kids := at_ (kids s) (next s) []; next := S (next s); defers := defers s; metas := metas s; asked := asked s |} d).
  { intros [|u q]; [auto|]. cbn. intros [X [Y Z]] W. pose proof (W u (or_introl eq_refl)). pose proof (W q (or_intror (or_introl eq_refl))).
    unfold complete. cbn. rewrite Ks. unfold at_. destruct (Nat.eqb_spec u (next s)); [lia|]. destruct (Nat.eqb_spec q (next s)); [lia|]. auto. }
  assert (Old : forall i, refs s i <> O -> (i < next s)%nat).
  { intros i Hi. destruct (Nat.lt_ge_cases i (next s)) as [?|Hn]; [assumption|]. destruct (B i Hn). contradiction. }
  assert (Sl : forall i, In i (stack s) -> (i < next s)%nat).
  { intros i Hi. apply Old. rewrite A, cnt_app. pose proof (cnt_in i _ Hi). lia. }
  split; [|split; [|split; [split; reflexivity|split; [cbn; unfold at_; now rewrite Nat.eqb_refl|split; [cbn; unfold at_; now rewrite Nat.eqb_refl|cbn; lia]]]]].
  - split; cbn.
    + intros j. unfold stack. cbn.
      assert (X : forall q, (q < next s)%nat -> mine {| refs := at_ (refs s) (next s) 1%nat; point := at_ (point s) (next s) p; kids := at_ (kids s) (next s) []; next := S (next s); defers := defers s; metas := metas s; asked := asked s |} j q = mine s j q).
      { intros q Hq. unfold mine. cbn. rewrite Ks. unfold at_. destruct (Nat.eqb_spec q (next s)); [lia|reflexivity]. }
      rewrite (sum_ext _ (mine s j)) by exact X. replace (mine _ j (next s)) with O by (unfold mine; cbn; unfold at_; rewrite !Nat.eqb_refl; reflexivity).
      specialize (A j). unfold stack in A. rewrite cnt_app in *. cbn. unfold at_, one. destruct (Nat.eqb_spec j (next s)); [subst|lia].
      destruct (B (next s) ltac:(lia)) as [Z _]. lia.
    + intros q Hq. rewrite Ks. unfold at_. destruct (Nat.eqb_spec q (next s)); [lia|]. apply B. lia.
    + intros q k. rewrite Ks. intros Hk. destruct (C q k Hk) as (X & Y & Z). unfold at_.
      destruct (Nat.eqb_spec (snd k) (next s)); [lia|]. destruct (Nat.eqb_spec q (next s)); [|split; [assumption|split; [assumption|lia]]].
      subst. destruct (B (next s) ltac:(lia)) as [_ Ez]. rewrite Ez in Hk. destruct Hk.
    + rewrite Forall_forall in *. intros d Hd. apply Dk; [now apply D|]. intros i Hi. apply Sl. unfold stack. apply in_or_app. left. apply in_flat_map. eauto.
    + rewrite Forall_forall in *. intros m Hm. destruct (E m Hm) as (X & Y & Z).
      assert (W : forall i, In i (m_refs m) -> (i < next s)%nat). { intros i Hi. apply Sl. unfold stack. apply in_or_app. right. apply in_flat_map. eauto. }
      unfold m_ok. cbn. unfold at_. pose proof (W (m_uri m) ltac:(cbn; auto)). pose proof (W (m_x509 m) ltac:(cbn; auto)). pose proof (W (m_resources m) ltac:(cbn; auto)).
      destruct (Nat.eqb_spec (m_uri m) (next s)); [lia|]. destruct (Nat.eqb_spec (m_x509 m) (next s)); [lia|]. destruct (Nat.eqb_spec (m_resources m) (next s)); [lia|]. auto.
  - split; cbn; [lia| |].
    + intros q Hq. unfold at_. destruct (Nat.eqb_spec q (next s)); [lia|reflexivity].
    + intros q. exists []. now rewrite Ks, app_nil_r.
Qed.

Lemma point_ext s s' L i : I s L -> refs s i <> O -> ext s s' -> point s' i = point s i.
Proof. intros H Hi E. apply (e_point _ _ E). eapply live_old; eassumption. Qed.

Lemma put_all_ok l : forall s L, I s (l ++ L) -> (forall i, In i l -> point s i = false) -> wp (put_all l) s (fun _ s' => I s' L /\ ext s s' /\ same s s').
Proof.
  induction l as [|i l IH]; intros s L H P; cbn [put_all].
  - apply wp_ret. split; [exact H|split; [apply ext_refl|apply same_refl]].
  - apply wp_bnd. eapply wp_mono; [apply (put_ok s (l ++ L) i); [exact H|apply P; now left]|].
    intros _ s1 (H1 & E1 & S1). eapply wp_mono; [apply (IH s1 L H1)|].
    + intros j Hj. rewrite (point_ext s s1 _ j H); [apply P; now right| |exact E1]. eapply I_live; [exact H|]. right. apply in_or_app. now left.
    + intros _ s2 (H2 & E2 & S2). split; [exact H2|split; [eapply ext_trans; eassumption|eapply same_trans; eassumption]].
Qed.

Lemma get_kids_ok s L p : I s L -> refs s p <> O -> wp (get_kids p) s (fun k s' => s' = s /\ k = kids s p).
Proof. intros H Hp. unfold wp, get_kids. destruct (Nat.eqb_spec (refs s p) 0); [contradiction|auto]. Qed.

Lemma add_kid_ok s L p k u : I s (u :: L) -> point s u = false -> point s p = true -> refs s p <> O ->
  wp (add_kid p k u) s (fun _ s' => I s' L /\ ext s s' /\ same s s' /\ kids s' p = kids s p ++ [(k, u)] /\ point s' p = true /\ refs s' p <> O).
Proof.
  intros H Pu Pp Hp. pose proof (live_old _ _ _ H Hp) as Op. pose proof (live_old _ _ _ H (I_live _ _ u H (or_introl eq_refl))) as Ou.
  unfold wp, add_kid. destruct (Nat.eqb_spec (refs s p) 0) as [|Hn]; [contradiction|].
  assert (Kp : at_ (kids s) p (kids s p ++ [(k, u)]) p = kids s p ++ [(k, u)]) by (unfold at_; now rewrite Nat.eqb_refl).
  assert (Ko : forall q, q <> p -> at_ (kids s) p (kids s p ++ [(k, u)]) q = kids s q) by (intros q Hq; unfold at_; destruct (Nat.eqb_spec q p); congruence).
  destruct H as [A B C D E].
  split; [|split; [|split; [split; reflexivity|split; [exact Kp|split; assumption]]]].
  - split; cbn.
    + intros j. specialize (A j). unfold stack in *. cbn [defers metas].
      pose proof (sum_upd (mine {| refs := refs s; point := point s; kids := at_ (kids s) p (kids s p ++ [(k, u)]); next := next s; defers := defers s; metas := metas s; asked := asked s |} j) (mine s j) (next s) p Op) as X.
      assert (Y : forall q, q <> p -> mine {| refs := refs s; point := point s; kids := at_ (kids s) p (kids s p ++ [(k, u)]); next := next s; defers := defers s; metas := metas s; asked := asked s |} j q = mine s j q).
      { intros q Hq. unfold mine. cbn. now rewrite Ko. }
      specialize (X Y). unfold mine in X at 2 4. cbn [refs kids] in X. rewrite Kp in X. destruct (Nat.eqb_spec (refs s p) 0); [contradiction|].
      rewrite map_app, cnt_app in X. cbn in X. rewrite cnt_app in *. cbn in A. lia.
    + intros q Hq. destruct (B q Hq). split; [assumption|]. rewrite Ko by lia. assumption.
    + intros q x Hx. destruct (Nat.eq_dec q p) as [->|Hq]; [rewrite Kp in Hx|rewrite Ko in Hx by exact Hq; now apply C].
      apply in_app_or in Hx. destruct Hx as [Hx|[<-|[]]]; [now apply C|]. cbn. auto.
    + rewrite Forall_forall in *. intros d Hd. specialize (D d Hd). destruct d as [|v q]; [exact Logic.I|]. cbn in *. destruct D as (D1 & D2 & D3).
      split; [exact D1|]. split; [exact D2|]. cbn. destruct (Nat.eq_dec q p) as [->|Hq]; [rewrite Kp|rewrite Ko by exact Hq; exact D3].
      unfold of_kind in *. rewrite filter_app, map_app. destruct (map snd _); [contradiction|discriminate].
    + exact E.
  - split; cbn; [lia|auto|]. intros q. destruct (Nat.eq_dec q p) as [->|Hq]; [rewrite Kp; eauto|rewrite Ko by exact Hq; exists []; now rewrite app_nil_r].
Qed.

Lemma rpp_refput_ok s L p : I s (p :: L) -> point s p = true -> wp (rpp_refput p) s (fun _ s' => I s' L /\ ext s s' /\ same s s').
Proof.
  intros H Pp. pose proof (I_live _ _ p H (or_introl eq_refl)) as Hp. pose proof (live_old _ _ _ H Hp) as Op.
  unfold rpp_refput, wp, bnd, get_kids, put. destruct (Nat.eqb_spec (refs s p) 0); [contradiction|].
  destruct (Nat.eqb_spec (refs s p) 1) as [E1|E1]; destruct (Nat.eqb_spec (refs s p) 0); try contradiction.
  - set (s1 := set_refs s (at_ (refs s) p (refs s p - 1)%nat)).
    assert (H1 : I s1 (map snd (kids s p) ++ L)).
    { destruct H as [A B C D E]. split; try assumption.
      - intros j. specialize (A j). unfold stack in *. cbn [defers metas s1 set_refs] in *.
        pose proof (sum_upd (mine s1 j) (mine s j) (next s) p Op) as X.
        assert (Y : forall q, q <> p -> mine s1 j q = mine s j q).
        { intros q Hq. apply mine_refs. left. unfold at_. destruct (Nat.eqb_spec q p); congruence. }
        specialize (X Y). replace (mine s j p) with (cnt j (map snd (kids s p))) in X by (unfold mine; now rewrite E1).
        replace (mine s1 j p) with O in X by (unfold mine, s1; cbn; unfold at_; now rewrite Nat.eqb_refl, E1).
        rewrite !cnt_app in *. cbn in A. cbn [refs s1 set_refs next] in *. unfold at_ in *. unfold one in A. destruct (Nat.eqb_spec j p); [subst j|]; lia.
      - intros q Hq. unfold s1 in Hq |- *; cbn [next set_refs] in Hq. destruct (B q Hq). split; [|assumption]. cbn [refs set_refs]. unfold at_. destruct (Nat.eqb_spec q p); [subst; lia|assumption]. }
    pose proof (put_all_ok (map snd (kids s p)) s1 L H1) as X.
    assert (Y : forall i, In i (map snd (kids s p)) -> point s1 i = false). { intros i Hi. apply in_map_iff in Hi. destruct Hi as (k & <- & Hk). exact (proj1 (proj2 (i_kids _ _ H _ _ Hk))). }
    specialize (X Y). unfold wp in X. fold s1. destruct (put_all (map snd (kids s p)) s1) as [[a s2]| |]; [|exact X|exact X].
    destruct X as (X1 & X2 & X3). split; [exact X1|]. split; [exact (ext_trans _ _ _ (ext_refs _ _) X2)|exact (same_trans _ _ _ (same_refs _ _) X3)].
  - split; [|split; [apply ext_refs|apply same_refs]].
    destruct H as [A B C D E]. split; try assumption.
    + intros j. rewrite (sum_ext _ (mine s j)).
      * specialize (A j). cbn. unfold at_. unfold stack in *. cbn. rewrite cnt_app in *. cbn in A. unfold one in A. destruct (Nat.eqb_spec j p); [subst|]; lia.
      * intros q Hq. apply mine_refs. left. unfold at_. destruct (Nat.eqb_spec q p); [subst q|reflexivity].
        destruct (Nat.eqb_spec (refs s p - 1) 0), (Nat.eqb_spec (refs s p) 0); try reflexivity; lia.
    + intros q Hq. cbn [next set_refs] in Hq. destruct (B q Hq). split; [|assumption]. cbn [refs set_refs]. unfold at_. destruct (Nat.eqb_spec q p); [subst; lia|assumption].
Qed.
