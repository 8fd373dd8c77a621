From Coq Require Import String.
From Verif Require Import Base BaseLemmas CString VCard VCardSpec.
Notation length := List.length.

(** *** Lines are what they are *)
Lemma reads_func t l1 r1 : reads t l1 r1 -> forall l2 r2, reads t l2 r2 -> l1 = l2 /\ r1 = r2.
Proof.
  induction 1 as [rest N|b t l rest B R IH|c t l rest N R IH]; intros l2 r2 H.
  - inversion H as [|b t l ? B|c t l ? K]; subst; [auto|destruct N; exact B|destruct K; cbn; auto].
  - inversion H as [? K|? ? ? ? ? K|? ? ? ? K]; subst; [destruct K; exact B|apply IH; assumption|destruct K; cbn; auto].
  - inversion H as [? K|? ? ? ? ? K|? ? ? ? K K2]; subst; [destruct N; cbn; auto|destruct N; cbn; auto|]. destruct (IH _ _ K2) as (-> & ->). auto.
Qed.
Lemma reads_length t l r : reads t l r -> (length l + length r + 2 <= length t)%nat.
Proof. induction 1; cbn [length] in *; lia. Qed.
Lemma reads_suffix t l r : reads t l r -> exists p, t = p ++ r.
Proof. induction 1 as [rest|b t l rest B R (p & ->)|c t l rest N R (p & ->)]; [exists [13; 10]|exists (13 :: 10 :: b :: p)|exists (c :: p)]; reflexivity. Qed.

Lemma reads_char_inv c t l r : ~ (c = 13 /\ begins_with (eq 10) t) -> reads (c :: t) l r -> exists l', l = c :: l' /\ reads t l' r.
Proof. intros N R. inversion R; subst; [destruct N; cbn; auto|destruct N; cbn; auto|eauto]. Qed.
(** *** The buffer *)
Definition loaded (l : vcard_line) (w : list Z) : Prop := vl_len l = length w /\ exists junk, junk <> [] /\ vl_val l = map Some w ++ junk.
Definition terminated (l : vcard_line) (w : list Z) : Prop := vl_len l = length w /\ exists junk, vl_val l = map Some (w ++ [0]) ++ junk.
Lemma upd_at {A} (a : list A) x y b : upd (a ++ x :: b) (length a) y = a ++ y :: b.
Proof. induction a as [|z a IH]; cbn; [reflexivity|]. rewrite IH. reflexivity. Qed.
Lemma add_chara_spec l w c inc : loaded l w -> exists l', add_chara l c inc = Ok l' /\ vl_offset l' = vl_offset l /\ if inc then loaded l' (w ++ [c]) else vl_len l' = length w /\ exists junk, vl_val l' = map Some (w ++ [c]) ++ junk.
Proof.
  intros (L & junk & N & V). unfold add_chara. cbv zeta.
  set (l1 := if Nat.eqb (vl_len l + 1) (length (vl_val l)) then double_line_size l else l).
  assert (K: exists x y junk', vl_val l1 = map Some w ++ x :: y :: junk' /\ vl_len l1 = length w /\ vl_offset l1 = vl_offset l).
  { subst l1. destruct (Nat.eqb_spec (vl_len l + 1) (length (vl_val l))) as [E|E].
    - rewrite L, V, app_length, map_length in E. assert (length junk = 1%nat) as J by lia. destruct junk as [|x [|]]; try discriminate. assert (exists m, length (vl_val l) = S m) as (m & Hm) by (rewrite V, app_length; cbn [length]; exists (length (map Some w)); lia).
      exists x, None, (repeat None m). unfold double_line_size. cbn [vl_val vl_len vl_offset]. rewrite Hm. split; [|auto]. rewrite V, <- app_assoc. reflexivity.
    - rewrite L, V, app_length, map_length in E. destruct junk as [|x [|y junk]]; [contradiction|cbn in E; lia|]. exists x, y, junk. auto. }
  destruct K as (x & y & j & V1 & L1 & O1). rewrite V1, L1. replace (Nat.ltb (length w) (length (map Some w ++ x :: y :: j))) with true by (symmetry; apply Nat.ltb_lt; rewrite app_length, map_length; cbn; lia).
  eexists. split; [reflexivity|]. cbn [vl_offset vl_len vl_val]. split; [exact O1|].
  assert (U: upd (map Some w ++ x :: y :: j) (length w) (Some c) = map Some (w ++ [c]) ++ y :: j).
  { rewrite <- (map_length Some w), upd_at, map_app, <- app_assoc. reflexivity. }
  rewrite U. destruct inc.
  - split; [cbn; rewrite app_length; reflexivity|]. cbn [vl_val]. exists (y :: j). split; [discriminate|reflexivity].
  - split; [reflexivity|]. exists (y :: j). reflexivity.
Qed.

Lemma read_at (s : list Z) pos c t : skipn pos s = c :: t -> read s pos = Ok c /\ skipn (pos + 1) s = t /\ length s = (pos + S (length t))%nat.
Proof.
  intros H. assert (s = firstn pos s ++ c :: t) as E by (rewrite <- H; symmetry; apply firstn_skipn). assert (Lp: length (firstn pos s) = pos).
  { apply firstn_length_le. destruct (Nat.le_gt_cases pos (length s)) as [K|K]; [exact K|]. rewrite skipn_all2 in H by lia. discriminate. }
  split; [|split].
  - unfold read. rewrite E, nth_error_app2 by lia. rewrite Lp, Nat.sub_diag. reflexivity.
  - rewrite E, skipn_app, skipn_all2 by lia. rewrite Lp. replace (pos + 1 - pos)%nat with 1%nat by lia. reflexivity.
  - rewrite E, app_length, Lp. reflexivity.
Qed.
Definition line_result (s t : list Z) (w : list Z) (off : nat) (r : res vcard_line) : Prop :=
  (exists l' l1 rest, r = Ok l' /\ reads t l1 rest /\ terminated l' (w ++ l1) /\ (vl_offset l' = off + (length s - length rest))%nat) \/
  (r = Err EINVAL /\ forall l1 rest, ~ reads t l1 rest).
Lemma line_loop_spec : forall fuel s pos l w, (length s <= pos + fuel)%nat -> (pos <= length s)%nat -> loaded l w ->
  line_result s (skipn pos s) w (vl_offset l) (line_loop fuel s pos l).
Proof.
  induction fuel as [|fuel IH]; intros s pos l w HF HP L.
  - cbn [line_loop]. destruct (Nat.ltb_spec pos (length s)) as [K|K]; [lia|]. right. split; [reflexivity|]. rewrite skipn_all2 by lia. intros l1 rest R. inversion R.
  - cbn [line_loop]. destruct (Nat.ltb_spec pos (length s)) as [K|K].
    2:{ right. split; [reflexivity|]. rewrite skipn_all2 by lia. intros l1 rest R. inversion R. }
    destruct (skipn pos s) as [|c t] eqn:E; [apply (f_equal (@length Z)) in E; rewrite skipn_length in E; cbn in E; lia|].
    destruct (read_at s pos c t E) as (Rc & Et & Ln).
    (* copying *)
    assert (COPY: ~ (c = 13 /\ begins_with (eq 10) t) -> line_result s (c :: t) w (vl_offset l) (bind (read s pos) (fun c => bind (add_chara l c true) (line_loop fuel s (pos + 1))))).
    { intros N. rewrite Rc. cbn [bind]. destruct (add_chara_spec l w c true L) as (l2 & A & O2 & L2). rewrite A. cbn [bind]. destruct (IH s (pos + 1)%nat l2 (w ++ [c]) ltac:(lia) ltac:(lia) L2) as [(l' & l1 & rest & R1 & R2 & R3 & R4)|(R1 & R2)]; rewrite Et in R2.
      - left. exists l', (c :: l1), rest. rewrite O2 in R4. rewrite <- app_assoc in R3. split; [exact R1|]. split; [constructor; assumption|]. split; [exact R3|exact R4].
      - right. split; [exact R1|]. intros l1 rest R. destruct (reads_char_inv _ _ _ _ N R) as (l3 & _ & Q). exact (R2 _ _ Q). }
    unfold analyze_pos. rewrite Rc. cbn [bind]. destruct (Z.eqb_spec c CR) as [->|N]; cbn [negb].
    2:{ cbn [bind]. rewrite Rc in COPY. apply COPY. intros (Q & _). contradiction. }
    unfold next_chara. destruct t as [|c1 t].
    { cbn [length] in Ln. destruct (Nat.ltb_spec pos (length s - 1)); [lia|]. cbn [bind]. right. split; [reflexivity|]. intros l1 rest R. inversion R as [|? ? ? ? ? Q|? ? ? ? Q Q2]; subst. inversion Q2. }
    cbn [length] in Ln. destruct (Nat.ltb_spec pos (length s - 1)); [|lia]. destruct (read_at s (pos + 1)%nat c1 t Et) as (Rc1 & Et1 & _). rewrite Rc1. cbn [bind].
    destruct (Z.eqb_spec c1 LF) as [->|N]; cbn [negb].
    2:{ cbn [bind]. rewrite Rc in COPY. apply COPY. intros (_ & Q). cbn in Q. apply N. unfold LF. auto. }
    assert (ENDED: ~ begins_with blank t -> line_result s (CR :: LF :: t) w (vl_offset l) (add_chara {| vl_val := vl_val l; vl_len := vl_len l; vl_offset := vl_offset l + (pos + 2) |} 0 false)).
    { intros N. left. destruct (add_chara_spec {| vl_val := vl_val l; vl_len := vl_len l; vl_offset := vl_offset l + (pos + 2) |} w 0 false L) as (l2 & A & O2 & L2 & junk & V2). exists l2, [], t. split; [exact A|]. split; [constructor; exact N|]. rewrite app_nil_r. split; [split; [exact L2|exists junk; exact V2]|]. rewrite O2. cbn [vl_offset]. rewrite Ln. lia. }
    destruct t as [|c2 t].
    { cbn [length] in Ln. destruct (Nat.ltb_spec (pos + 1) (length s - 1)); [lia|]. cbn [bind]. apply ENDED. cbn. tauto. }
    cbn [length] in Ln. destruct (Nat.ltb_spec (pos + 1) (length s - 1)); [|lia]. destruct (read_at s (pos + 1 + 1)%nat c2 t Et1) as (Rc2 & Et2 & _). rewrite Rc2. cbn [bind].
    destruct (Z.eqb_spec c2 32) as [B|B]; [|destruct (Z.eqb_spec c2 9) as [B'|B']]; cbn [orb bind].
    1,2: destruct (IH s (pos + 3)%nat l w ltac:(lia) ltac:(lia) L) as [(l' & l1 & rest & R1 & R2 & R3 & R4)|(R1 & R2)]; replace (pos + 3)%nat with (pos + 1 + 1 + 1)%nat in R2 by lia; rewrite Et2 in R2;
      [left; exists l', l1, rest; split; [exact R1|]; split; [apply reads_fold; [unfold blank; auto|exact R2]|]; auto
      |right; split; [exact R1|]; intros l1 rest R; inversion R as [? Q|? ? ? ? ? Q|? ? ? ? Q Q2]; subst; [apply Q; cbn; unfold blank; auto|exact (R2 _ _ Q)|apply Q; cbn; auto]].
    apply ENDED. cbn. unfold blank. tauto.
Qed.
Lemma line_next_spec text l : (vl_offset l <= length text)%nat -> vl_val l <> [] ->
  (exists l' l1 rest, line_next text l = Ok l' /\ reads (skipn (vl_offset l) text) l1 rest /\ terminated l' l1 /\ vl_offset l' = (length text - length rest)%nat) \/
  (line_next text l = Err EINVAL /\ forall l1 rest, ~ reads (skipn (vl_offset l) text) l1 rest).
Proof.
  intros O V. unfold line_next. destruct (Nat.eqb_spec (length text) (vl_offset l)) as [E|E].
  { right. split; [reflexivity|]. rewrite skipn_all2 by lia. intros l1 rest R. inversion R. }
  destruct (Nat.ltb_spec (length text) (vl_offset l)); [lia|].
  assert (L0: loaded {| vl_val := vl_val l; vl_len := 0; vl_offset := vl_offset l |} []) by (split; [reflexivity|exists (vl_val l); auto]).
  destruct (line_loop_spec (length text) (skipn (vl_offset l) text) 0 _ [] ltac:(rewrite skipn_length; lia) ltac:(lia) L0) as [(l' & l1 & rest & R1 & R2 & R3 & R4)|R]; [left|right; exact R].
  exists l', l1, rest. cbn [skipn app vl_offset] in *. split; [exact R1|]. split; [exact R2|]. split; [exact R3|]. pose proof (reads_length _ _ _ R2). rewrite R4, skipn_length in *. lia.
Qed.

(** *** Comparisons *)
Lemma lower_eq c : lower c = tolower c. Proof. reflexivity. Qed.
Lemma strncaseeq_spec : forall s val i w, (forall k c, nth_error (w ++ [0]) k = Some c -> nth_error val (i + k) = Some (Some c)) -> Forall (fun c => 0 < c) s ->
  exists b, strncaseeq val i s = Ok b /\ (b = true <-> starts s w).
Proof.
  induction s as [|c s IH]; intros val i w H P; cbn [strncaseeq].
  - exists true. split; [reflexivity|]. split; [intros _; exists [], w; split; reflexivity|reflexivity].
  - inversion P as [|? ? Pc P']; subst. destruct w as [|b w].
    + pose proof (H 0%nat 0 eq_refl) as E. rewrite Nat.add_0_r in E. rewrite E. assert (tolower c <> 0) as T by (unfold tolower; destruct ((65 <=? c) && (c <=? 90)); lia).
      destruct (Z.eqb_spec (tolower 0) (tolower c)) as [K|K]; cbn [negb]; [exfalso; apply T; rewrite <- K; reflexivity|]. exists false. split; [reflexivity|]. split; [discriminate|]. intros (a & x & A & B). destruct a; [discriminate B|discriminate A].
    + pose proof (H 0%nat b eq_refl) as E. rewrite Nat.add_0_r in E. rewrite E. destruct (Z.eqb_spec (tolower b) (tolower c)) as [K|K]; cbn [negb].
      2:{ exists false. split; [reflexivity|]. split; [discriminate|]. intros (a & x & A & B). destruct a as [|y a]; [discriminate B|]. injection A as -> ->. injection B as B _. rewrite !lower_eq in B. contradiction. }
      destruct (Z.eqb_spec b 0) as [->|N]; [exfalso; unfold tolower in K; cbn in K; destruct ((65 <=? c) && (c <=? 90)); lia|].
      destruct (IH val (i + 1)%nat w) as (r & R1 & R2); [|exact P'|].
      { intros k x Hk. specialize (H (S k) x Hk). rewrite <- H. f_equal. lia. }
      exists r. split; [exact R1|]. rewrite R2. split.
      * intros (a & x & -> & B). exists (b :: a), x. split; [reflexivity|]. unfold same in *. cbn [map]. rewrite B, !lower_eq, K. reflexivity.
      * intros (a & x & A & B). destruct a as [|y a]; [discriminate B|]. injection A as <- ->. injection B as _ B. exists a, x. split; [reflexivity|exact B].
Qed.
Lemma terminated_nth l w : terminated l w -> forall k c, nth_error (w ++ [0]) k = Some c -> nth_error (vl_val l) (0 + k) = Some (Some c).
Proof. intros (_ & junk & ->) k c H. cbn [Nat.add]. rewrite nth_error_app1; [rewrite nth_error_map, H; reflexivity|]. rewrite map_length. apply nth_error_Some. congruence. Qed.
Lemma print_line_ok l w : terminated l w -> print_line (vl_val l) = Ok tt.
Proof.
  intros (_ & junk & ->). induction w as [|b w IH]; cbn [app map print_line]; [reflexivity|]. destruct (b =? 0); [reflexivity|exact IH].
Qed.
Lemma starts_with_spec l w tag : terminated l w -> Forall (fun c => 0 < c) tag -> exists b, line_starts_with l tag = Ok b /\ (b = true <-> starts tag w).
Proof. intros T P. apply strncaseeq_spec; [apply terminated_nth; exact T|exact P]. Qed.
Lemma starts_any_spec l w tags : terminated l w -> Forall (Forall (fun c => 0 < c)) tags -> exists b, starts_with_any l tags = Ok b /\ (b = true <-> exists tag, In tag tags /\ starts tag w).
Proof.
  intros T. induction 1 as [|t tags P _ IH]; cbn [starts_with_any].
  - exists false. split; [reflexivity|]. split; [discriminate|intros (? & [] & _)].
  - destruct (starts_with_spec l w t T P) as (b & -> & B). cbn [bind]. destruct b.
    + exists true. split; [reflexivity|]. split; [intros _; exists t; split; [left; reflexivity|apply B; reflexivity]|reflexivity].
    + destruct IH as (b & -> & B2). exists b. split; [reflexivity|]. rewrite B2. split; [intros (tag & I & S); exists tag; split; [right; exact I|exact S]|].
      intros (tag & [->|I] & S); [apply B in S; discriminate|exists tag; auto].
Qed.
Lemma validate_spec l w expected : terminated l w -> Forall (fun c => 0 < c) expected ->
  (line_validate l expected = Ok tt /\ same w expected) \/ (line_validate l expected = Err EINVAL /\ ~ same w expected).
Proof.
  intros T P. unfold line_validate. destruct T as (L & T). rewrite L. destruct (Nat.eqb_spec (length w) (length expected)) as [E|E].
  - destruct (starts_with_spec l w expected (conj L T) P) as (b & B1 & B2). unfold line_starts_with in B1. rewrite B1. cbn [bind]. destruct b.
    + left. split; [reflexivity|]. destruct (proj1 B2 eq_refl) as (a & x & -> & Q). assert (length a = length expected) as La by (apply (f_equal (@length Z)) in Q; rewrite !map_length in Q; exact Q).
      rewrite app_length in E. destruct x; [rewrite app_nil_r; exact Q|cbn in E; lia].
    + right. rewrite (print_line_ok l w (conj L T)). split; [reflexivity|]. intros Q. assert (false = true) as X by (apply B2; exists w, []; rewrite app_nil_r; auto). discriminate X.
  - right. cbn [bind]. rewrite (print_line_ok l w (conj L T)). split; [reflexivity|]. intros Q. apply E. apply (f_equal (@length Z)) in Q. rewrite !map_length in Q. exact Q.
Qed.

(** *** The loop *)
Inductive many : list Z -> list (list Z) -> list Z -> Prop :=
| many_nil t : many t [] t
| many_cons t l rest ls r : reads t l rest -> many rest ls r -> many t (l :: ls) r.
Lemma many_lines t ls : many t ls [] <-> lines_of t ls.
Proof.
  split.
  - intros H. remember [] as e eqn:E. induction H; subst; [constructor|econstructor; eauto].
  - induction 1; [constructor|econstructor; eauto].
Qed.
Definition known (l : list Z) : Prop := names_someone l \/ tells_how l.
Definition ends (l : list Z) : Prop := starts (cstr "END:") l.
Lemma starts_clash t1 t2 l : starts t1 l -> starts t2 l -> exists a b, same a b /\ (t1 = a \/ exists x, t1 = a ++ x) /\ (t2 = b \/ exists x, t2 = b ++ x) /\ length a = Nat.min (length t1) (length t2).
Proof.
  intros (a1 & b1 & -> & S1) (a2 & b2 & E & S2). unfold same in *.
  assert (L1: length a1 = length t1) by (apply (f_equal (@length Z)) in S1; rewrite !map_length in S1; exact S1). assert (L2: length a2 = length t2) by (apply (f_equal (@length Z)) in S2; rewrite !map_length in S2; exact S2).
  set (n := Nat.min (length t1) (length t2)). exists (firstn n t1), (firstn n t2).
  assert (F: firstn n a1 = firstn n a2).
  { assert (firstn n (a1 ++ b1) = firstn n (a2 ++ b2)) as Q by congruence. rewrite !firstn_app in Q. replace (n - length a1)%nat with 0%nat in Q by lia. replace (n - length a2)%nat with 0%nat in Q by lia. rewrite !firstn_O, !app_nil_r in Q. exact Q. }
  split; [rewrite <- !firstn_map, <- S1, <- S2, !firstn_map, F; reflexivity|]. split; [right; exists (skipn n t1); symmetry; apply firstn_skipn|]. split; [right; exists (skipn n t2); symmetry; apply firstn_skipn|]. rewrite firstn_length. lia.
Qed.
Lemma no_clash t1 t2 l : firstn (Nat.min (length t1) (length t2)) (map lower t1) <> firstn (Nat.min (length t1) (length t2)) (map lower t2) -> starts t1 l -> starts t2 l -> False.
Proof.
  intros N S1 S2. destruct S1 as (a1 & b1 & -> & S1). destruct S2 as (a2 & b2 & E & S2). unfold same in *. apply N.
  assert (L1: length a1 = length t1) by (apply (f_equal (@length Z)) in S1; rewrite !map_length in S1; exact S1). assert (L2: length a2 = length t2) by (apply (f_equal (@length Z)) in S2; rewrite !map_length in S2; exact S2).
  set (n := Nat.min (length t1) (length t2)).
  assert (F: firstn n a1 = firstn n a2).
  { assert (firstn n (a1 ++ b1) = firstn n (a2 ++ b2)) as Q by congruence. rewrite !firstn_app in Q. replace (n - length a1)%nat with 0%nat in Q by lia. replace (n - length a2)%nat with 0%nat in Q by lia. rewrite !firstn_O, !app_nil_r in Q. exact Q. }
  rewrite <- S1, <- S2, !firstn_map, F. reflexivity.
Qed.
Lemma names_tells l : names_someone l -> tells_how l -> False.
Proof. intros A (tag & I & B). cbn [In] in I. repeat destruct I as [<-|I]; try (revert A B; apply no_clash; vm_compute; discriminate). contradiction. Qed.
Lemma known_ends l : known l -> ends l -> False.
Proof.
  intros [A|(tag & I & A)] B; [revert A B; apply no_clash; vm_compute; discriminate|]. cbn [In] in I. repeat destruct I as [<-|I]; try (revert A B; apply no_clash; vm_compute; discriminate). contradiction.
Qed.
Lemma positive s : forallb (fun c => 0 <? c) s = true -> Forall (fun c => 0 < c) s.
Proof. intros H. apply Forall_forall. intros c I. rewrite forallb_forall in H. apply Z.ltb_lt. apply H. exact I. Qed.

Lemma terminated_nonempty l w : terminated l w -> vl_val l <> [].
Proof. intros (_ & junk & ->). destruct w; discriminate. Qed.
Lemma rest_skip (text : list Z) off l1 rest : reads (skipn off text) l1 rest -> skipn (length text - length rest) text = rest.
Proof.
  intros R. destruct (reads_suffix _ _ _ R) as (p & E). assert (text = (firstn off text ++ p) ++ rest) as -> by (rewrite <- app_assoc, <- E; symmetry; apply firstn_skipn).
  rewrite app_length. replace (length (firstn off text ++ p) + length rest - length rest)%nat with (length (firstn off text ++ p)) by lia. rewrite skipn_app, skipn_all, Nat.sub_diag. reflexivity.
Qed.
Lemma property_loop_spec : forall fuel text l fn us, (length (skipn (vl_offset l) text) < fuel)%nat -> (vl_offset l <= length text)%nat -> vl_val l <> [] ->
  (exists l' fn' us' props last rest, property_loop fuel text l fn us = Ok (l', fn', us') /\ many (skipn (vl_offset l) text) (props ++ [last]) rest /\ Forall known props /\ ends last /\
     terminated l' last /\ vl_offset l' = (length text - length rest)%nat /\ (fn' = true <-> fn = true \/ Exists names_someone props) /\ (us' = true <-> us = true \/ Exists tells_how props)) \/
  (property_loop fuel text l fn us = Err EINVAL /\ forall props last rest, many (skipn (vl_offset l) text) (props ++ [last]) rest -> Forall known props -> ends last -> False).
Proof.
  induction fuel as [|fuel IH]; intros text l fn us HF HO HV; [lia|]. cbn [property_loop].
  destruct (line_next_spec text l HO HV) as [(l1 & w & rest & -> & R & T & O1)|(-> & N)]; cbn [bind].
  2:{ right. split; [reflexivity|]. intros props last rest M _ _. destruct props; inversion M; subst; eapply N; eassumption. }
  pose proof (reads_length _ _ _ R) as Len.
  assert (Sk: skipn (vl_offset l1) text = rest) by (rewrite O1; eapply rest_skip; exact R).
  assert (GO: forall fn1 us1, known w -> (fn1 = true <-> fn = true \/ names_someone w) -> (us1 = true <-> us = true \/ tells_how w) ->
    (exists l' fn' us' props last rest, property_loop fuel text l1 fn1 us1 = Ok (l', fn', us') /\ many (skipn (vl_offset l) text) (props ++ [last]) rest /\ Forall known props /\ ends last /\
       terminated l' last /\ vl_offset l' = (length text - length rest)%nat /\ (fn' = true <-> fn = true \/ Exists names_someone props) /\ (us' = true <-> us = true \/ Exists tells_how props)) \/
    (property_loop fuel text l1 fn1 us1 = Err EINVAL /\ forall props last rest, many (skipn (vl_offset l) text) (props ++ [last]) rest -> Forall known props -> ends last -> False)).
  { intros fn1 us1 Kw Hf Hu. destruct (IH text l1 fn1 us1) as [(l' & fn' & us' & props & last & r2 & E & M & F & En & T' & O' & H1 & H2)|(E & N)]; [rewrite Sk; lia|rewrite O1; lia|exact (terminated_nonempty _ _ T)| |].
    - left. exists l', fn', us', (w :: props), last, r2. split; [exact E|]. rewrite Sk in M. split; [econstructor; eassumption|]. split; [constructor; assumption|]. split; [exact En|]. split; [exact T'|]. split; [exact O'|].
      rewrite H1, H2, Hf, Hu. split; (split; [intros [[K|K]|K]; [left; exact K|right; left; exact K|right; right; exact K]|intros [K|K]; [left; left; exact K|inversion K; subst; auto]]).
    - right. split; [exact E|]. rewrite Sk in N. intros props last r2 M F En. destruct props as [|p props]; cbn [app] in M; inversion M as [|? ? ? ? ? R2 M2]; subst; destruct (reads_func _ _ _ R _ _ R2) as (<- & <-).
      + exact (known_ends w Kw En).
      + inversion F; subst. eapply N; eassumption. }
  destruct (starts_with_spec l1 w (cstr "FN:") T ltac:(apply positive; reflexivity)) as (b1 & -> & B1). cbn [bind]. destruct b1.
  { assert (names_someone w) as K by (apply B1; reflexivity). apply GO; [left; exact K|tauto|]. split; [auto|]. intros [?|Q]; [assumption|destruct (names_tells w K Q)]. }
  assert (N1: ~ names_someone w) by (intros Q; apply B1 in Q; discriminate).
  destruct (starts_any_spec l1 w [cstr "ORG:"; cstr "ADR;"; cstr "TEL;"; cstr "EMAIL:"; cstr "EMAIL;"]%string T) as (b2 & -> & B2); [do 5 (apply Forall_cons; [apply positive; reflexivity|]); apply Forall_nil|]. cbn [bind]. destruct b2.
  { assert (tells_how w) as K by (apply B2; reflexivity). apply GO; [right; exact K| |tauto]. split; [auto|]. intros [?|Q]; [assumption|contradiction]. }
  assert (N2: ~ tells_how w) by (intros Q; apply B2 in Q; discriminate).
  destruct (starts_with_spec l1 w (cstr "END:") T ltac:(apply positive; reflexivity)) as (b3 & -> & B3). cbn [bind]. destruct b3.
  - left. exists l1, fn, us, [], w, rest. split; [reflexivity|]. split; [econstructor; [exact R|constructor]|]. split; [constructor|]. split; [apply B3; reflexivity|]. split; [exact T|]. split; [exact O1|].
    split; (split; [auto|intros [K|K]; [exact K|inversion K]]).
  - right. rewrite (print_line_ok _ _ T). split; [reflexivity|]. intros props last r2 M F En. destruct props as [|p props]; cbn [app] in M; inversion M as [|? ? ? ? ? R2 M2]; subst; destruct (reads_func _ _ _ R _ _ R2) as (<- & <-).
    + apply B3 in En. discriminate.
    + inversion F as [|? ? [K|K] _]; subst; contradiction.
Qed.
Lemma many_func t a ra : many t a ra -> forall b rb, many t b rb -> length a = length b -> a = b /\ ra = rb.
Proof.
  induction 1 as [t|t l rest ls r R M IH]; intros b rb H L; destruct b as [|x b]; try discriminate; inversion H as [|? ? ? ? ? R2 M2]; subst; [auto|].
  destruct (reads_func _ _ _ R _ _ R2) as (<- & <-). cbn in L. destruct (IH _ _ M2 ltac:(lia)) as (-> & ->). auto.
Qed.
(** The last line is the first that isn't a property. *)
Lemma many_split t : forall p1 l1 r1, many t (p1 ++ [l1]) r1 -> Forall known p1 -> ends l1 -> forall p2 l2 r2, many t (p2 ++ [l2]) r2 -> Forall known p2 -> ends l2 -> p1 = p2 /\ l1 = l2 /\ r1 = r2.
Proof.
  intros p1. revert t. induction p1 as [|x p1 IH]; intros t l1 r1 M1 F1 E1 p2 l2 r2 M2 F2 E2; destruct p2 as [|y p2]; cbn [app] in *; inversion M1 as [|? ? ? ? ? R1 N1]; inversion M2 as [|? ? ? ? ? R2 N2]; subst; destruct (reads_func _ _ _ R1 _ _ R2) as (-> & ->).
  - inversion N1; inversion N2; subst; auto.
  - inversion F2; subst. exfalso. eapply known_ends; eassumption.
  - inversion F1; subst. exfalso. eapply known_ends; eassumption.
  - inversion F1; inversion F2; subst. destruct (IH _ _ _ N1 ltac:(assumption) E1 _ _ _ N2 ltac:(assumption) E2) as (-> & -> & ->). auto.
Qed.
