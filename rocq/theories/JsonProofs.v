(** JSON texts: a text is at most one value, and a proper beginning of an object isn't a text. *)
From Verif Require Import Base BaseLemmas OutputSpec.
Notation length := List.length.

Definition wsc (c : Z) : Prop := c = 32 \/ c = 9 \/ c = 10 \/ c = 13.
Definition nows (s : list Z) : Prop := match s with [] => True | c :: _ => ~ wsc c end.
Definition delim (s : list Z) : Prop := match s with [] => True | c :: _ => ~ wordchar c end.
Definition start (c : Z) : Prop := c = 34 \/ c = 91 \/ c = 123 \/ wordchar c.

Lemma ws_split w : forall w' x x', ws w -> ws w' -> nows x -> nows x' -> w ++ x = w' ++ x' -> w = w' /\ x = x'.
Proof.
  induction w as [|c w IH]; intros w' x x' H H' N N' E.
  - destruct w' as [|c' w']; [auto|]. cbn in E. subst x. inversion H'; subst. exfalso. apply N. assumption.
  - inversion H; subst. destruct w' as [|c' w']; [cbn in E; subst x'; exfalso; apply N'; assumption|]. inversion H'; subst.
    cbn in E. injection E as <- E. destruct (IH w' x x' ltac:(assumption) ltac:(assumption) N N' E) as (-> & ->). auto.
Qed.
Lemma quoted_split s : forall s' r r', quoted s -> quoted s' -> s ++ 34 :: r = s' ++ 34 :: r' -> s = s' /\ r = r'.
Proof.
  intros s' r r' H. revert s' r r'. induction H as [|c s H1 H2 H3 H IH|c s H IH]; intros s' r r' H' E.
  - inversion H'; subst; cbn in E; injection E; intros; subst; try lia. auto.
  - inversion H'; subst; cbn in E; injection E; intros; subst; try lia. destruct (IH _ _ _ ltac:(eassumption) ltac:(eassumption)) as (-> & ->). auto.
  - inversion H'; subst; cbn in E; injection E; intros; subst; try lia. destruct (IH _ _ _ ltac:(eassumption) ltac:(eassumption)) as (-> & ->). auto.
Qed.
Lemma word_split w : forall w' x x', Forall wordchar w -> Forall wordchar w' -> delim x -> delim x' -> w ++ x = w' ++ x' -> w = w' /\ x = x'.
Proof.
  induction w as [|c w IH]; intros w' x x' H H' N N' E.
  - destruct w' as [|c' w']; [auto|]. cbn in E. subst x. inversion H'; subst. exfalso. apply N. assumption.
  - inversion H; subst. destruct w' as [|c' w']; [cbn in E; subst x'; exfalso; apply N'; assumption|]. inversion H'; subst.
    cbn in E. injection E as <- E. destruct (IH w' x x' ltac:(assumption) ltac:(assumption) N N' E) as (-> & ->). auto.
Qed.
Lemma text_start v t : text v t -> exists c s, t = c :: s /\ start c.
Proof.
  intros H. inversion H; subst; try (eexists _, _; split; [reflexivity|unfold start; auto]; fail).
  destruct t as [|c t]; [congruence|]. exists c, t. split; [reflexivity|]. inversion H1; subst. unfold start. auto.
Qed.
Lemma start_nows c s : start c -> nows (c :: s).
Proof. unfold start, nows, wsc, wordchar. lia. Qed.
Lemma ws_delim w c r : ws w -> ~ wordchar c -> delim (w ++ c :: r).
Proof. intros H N. destruct w as [|d w]; [exact N|]. inversion H; subst. cbn. unfold wordchar. lia. Qed.

Scheme text_mut := Minimality for text Sort Prop
  with elements_mut := Minimality for elements Sort Prop
  with members_mut := Minimality for members Sort Prop.
Combined Scheme text_all from text_mut, elements_mut, members_mut.

Ltac shape := repeat (rewrite <- app_assoc in * || rewrite <- app_comm_cons in *); cbn [app] in *.
Ltac nw := solve [unfold nows, wsc; lia | apply start_nows; assumption].
Ltac begin_text := match goal with H : text ?v ?t |- _ => lazymatch goal with K : t = _ :: _ |- _ => fail | _ => let c := fresh "c" in let s := fresh "s" in let K := fresh "K" in let B := fresh "B" in pose proof (text_start v t H) as (c & s & K & B) end end.

Theorem text_unique :
  (forall v t, text v t -> forall v' t' r r', text v' t' -> delim r -> delim r' -> t ++ r = t' ++ r' -> v = v' /\ t = t' /\ r = r') /\
  (forall l s, elements l s -> forall l' s' r r', elements l' s' -> s ++ 93 :: r = s' ++ 93 :: r' -> l = l' /\ s = s' /\ r = r') /\
  (forall l s, members l s -> forall l' s' r r', members l' s' -> s ++ 125 :: r = s' ++ 125 :: r' -> l = l' /\ s = s' /\ r = r').
Proof.
  apply text_all.
  - intros s Q v' t' r r' T D D' E. inversion T as [s' Q'|s' N F|l' s' X|l' s' X]; subst; shape; try (injection E; discriminate).
    + injection E as E. destruct (quoted_split s s' r r' Q Q' E) as (-> & ->). auto.
    + destruct t' as [|c t']; [congruence|]. inversion F; subst. cbn in E. injection E as <- E. unfold wordchar in *. lia.
  - intros s N F v' t' r r' T D D' E. destruct s as [|c s]; [congruence|]. inversion T as [s' Q'|s' N' F'|l' s' X|l' s' X]; subst; shape;
      try (inversion F; subst; injection E as -> E; unfold wordchar in *; lia).
    destruct (word_split (c :: s) t' r r' F F' D D' E) as (-> & ->). auto.
  - intros l s H IH v' t' r r' T D D' E. inversion T as [s' Q'|s' N F|l' s' X|l' s' X]; subst; shape; try (injection E; discriminate).
    + destruct t' as [|c t']; [congruence|]. inversion F; subst. cbn in E. injection E as <- E. unfold wordchar in *. lia.
    + injection E as E. destruct (IH l' s' r r' X E) as (-> & -> & ->). auto.
  - intros l s H IH v' t' r r' T D D' E. inversion T as [s' Q'|s' N F|l' s' X|l' s' X]; subst; shape; try (injection E; discriminate).
    + destruct t' as [|c t']; [congruence|]. inversion F; subst. cbn in E. injection E as <- E. unfold wordchar in *. lia.
    + injection E as E. destruct (IH l' s' r r' X E) as (-> & -> & ->). auto.
  - intros w W l' s' r r' T E. inversion T as [w' W'|w1 v t w2 W1 X W2|w1 v t w2 l s W1 X W2 Y NE]; subst; shape.
    + destruct (ws_split w s' (93 :: r) (93 :: r')) as (-> & E'); try assumption; try nw. injection E' as ->. auto.
    + begin_text. subst t. shape. destruct (ws_split w w1 (93 :: r) (c :: s ++ w2 ++ 93 :: r')) as (-> & E'); try assumption; try nw. injection E' as <- E'. unfold start, wordchar in *. lia.
    + begin_text. subst t. shape. destruct (ws_split w w1 (93 :: r) (c :: s0 ++ w2 ++ 44 :: s ++ 93 :: r')) as (-> & E'); try assumption; try nw. injection E' as <- E'. unfold start, wordchar in *. lia.
  - intros w1 v t w2 W1 T IH W2 l' s' r r' T' E. inversion T' as [w' W'|w1' v' t' w2' W1' X W2'|w1' v' t' w2' l s W1' X W2' Y NE]; subst; shape.
    + begin_text. subst t. shape. destruct (ws_split w1 s' (c :: s ++ w2 ++ 93 :: r) (93 :: r')) as (-> & E'); try assumption; try nw. injection E' as -> E'. unfold start, wordchar in *. lia.
    + assert (Z1 : w1 = w1' /\ t ++ w2 ++ 93 :: r = t' ++ w2' ++ 93 :: r').
      { pose proof (text_start _ _ T) as (c & s & Ec & B). pose proof (text_start _ _ X) as (c' & s' & Ec' & B'). apply ws_split; try assumption; [rewrite Ec|rewrite Ec']; nw. }
      destruct Z1 as (<- & E1). destruct (fun a b => IH _ _ _ _ X a b E1) as (<- & <- & E2); [apply ws_delim; [assumption|unfold wordchar; lia]|apply ws_delim; [assumption|unfold wordchar; lia]|].
      destruct (ws_split w2 w2' (93 :: r) (93 :: r')) as (<- & E3); try assumption; try nw. injection E3 as <-. auto.
    + assert (Z1 : w1 = w1' /\ t ++ w2 ++ 93 :: r = t' ++ w2' ++ 44 :: s ++ 93 :: r').
      { pose proof (text_start _ _ T) as (c & s0 & Ec & B). pose proof (text_start _ _ X) as (c' & s' & Ec' & B'). apply ws_split; try assumption; [rewrite Ec|rewrite Ec']; nw. }
      destruct Z1 as (<- & E1). destruct (fun a b => IH _ _ _ _ X a b E1) as (<- & <- & E2); [apply ws_delim; [assumption|unfold wordchar; lia]|apply ws_delim; [assumption|unfold wordchar; lia]|].
      destruct (ws_split w2 w2' (93 :: r) (44 :: s ++ 93 :: r')) as (<- & E3); try assumption; try nw. discriminate E3.
  - intros w1 v t w2 l s W1 T IH W2 Y IHY NE l' s' r r' T' E. inversion T' as [w' W'|w1' v' t' w2' W1' X W2'|w1' v' t' w2' l0 s0 W1' X W2' Y' NE']; subst; shape.
    + begin_text. subst t. shape. destruct (ws_split w1 s' (c :: s0 ++ w2 ++ 44 :: s ++ 93 :: r) (93 :: r')) as (-> & E'); try assumption; try nw. injection E' as -> E'. unfold start, wordchar in *. lia.
    + assert (Z1 : w1 = w1' /\ t ++ w2 ++ 44 :: s ++ 93 :: r = t' ++ w2' ++ 93 :: r').
      { pose proof (text_start _ _ T) as (c & s0 & Ec & B). pose proof (text_start _ _ X) as (c' & s' & Ec' & B'). apply ws_split; try assumption; [rewrite Ec|rewrite Ec']; nw. }
      destruct Z1 as (<- & E1). destruct (fun a b => IH _ _ _ _ X a b E1) as (<- & <- & E2); [apply ws_delim; [assumption|unfold wordchar; lia]|apply ws_delim; [assumption|unfold wordchar; lia]|].
      destruct (ws_split w2 w2' (44 :: s ++ 93 :: r) (93 :: r')) as (<- & E3); try assumption; try nw. discriminate E3.
    + assert (Z1 : w1 = w1' /\ t ++ w2 ++ 44 :: s ++ 93 :: r = t' ++ w2' ++ 44 :: s0 ++ 93 :: r').
      { pose proof (text_start _ _ T) as (c & s1 & Ec & B). pose proof (text_start _ _ X) as (c' & s' & Ec' & B'). apply ws_split; try assumption; [rewrite Ec|rewrite Ec']; nw. }
      destruct Z1 as (<- & E1). destruct (fun a b => IH _ _ _ _ X a b E1) as (<- & <- & E2); [apply ws_delim; [assumption|unfold wordchar; lia]|apply ws_delim; [assumption|unfold wordchar; lia]|].
      destruct (ws_split w2 w2' (44 :: s ++ 93 :: r) (44 :: s0 ++ 93 :: r')) as (<- & E3); try assumption; try nw. injection E3 as E3.
      destruct (IHY _ _ _ _ Y' E3) as (<- & <- & <-). auto.
  - intros w W l' s' r r' T E. inversion T as [w' W'|w1 k w2 w3 v t w4 W1 Q W2 W3 X W4|w1 k w2 w3 v t w4 l s W1 Q W2 W3 X W4 Y NE]; subst; shape.
    + destruct (ws_split w s' (125 :: r) (125 :: r')) as (-> & E'); try assumption; try nw. injection E' as ->. auto.
    + destruct (fun a b c d => ws_split w w1 _ _ a b c d E) as (-> & E'); try assumption; try nw. discriminate E'.
    + destruct (fun a b c d => ws_split w w1 _ _ a b c d E) as (-> & E'); try assumption; try nw. discriminate E'.
  - intros w1 k w2 w3 v t w4 W1 Q W2 W3 T IH W4 l' s' r r' T' E. inversion T' as [w' W'|w1' k' w2' w3' v' t' w4' W1' Q' W2' W3' X W4'|w1' k' w2' w3' v' t' w4' l s W1' Q' W2' W3' X W4' Y NE]; subst; shape.
    + destruct (fun a b c d => ws_split w1 s' _ _ a b c d E) as (-> & E'); try assumption; try nw. discriminate E'.
    + destruct (fun a b c d => ws_split w1 w1' _ _ a b c d E) as (<- & E1); try assumption; try nw. injection E1 as E1.
      destruct (quoted_split _ _ _ _ Q Q' E1) as (<- & E2). destruct (fun a b c d => ws_split w2 w2' _ _ a b c d E2) as (<- & E3); try assumption; try nw. injection E3 as E3.
      assert (Z1 : w3 = w3' /\ t ++ w4 ++ 125 :: r = t' ++ w4' ++ 125 :: r').
      { pose proof (text_start _ _ T) as (c & s & Ec & B). pose proof (text_start _ _ X) as (c' & s' & Ec' & B'). apply ws_split; try assumption; [rewrite Ec|rewrite Ec']; nw. }
      destruct Z1 as (<- & E4). destruct (fun a b => IH _ _ _ _ X a b E4) as (<- & <- & E5); [apply ws_delim; [assumption|unfold wordchar; lia]|apply ws_delim; [assumption|unfold wordchar; lia]|].
      destruct (fun a b c d => ws_split w4 w4' _ _ a b c d E5) as (<- & E6); try assumption; try nw. injection E6 as <-. auto.
    + destruct (fun a b c d => ws_split w1 w1' _ _ a b c d E) as (<- & E1); try assumption; try nw. injection E1 as E1.
      destruct (quoted_split _ _ _ _ Q Q' E1) as (<- & E2). destruct (fun a b c d => ws_split w2 w2' _ _ a b c d E2) as (<- & E3); try assumption; try nw. injection E3 as E3.
      assert (Z1 : w3 = w3' /\ t ++ w4 ++ 125 :: r = t' ++ w4' ++ 44 :: s ++ 125 :: r').
      { pose proof (text_start _ _ T) as (c & s0 & Ec & B). pose proof (text_start _ _ X) as (c' & s' & Ec' & B'). apply ws_split; try assumption; [rewrite Ec|rewrite Ec']; nw. }
      destruct Z1 as (<- & E4). destruct (fun a b => IH _ _ _ _ X a b E4) as (<- & <- & E5); [apply ws_delim; [assumption|unfold wordchar; lia]|apply ws_delim; [assumption|unfold wordchar; lia]|].
      destruct (fun a b c d => ws_split w4 w4' _ _ a b c d E5) as (<- & E6); try assumption; try nw. discriminate E6.
  - intros w1 k w2 w3 v t w4 l s W1 Q W2 W3 T IH W4 Y IHY NE l' s' r r' T' E. inversion T' as [w' W'|w1' k' w2' w3' v' t' w4' W1' Q' W2' W3' X W4'|w1' k' w2' w3' v' t' w4' l0 s0 W1' Q' W2' W3' X W4' Y' NE']; subst; shape.
    + destruct (fun a b c d => ws_split w1 s' _ _ a b c d E) as (-> & E'); try assumption; try nw. discriminate E'.
    + destruct (fun a b c d => ws_split w1 w1' _ _ a b c d E) as (<- & E1); try assumption; try nw. injection E1 as E1.
      destruct (quoted_split _ _ _ _ Q Q' E1) as (<- & E2). destruct (fun a b c d => ws_split w2 w2' _ _ a b c d E2) as (<- & E3); try assumption; try nw. injection E3 as E3.
      assert (Z1 : w3 = w3' /\ t ++ w4 ++ 44 :: s ++ 125 :: r = t' ++ w4' ++ 125 :: r').
      { pose proof (text_start _ _ T) as (c & s0 & Ec & B). pose proof (text_start _ _ X) as (c' & s' & Ec' & B'). apply ws_split; try assumption; [rewrite Ec|rewrite Ec']; nw. }
      destruct Z1 as (<- & E4). destruct (fun a b => IH _ _ _ _ X a b E4) as (<- & <- & E5); [apply ws_delim; [assumption|unfold wordchar; lia]|apply ws_delim; [assumption|unfold wordchar; lia]|].
      destruct (fun a b c d => ws_split w4 w4' _ _ a b c d E5) as (<- & E6); try assumption; try nw. discriminate E6.
    + destruct (fun a b c d => ws_split w1 w1' _ _ a b c d E) as (<- & E1); try assumption; try nw. injection E1 as E1.
      destruct (quoted_split _ _ _ _ Q Q' E1) as (<- & E2). destruct (fun a b c d => ws_split w2 w2' _ _ a b c d E2) as (<- & E3); try assumption; try nw. injection E3 as E3.
      assert (Z1 : w3 = w3' /\ t ++ w4 ++ 44 :: s ++ 125 :: r = t' ++ w4' ++ 44 :: s0 ++ 125 :: r').
      { pose proof (text_start _ _ T) as (c & s1 & Ec & B). pose proof (text_start _ _ X) as (c' & s' & Ec' & B'). apply ws_split; try assumption; [rewrite Ec|rewrite Ec']; nw. }
      destruct Z1 as (<- & E4). destruct (fun a b => IH _ _ _ _ X a b E4) as (<- & <- & E5); [apply ws_delim; [assumption|unfold wordchar; lia]|apply ws_delim; [assumption|unfold wordchar; lia]|].
      destruct (fun a b c d => ws_split w4 w4' _ _ a b c d E5) as (<- & E6); try assumption; try nw. injection E6 as E6.
      destruct (IHY _ _ _ _ Y' E6) as (<- & <- & <-). auto.
Qed.

Lemma ws_wdelim w : ws w -> delim w.
Proof. intros H. destruct w as [|c w]; [exact I|]. inversion H; subst. cbn. unfold wordchar. lia. Qed.
Lemma text_nows v t r : text v t -> nows (t ++ r).
Proof. intros H. destruct (text_start v t H) as (c & s & -> & B). apply start_nows. exact B. Qed.

Theorem document_unique v v' f : document v f -> document v' f -> v = v'.
Proof.
  intros (w1 & t & w2 & W1 & T & W2 & ->) (w1' & t' & w2' & W1' & T' & W2' & E).
  destruct (ws_split w1 w1' (t ++ w2) (t' ++ w2')) as (<- & E'); try assumption; [eapply text_nows; eassumption|eapply text_nows; eassumption|].
  destruct text_unique as (U & _). destruct (U v t T v' t' w2 w2' T' (ws_wdelim _ W2) (ws_wdelim _ W2') E') as (-> & _). reflexivity.
Qed.

Theorem document_prefix l v p q : document (JObj l) (p ++ q) -> document v p -> ws q.
Proof.
  intros (w1 & t & w2 & W1 & T & W2 & E) (w1' & t' & w2' & W1' & T' & W2' & ->). rewrite <- !app_assoc in E.
  destruct (ws_split w1' w1 (t' ++ w2' ++ q) (t ++ w2)) as (<- & E'); try assumption; [eapply text_nows; eassumption|eapply text_nows; eassumption|].
  inversion T as [| | |l0 s M]; subst. inversion T' as [s' Q'|s' N F|l' s' X|l' s' X]; subst; shape; try discriminate E'.
  - destruct t' as [|c t']; [congruence|]. inversion F; subst. cbn in E'. injection E' as -> E'. unfold wordchar in *. lia.
  - injection E' as E'. destruct text_unique as (_ & _ & U). destruct (U _ _ X _ _ _ _ M E') as (_ & _ & <-).
    unfold ws in *. apply Forall_app in W2. tauto.
Qed.

Lemma document_ws v f q : document v f -> ws q -> document v (f ++ q).
Proof.
  intros (w1 & t & w2 & W1 & T & W2 & ->) Q. exists w1, t, (w2 ++ q). split; [exact W1|]. split; [exact T|]. split; [apply Forall_app; auto|].
  rewrite <- !app_assoc. reflexivity.
Qed.
