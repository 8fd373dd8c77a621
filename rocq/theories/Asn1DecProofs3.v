(** The stack machine of constructed strings reads exactly the segments of
    Asn1DecSpec.v, and ends. *)
From Coq Require Import Lia.
From Verif Require Import Base Ber BerSpec BerProofs BerProofs2 BerProofs4.
From Verif Require Import Asn1Dec Asn1DecSpec Asn1DecProofs Asn1DecProofs2.

(** What the segments add to the buffer: their contents, or (ANY) all the
    bytes; and to the number of unused bits. *)
Definition gain (v : variant) (cs : list (list Z)) (raw : list Z) : list Z :=
  match v with STR => concat cs | BIT => bits_of cs | ANY => raw end.
Definition unused_after (v : variant) (u : Z) (cs : list (list Z)) : Z :=
  match v with BIT => fold_left (fun u c => match c with [] => u | u' :: _ => u' end) cs u | _ => u end.
Definition tgs (v : variant) (all : list Z) (d : nat) : option Z :=
  match v with ANY => None | _ => segment_tags all d end.

Lemma gain_app v cs cs' raw raw' : gain v (cs ++ cs') (raw ++ raw') = gain v cs raw ++ gain v cs' raw'.
Proof.
  destruct v; cbn [gain]; [apply concat_app| |reflexivity]. unfold bits_of. rewrite map_app. apply concat_app.
Qed.

Lemma unused_app v u cs cs' : unused_after v u (cs ++ cs') = unused_after v (unused_after v u cs) cs'.
Proof. destruct v; cbn [unused_after]; try reflexivity. apply fold_left_app. Qed.

Lemma append_spec acc bs r : append acc bs = Some r <-> r = acc ++ bs /\ small r.
Proof.
  unfold append, small. destruct (Z.ltb_spec (Z.of_nat (length (acc ++ bs))) 1073741824); split; intros H1.
  - injection H1 as <-. split; [reflexivity|assumption].
  - destruct H1 as (-> & _). reflexivity.
  - discriminate.
  - destruct H1 as (-> & ?). lia.
Qed.

Lemma append_some acc bs : small (acc ++ bs) -> append acc bs = Some (acc ++ bs).
Proof. intros. apply append_spec. split; [reflexivity|assumption]. Qed.

Lemma small_app a b : small (a ++ b) -> small a.
Proof. unfold small. rewrite app_length. lia. Qed.

(** ** One turn *)

Definition zeros (bs : list Z) : bool :=
  match bs with b0 :: b1 :: _ => (b0 =? 0) && (b1 =? 0) | _ => false end.

Lemma zeros_spec bs : zeros bs = true <-> firstn 2 bs = [0; 0].
Proof.
  destruct bs as [|b0 [|b1 bs]]; cbn [zeros firstn]; [split; discriminate|split; [discriminate|intros E; discriminate]|].
  rewrite andb_true_iff, !Z.eqb_eq. split; [intros (-> & ->); reflexivity|intros E; injection E as -> ->; split; reflexivity].
Qed.

Definition complete (f : frame) : bool := (f_left f <=? 0) && negb (f_nulls f).

Lemma window_prefix k : exists m, string_window k = firstn m (k_bs k).
Proof.
  unfold string_window. destruct (k_stack k) as [|f below].
  - exists (length (k_bs k)). symmetry. apply firstn_all.
  - destruct (_ || _).
    + exists (length (k_bs k)). symmetry. apply firstn_all.
    + exists (Z.to_nat (f_left f)). reflexivity.
Qed.

Lemma window_bytes k : bytes (k_bs k) -> bytes (string_window k).
Proof. intros H. destruct (window_prefix k) as (m & ->). apply bytes_firstn. assumption. Qed.

Lemma window_firstn k n : (n <= length (string_window k))%nat ->
  firstn n (string_window k) = firstn n (k_bs k) /\ (n <= length (k_bs k))%nat.
Proof.
  destruct (window_prefix k) as (m & ->). intros H. rewrite firstn_length in H.
  rewrite firstn_firstn. split; [f_equal; lia|lia].
Qed.

Definition after_header (v : variant) (mode : Z) (all : list Z) (tl ll : nat) (tag len : Z) (c : bool) (k : machine) : turn :=
  match k_stack k with
  | [] => string_push v mode c (tl + ll) len k
  | f :: below =>
      if f_nulls f && zeros (k_bs k) then string_eoc v mode f below k
      else if negb (tag =? expected_tag v all (k_stack k) tag) then Leave Failed
      else string_push v mode c (tl + ll) len k
  end.

Lemma turn_sees v mode all k tl ll tag len c : bytes (k_bs k) ->
  match k_stack k with [] => True | f :: _ => complete f = false end ->
  sees (string_window k) tl ll tag len c ->
  string_turn v mode all k = after_header v mode all tl ll tag len c k.
Proof.
  intros Hb Hc Hs.
  destruct (hdr_sound _ _ _ _ _ _ (window_bytes _ Hb) Hs) as (o & _ & _ & Hle & N1 & N2 & _).
  destruct (window_firstn k 2) as (Ez & _); [lia|].
  assert (Z2 : zeros (k_bs k) = zeros (string_window k)).
  { apply eq_true_iff_eq. rewrite !zeros_spec, Ez. reflexivity. }
  unfold string_turn, after_header. destruct Hs as (E1 & (b0 & r & Ew & Hcb) & E2). rewrite Z2.
  destruct (k_stack k) as [|f below].
  - rewrite E1. rewrite Ew. rewrite Ew in E2. rewrite Hcb, E2. reflexivity.
  - unfold complete in Hc. rewrite Hc, E1. rewrite Ew. rewrite Ew in E2. rewrite Hcb, E2.
    destruct r as [|b1 r]; [rewrite Ew in Hle; cbn [length] in Hle; lia|]. cbn [zeros].
    rewrite andb_assoc. reflexivity.
Qed.

Lemma turn_blind v mode all k : bytes (k_bs k) ->
  match k_stack k with [] => True | f :: _ => complete f = false end ->
  blind (string_window k) -> string_turn v mode all k = Leave Failed.
Proof.
  intros Hb Hc H. unfold blind in H. unfold string_turn.
  destruct (k_stack k) as [|f below]; [|unfold complete in Hc; rewrite Hc];
  (destruct (ber_fetch_tag (string_window k) (length (string_window k))) as [[| |tl tag]| |]; try reflexivity; try contradiction;
   destruct (string_window k) as [|b0 win] eqn:Ew; [contradiction|];
   destruct (ber_fetch_length (constructed_bit b0) (skipn tl (b0 :: win)) (length (b0 :: win) - tl)) as [[| |ll len]| |];
     try reflexivity; contradiction).
Qed.

Lemma turn_pop v mode all k f below : k_stack k = f :: below -> complete f = true ->
  string_turn v mode all k = string_pop f below k.
Proof. intros E Hc. unfold string_turn. rewrite E. unfold complete in Hc. rewrite Hc. reflexivity. Qed.

Lemma last_default {A} (l : list A) x d d' : last (x :: l) d = last (x :: l) d'.
Proof. revert x. induction l as [|y l IH]; intros x; [reflexivity|]. apply (IH y). Qed.

Lemma expected_spec v all f below tag :
  negb (tag =? expected_tag v all (f :: below) tag) = false <-> (forall t, tgs v all (length below) = Some t -> t = tag).
Proof.
  rewrite negb_false_iff, Z.eqb_eq. unfold expected_tag, tgs, segment_tags.
  assert (forall x : Z, (tag = x) <-> (forall t, Some x = Some t -> t = tag)).
  { intros x. split; [intros -> t E; congruence|intros H; symmetry; apply H; reflexivity]. }
  assert (tag = tag <-> (forall t, None = Some t -> t = tag)) by (split; [intros _ t E; discriminate|reflexivity]).
  destruct v; [| |assumption];
  (destruct (nth_error all (length below)) as [t|]; [apply H|]; destruct all as [|t all]; [assumption|];
   rewrite (last_default all t tag t); apply H).
Qed.

(** ** Soundness: a run that ends well has read segments *)

Lemma run_frame v mode all : forall turns k f below n r,
  string_run turns v mode all k = Done n r -> k_stack k = f :: below -> bytes (k_bs k) -> small (k_acc k) ->
  -1 <= f_left f -> (f_nulls f = false -> 0 <= f_left f) ->
  exists turns' k' f' ss cs,
    let tail := if f_nulls f then [0; 0] else [] in
    (turns' <= turns)%nat /\ string_run turns' v mode all k' = Done n r
    /\ k_stack k' = f' :: below /\ f_left f' = 0 /\ f_nulls f' = false
    /\ k_bs k = ss ++ tail ++ k_bs k'
    /\ (f_nulls f = false -> f_left f = Z.of_nat (length ss))
    /\ f_got f' = f_got f + Z.of_nat (length (ss ++ tail))
    /\ k_consumed k' = (k_consumed k + length (ss ++ tail))%nat
    /\ segments (tgs v all) (f_nulls f) (length below) ss cs
    /\ k_acc k' = k_acc k ++ gain v cs (if (mode =? 1) && (length below =? 0)%nat then ss else ss ++ tail)
    /\ small (k_acc k') /\ k_unused k' = unused_after v (k_unused k) cs.
Proof.
  induction turns as [turns IH] using lt_wf_ind.
  intros k f below n r Hrun Hk Hb Hsm Hl Hl0.
  destruct turns as [|turns]; [discriminate|].
  destruct (complete f) eqn:Hc.
  { (* the frame is complete *)
    unfold complete in Hc. apply andb_true_iff in Hc. destruct Hc as (Hc1 & Hc2).
    apply Z.leb_le in Hc1. apply negb_true_iff in Hc2. specialize (Hl0 Hc2).
    exists (S turns), k, f, [], []. rewrite Hc2. cbn zeta. cbn [app length].
    split; [lia|]. split; [assumption|]. split; [assumption|]. split; [lia|]. split; [reflexivity|].
    split; [reflexivity|]. split; [intros _; lia|]. split; [lia|]. split; [lia|].
    split; [constructor|]. split; [|split; [assumption|destruct v; reflexivity]].
    replace (gain v [] _) with (@nil Z) by (destruct v; try reflexivity; destruct ((mode =? 1) && _); reflexivity).
    rewrite app_nil_r. reflexivity. }
  cbn [string_run] in Hrun.
  destruct (sees_or_blind (string_window k) (window_bytes _ Hb)) as [(tl & ll & tag & len & c & Hs)|Hbl];
    [|rewrite turn_blind in Hrun; [discriminate|assumption|rewrite Hk; assumption|assumption]].
  rewrite (turn_sees v mode all k tl ll tag len c) in Hrun; [|assumption|rewrite Hk; assumption|assumption].
  destruct (hdr_sound _ _ _ _ _ _ (window_bytes _ Hb) Hs) as (o & -> & Hh & Hle & N1 & N2 & _ & Hcode).
  destruct (window_firstn k (tl + ll) Hle) as (Ef & Hle').
  rewrite Ef in Hh. clear Hs Ef Hle.
  unfold after_header in Hrun. rewrite Hk in Hrun.
  destruct (f_nulls f && zeros (k_bs k)) eqn:Hz.
  { (* end of contents *)
    apply andb_true_iff in Hz. destruct Hz as (Hn & Hz). apply zeros_spec in Hz.
    unfold string_eoc in Hrun.
    assert (Hbs : k_bs k = [0; 0] ++ skipn 2 (k_bs k)) by (rewrite <- Hz; symmetry; apply firstn_skipn).
    set (want := negb (mode =? 1) || negb (length below =? 0)%nat) in *.
    match type of Hrun with context [match ?x with None => Leave Failed | _ => _ end] => set (A := x) in Hrun end.
    assert (HA : forall a, A = Some a -> a = k_acc k ++ gain v [] (if (mode =? 1) && (length below =? 0)%nat then [] else [0; 0]) /\ small a).
    { intros a E. unfold A, want in E. destruct v; cbn [gain]; try (injection E as <-; rewrite app_nil_r; split; [reflexivity|assumption]).
      destruct (mode =? 1), (length below =? 0)%nat; cbn [negb orb andb] in *; try (apply append_spec in E; assumption).
      injection E as <-. rewrite app_nil_r. split; [reflexivity|assumption]. }
    destruct A as [a|]; [|discriminate]. destruct (HA a eq_refl) as (Ea & Sa).
    match type of Hrun with string_run _ _ _ _ ?q = _ => exists turns, q end.
    exists {| f_left := 0; f_got := f_got f + 2; f_nulls := false |}, [], []. cbn zeta. rewrite Hn. cbn [app k_stack k_bs k_acc k_consumed k_unused length].
    split; [lia|]. split; [exact Hrun|]. split; [reflexivity|]. cbn [f_left f_nulls f_got].
    split; [reflexivity|]. split; [reflexivity|]. split; [exact Hbs|]. split; [discriminate|]. split; [lia|]. split; [lia|].
    split; [constructor|]. split; [exact Ea|]. split; [assumption|]. destruct v; reflexivity. }
  destruct (negb (tag =? expected_tag v all (f :: below) tag)) eqn:Hexp; [discriminate|].
  pose proof (proj1 (expected_spec _ _ _ _ _) Hexp) as Htg.
  apply hdr_some with (e := tgs v all (length below)) in Hh; [|assumption]. clear Hexp Htg.
  assert (Hnz : f_nulls f = true -> forall s x, k_bs k = s ++ x -> (2 <= length s)%nat -> firstn 2 s <> [0; 0]).
  { intros Hn s x E L2. rewrite Hn in Hz. cbn [andb] in Hz. intros F.
    assert (zeros (k_bs k) = true); [|congruence]. apply zeros_spec. rewrite E, firstn_app, F.
    replace (2 - length s)%nat with O by lia. reflexivity. }
  unfold string_push in Hrun. rewrite Hk in Hrun.
  set (h := (tl + ll)%nat) in *.
  destruct (code o + Z.of_nat h <? 0); [discriminate|]. cbn zeta in Hrun.
  destruct (negb (f_left f =? -1) && (f_left f <? Z.of_nat h + (if code o =? -1 then 0 else code o))) eqn:Hfit; [discriminate|].
  assert (Hfit' : f_left f = -1 \/ Z.of_nat h + (if code o =? -1 then 0 else code o) <= f_left f).
  { destruct (Z.eqb_spec (f_left f) (-1)); [left; assumption|right]. cbn [negb andb] in Hfit. apply Z.ltb_ge in Hfit. assumption. }
  match type of Hrun with context [match ?x with None => Leave Failed | _ => _ end] => set (A := x) in Hrun end.
  assert (HA : forall a, A = Some a -> a = k_acc k ++ gain v [] (firstn h (k_bs k)) /\ small a).
  { intros a E. unfold A in E. destruct v; cbn [gain]; try (injection E as <-; rewrite app_nil_r; split; [reflexivity|assumption]).
    cbn [length] in E. replace (negb (S (length below) =? 0)%nat) with true in E by reflexivity. rewrite orb_true_r in E.
    apply append_spec in E. assumption. }
  destruct A as [a|]; [|discriminate]. destruct (HA a eq_refl) as (Ea & Sa). clear HA.
  destruct (hdr_bytes _ _ _ _ Hh) as (Bh & L2).
  assert (Hbs : k_bs k = firstn h (k_bs k) ++ skipn h (k_bs k)) by (symmetry; apply firstn_skipn).
  assert (Lh : length (firstn h (k_bs k)) = h) by (apply firstn_length_le; assumption).
  assert (Hcont : forall turns1 k1 g body raw cs,
    (turns1 <= turns)%nat -> string_run turns1 v mode all k1 = Done n r ->
    k_stack k1 = g :: f :: below -> f_left g = 0 -> f_nulls g = false ->
    skipn h (k_bs k) = body ++ k_bs k1 -> raw = firstn h (k_bs k) ++ body ->
    f_got g = Z.of_nat (length raw) -> k_consumed k1 = (k_consumed k + length raw)%nat ->
    segment (tgs v all) (length below) raw cs ->
    k_acc k1 = k_acc k ++ gain v cs raw -> small (k_acc k1) -> k_unused k1 = unused_after v (k_unused k) cs ->
    exists turns' k' f' ss cs,
    let tail := if f_nulls f then [0; 0] else [] in
    (turns' <= S turns)%nat /\ string_run turns' v mode all k' = Done n r
    /\ k_stack k' = f' :: below /\ f_left f' = 0 /\ f_nulls f' = false
    /\ k_bs k = ss ++ tail ++ k_bs k'
    /\ (f_nulls f = false -> f_left f = Z.of_nat (length ss))
    /\ f_got f' = f_got f + Z.of_nat (length (ss ++ tail))
    /\ k_consumed k' = (k_consumed k + length (ss ++ tail))%nat
    /\ segments (tgs v all) (f_nulls f) (length below) ss cs
    /\ k_acc k' = k_acc k ++ gain v cs (if (mode =? 1) && (length below =? 0)%nat then ss else ss ++ tail)
    /\ small (k_acc k') /\ k_unused k' = unused_after v (k_unused k) cs).
  { intros turns1 k1 g body raw cs T1 R1 K1 G1 G2 B1 Eraw G3 C1 Seg A1 S1 U1.
    destruct turns1 as [|turns1]; [discriminate|]. cbn [string_run] in R1.
    rewrite (turn_pop _ _ _ _ g (f :: below)) in R1; [|assumption|unfold complete; rewrite G1, G2; reflexivity].
    unfold string_pop in R1.
    destruct (negb (f_left f =? -1) && (f_left f <? f_got g)) eqn:Hp; [discriminate|].
    assert (Hp' : f_left f = -1 \/ f_got g <= f_left f).
    { destruct (Z.eqb_spec (f_left f) (-1)); [left; assumption|right]. cbn [negb andb] in Hp. apply Z.ltb_ge in Hp. assumption. }
    assert (Braw : k_bs k = raw ++ k_bs k1) by (rewrite Eraw, <- app_assoc, <- B1; exact Hbs).
    assert (Lraw : (2 <= length raw)%nat) by (rewrite Eraw, app_length; lia).
    eapply IH in R1; [|lia|reflexivity|cbn [k_bs]; rewrite Braw in Hb; apply Forall_app in Hb; apply Hb|exact S1
      |cbn [f_left]; destruct (Z.eqb_spec (f_left f) (-1)); lia
      |cbn [f_left f_nulls]; intros Hn; specialize (Hl0 Hn); destruct (Z.eqb_spec (f_left f) (-1)); lia].
    destruct R1 as (t' & k' & f' & ss & cs' & T' & R' & K' & F1 & F2 & B' & LL & GG & CC & SS & AA & SA & UU).
    cbn [f_nulls f_left f_got k_bs k_acc k_consumed k_unused] in *.
    exists t', k', f', (raw ++ ss), (cs ++ cs'). cbn zeta.
    split; [lia|]. split; [assumption|]. split; [assumption|]. split; [assumption|]. split; [assumption|].
    split; [rewrite Braw, B', <- app_assoc; reflexivity|].
    split; [intros Hn; specialize (LL Hn); specialize (Hl0 Hn); destruct (Z.eqb_spec (f_left f) (-1)); [lia|]; rewrite app_length; lia|].
    split; [rewrite GG, G3, <- !app_assoc, (app_length raw); lia|].
    split; [rewrite CC, C1, <- !app_assoc, (app_length raw); lia|].
    split; [constructor; [assumption| |assumption]; intros Hn; eapply Hnz; eassumption|].
    split; [|split; [assumption|rewrite UU, U1, unused_app; reflexivity]].
    rewrite AA, A1, <- app_assoc. f_equal. rewrite <- gain_app. f_equal. destruct ((mode =? 1) && _); [reflexivity|].
    rewrite <- app_assoc. reflexivity. }
  destruct c.
  - (* a constructed segment *)
    set (lft := if negb (f_left f =? -1) && (code o =? -1) then f_left f - Z.of_nat h else code o) in *.
    destruct o as [l|]; cbn [code] in *.
    + assert (L0 : 0 <= l) by (eapply hdr_nonneg; eassumption). rewrite Hcode in *.
      assert (lft = l) by (unfold lft; rewrite Hcode, andb_false_r; reflexivity).
      eapply IH in Hrun; [|lia|reflexivity|cbn [k_bs]; apply bytes_skipn; assumption|exact Sa|cbn [f_left]; lia|cbn [f_left]; lia].
      destruct Hrun as (t' & k' & f' & ss & cs' & T' & R' & K' & F1 & F2 & B' & LL & GG & CC & SS & AA & SA & UU).
      cbn [f_nulls f_left f_got k_bs k_acc k_consumed k_unused app length] in *.
      rewrite app_nil_r in *.
      eapply (Hcont t' k' f' ss (firstn h (k_bs k) ++ ss) cs'); try assumption; try reflexivity.
      * rewrite app_length. lia.
      * rewrite app_length. lia.
      * apply seg_constructed with (indef := false) (body := ss).
        { apply framed_definite. constructor. rewrite <- LL by reflexivity. rewrite H. assumption. }
        assumption.
      * rewrite AA, Ea, <- app_assoc. f_equal. rewrite andb_false_r.
        rewrite <- gain_app. reflexivity.
    + rewrite Hcode in *.
      assert (Hlft : lft = -1 \/ 0 <= lft).
      { unfold lft. rewrite Hcode. cbn iota in Hfit'. destruct (Z.eqb_spec (f_left f) (-1)); cbn [negb andb]; [left; reflexivity|right; lia]. }
      eapply IH in Hrun; [|lia|reflexivity|cbn [k_bs]; apply bytes_skipn; assumption|exact Sa|cbn [f_left]; lia|cbn [f_nulls]; discriminate].
      destruct Hrun as (t' & k' & f' & ss & cs' & T' & R' & K' & F1 & F2 & B' & LL & GG & CC & SS & AA & SA & UU).
      cbn [f_nulls f_left f_got k_bs k_acc k_consumed k_unused length] in *.
      eapply (Hcont t' k' f' (ss ++ [0; 0]) (firstn h (k_bs k) ++ ss ++ [0; 0]) cs'); try assumption; try reflexivity.
      * rewrite B', <- app_assoc. reflexivity.
      * rewrite app_length. lia.
      * rewrite app_length. lia.
      * apply seg_constructed with (indef := true) (body := ss).
        { apply (framed_indefinite [tgs v all (length below)] true); [reflexivity|]. constructor. assumption. }
        assumption.
      * rewrite AA, Ea, <- app_assoc. f_equal. rewrite andb_false_r. rewrite <- gain_app. reflexivity.
  - (* a primitive segment *)
    destruct o as [l|]; [|exfalso; eapply hdr_no_primitive_indef; eassumption]. cbn [code] in *.
    assert (L0 : 0 <= l) by (eapply hdr_nonneg; eassumption). rewrite Hcode, andb_false_r in *.
    unfold string_contents in Hrun. cbn [k_bs k_acc k_unused k_stack k_consumed] in Hrun.
    destruct (Z.ltb_spec l 0); [lia|]. cbn zeta in Hrun.
    set (m := Z.to_nat (Z.min (Z.of_nat (length (skipn h (k_bs k)))) l)) in *.
    set (chunk := firstn m (skipn h (k_bs k))) in *.
    match type of Hrun with context [match ?x with None => Leave Failed | _ => _ end] => set (A := x) in Hrun end.
    assert (HA : forall a' u, A = Some (a', u) -> a' = a ++ gain v [chunk] chunk /\ small a' /\ u = unused_after v (k_unused k) [chunk]).
    { intros a' u E. unfold A in E. destruct v; cbn [gain unused_after fold_left].
      - cbn [concat]. rewrite app_nil_r. destruct (append a chunk) eqn:Ap; [|discriminate]. injection E as <- <-. apply append_spec in Ap. intuition.
      - unfold bits_of. cbn [map concat]. rewrite app_nil_r. destruct chunk as [|b chunk]; cbn [List.tl].
        + injection E as <- <-. rewrite app_nil_r. intuition.
        + destruct (append a chunk) eqn:Ap; [|discriminate]. injection E as <- <-. apply append_spec in Ap. intuition.
      - destruct (append a chunk) eqn:Ap; [|discriminate]. injection E as <- <-. apply append_spec in Ap. intuition. }
    destruct A as [[a' u]|]; [|discriminate]. destruct (HA a' u eq_refl) as (Ea' & Sa' & Eu). clear HA.
    destruct (negb (l - Z.of_nat m =? 0)) eqn:Hm; [discriminate|]. apply negb_false_iff, Z.eqb_eq in Hm.
    assert (Lm : length chunk = m) by (unfold chunk; apply firstn_length_le; lia).
    eapply (Hcont turns _ _ chunk (firstn h (k_bs k) ++ chunk) [chunk]); [lia|exact Hrun|reflexivity|reflexivity|reflexivity| |reflexivity| | | | | |];
      cbn [k_bs k_acc k_unused k_stack k_consumed f_got].
    + unfold chunk. symmetry. apply firstn_skipn.
    + rewrite app_length. lia.
    + rewrite app_length. lia.
    + constructor. rewrite Lm. replace (Z.of_nat m) with l by lia. assumption.
    + rewrite Ea', Ea, <- app_assoc. f_equal. rewrite <- gain_app. reflexivity.
    + assumption.
    + assumption.
Qed.
