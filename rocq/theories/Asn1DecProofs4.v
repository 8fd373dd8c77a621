(** The stack machine, continued: it ends, never faults, and reads every
    constructed string of Asn1DecSpec.v. *)
From Coq Require Import Lia.
From Verif Require Import Base Ber BerSpec BerProofs BerProofs2 BerProofs4.
From Verif Require Import Asn1Dec Asn1DecSpec Asn1DecProofs Asn1DecProofs2 Asn1DecProofs3.

(** ** It ends *)

Definition weight (k : machine) : nat := (2 * length (k_bs k) + length (k_stack k))%nat.

Lemma contents_turn v lft tl k : 0 <= lft ->
  string_contents v lft tl k = Leave Failed
  \/ exists k', string_contents v lft tl k = Next k' /\ length (k_stack k') = S (length (k_stack k))
       /\ (length (k_bs k') <= length (k_bs k))%nat /\ (bytes (k_bs k) -> bytes (k_bs k')).
Proof.
  intros H0. unfold string_contents. destruct (Z.ltb_spec lft 0); [lia|]. cbn zeta.
  match goal with |- context [match ?x with None => Leave Failed | _ => _ end] => destruct x as [[acc u]|]; [|left; reflexivity] end.
  destruct (negb _); [left; reflexivity|]. right. eexists. split; [reflexivity|]. cbn [k_stack k_bs length].
  split; [reflexivity|]. split; [rewrite skipn_length; lia|apply bytes_skipn].
Qed.

Lemma push_turn v mode c tl len k : (2 <= tl <= length (k_bs k))%nat -> (c = false -> 0 <= len) ->
  string_push v mode c tl len k = Leave Failed
  \/ exists k', string_push v mode c tl len k = Next k' /\ (weight k' < weight k)%nat /\ (bytes (k_bs k) -> bytes (k_bs k')).
Proof.
  intros Htl Hc. unfold string_push. destruct (_ <? 0); [left; reflexivity|]. cbn zeta.
  match goal with |- context [if ?x then Leave Failed else _] => destruct x; [left; reflexivity|] end.
  match goal with |- context [match ?x with None => Leave Failed | _ => _ end] => destruct x as [acc|]; [|left; reflexivity] end.
  destruct c.
  - right. eexists. split; [reflexivity|]. unfold weight. cbn [k_stack k_bs length]. rewrite skipn_length. split; [lia|apply bytes_skipn].
  - specialize (Hc eq_refl). destruct (Z.eqb_spec len (-1)); [lia|]. rewrite andb_false_r.
    match goal with |- context [string_contents v len tl ?q] => destruct (contents_turn v len tl q Hc) as [E|(k' & E & H1 & H2 & H3)] end;
    rewrite E; [left; reflexivity|right].
    exists k'. split; [reflexivity|]. cbn [k_stack k_bs] in *. unfold weight. rewrite skipn_length in H2. split; [lia|].
    intros Hb. apply H3, bytes_skipn, Hb.
Qed.

Lemma turn_progress v mode all k : bytes (k_bs k) ->
  (exists r, string_turn v mode all k = Leave r /\ r <> Fault /\ r <> Spin)
  \/ exists k', string_turn v mode all k = Next k' /\ (weight k' < weight k)%nat /\ bytes (k_bs k').
Proof.
  intros Hb.
  destruct (match k_stack k with [] => false | f :: _ => complete f end) eqn:Hc.
  { destruct (k_stack k) as [|f below] eqn:Hk; [discriminate|]. rewrite (turn_pop v mode all k f below Hk Hc).
    unfold string_pop. destruct below as [|p below].
    - left. eexists. split; [reflexivity|]. split; discriminate.
    - destruct (_ && _); [left; exists Failed; repeat split; discriminate|].
      right. eexists. split; [reflexivity|]. unfold weight. cbn [k_stack k_bs length]. rewrite Hk. cbn [length]. split; [lia|assumption]. }
  assert (Hc' : match k_stack k with [] => True | f :: _ => complete f = false end) by (destruct (k_stack k); [exact I|assumption]).
  clear Hc.
  destruct (sees_or_blind (string_window k) (window_bytes _ Hb)) as [(tl & ll & tag & len & c & Hs)|Hbl];
    [|left; exists Failed; rewrite turn_blind by assumption; repeat split; discriminate].
  rewrite (turn_sees v mode all k tl ll tag len c) by assumption.
  destruct (hdr_sound _ _ _ _ _ _ (window_bytes _ Hb) Hs) as (o & -> & Hh & Hle & N1 & N2 & _ & Hcode).
  destruct (window_firstn k (tl + ll) Hle) as (_ & Hle').
  assert (Hpush : (exists r, string_push v mode c (tl + ll) (code o) k = Leave r /\ r <> Fault /\ r <> Spin)
    \/ exists k', string_push v mode c (tl + ll) (code o) k = Next k' /\ (weight k' < weight k)%nat /\ bytes (k_bs k')).
  { destruct (push_turn v mode c (tl + ll) (code o) k) as [E|(k' & E & H1 & H2)].
    - split; [lia|assumption].
    - intros ->. destruct o as [l|]; [cbn [code]; eapply hdr_nonneg; eassumption|exfalso; eapply hdr_no_primitive_indef; eassumption].
    - left. exists Failed. rewrite E. repeat split; discriminate.
    - right. exists k'. split; [assumption|]. split; [assumption|]. apply H2, Hb. }
  unfold after_header. destruct (k_stack k) as [|f below] eqn:Hk; [exact Hpush|].
  destruct (f_nulls f && zeros (k_bs k)) eqn:Hz.
  - apply andb_true_iff in Hz. destruct Hz as (_ & Hz).
    unfold string_eoc. match goal with |- context [match ?x with None => Leave Failed | _ => _ end] => destruct x as [acc|] end.
    + right. eexists. split; [reflexivity|]. unfold weight. cbn [k_stack k_bs length]. rewrite skipn_length, Hk. cbn [length].
      split; [lia|apply bytes_skipn; assumption].
    + left. exists Failed. repeat split; discriminate.
  - destruct (negb _); [left; exists Failed; repeat split; discriminate|]. exact Hpush.
Qed.

Lemma run_total v mode all : forall turns k, bytes (k_bs k) -> (weight k < turns)%nat ->
  string_run turns v mode all k <> Fault /\ string_run turns v mode all k <> Spin.
Proof.
  induction turns as [|turns IH]; intros k Hb Hw; [lia|]. cbn [string_run].
  destruct (turn_progress v mode all k Hb) as [(r & -> & H1 & H2)|(k' & -> & H1 & H2)]; [split; assumption|].
  apply IH; [assumption|lia].
Qed.

(** More turns change nothing. *)
Lemma run_more v mode all : forall turns k n r turns', string_run turns v mode all k = Done n r -> (turns <= turns')%nat ->
  string_run turns' v mode all k = Done n r.
Proof.
  induction turns as [|turns IH]; intros k n r turns' H Hle; [discriminate|].
  destruct turns' as [|turns']; [lia|]. cbn [string_run] in *.
  destruct (string_turn v mode all k); [|assumption]. apply (IH _ _ _ turns' H). lia.
Qed.

Lemma run_same v mode all turns turns' k n r : string_run turns v mode all k = Done n r -> bytes (k_bs k) -> (weight k < turns')%nat ->
  string_run turns' v mode all k = Done n r.
Proof.
  intros H Hb Hw. destruct (le_lt_dec turns turns') as [|Hlt]; [eapply run_more; eassumption|].
  destruct (run_total v mode all turns' k Hb Hw) as (N1 & N2).
  destruct (string_run turns' v mode all k) as [m q| | |] eqn:E; try congruence.
  - eapply run_more in E; [rewrite H in E; symmetry; exact E|lia].
  - exfalso. clear N1 N2 Hw. revert turns k H Hb Hlt E.
    induction turns' as [|turns' IH]; intros turns k H Hb Hlt E; [discriminate|].
    destruct turns as [|turns]; [lia|]. cbn [string_run] in *. destruct (string_turn v mode all k) as [k'|r'] eqn:Et; [|congruence].
    destruct (turn_progress v mode all k Hb) as [(r' & E' & _)|(k2 & E' & _ & B)]; [congruence|].
    assert (k2 = k') by congruence. subst k2. eapply (IH turns k'); try eassumption. lia.
Qed.

(** ** Completeness *)

Definition reach (v : variant) (mode : Z) (all : list Z) (k k' : machine) : Prop :=
  exists n, forall t, string_run (n + t) v mode all k = string_run t v mode all k'.

Lemma reach_refl v mode all k : reach v mode all k k.
Proof. exists O. reflexivity. Qed.

Lemma reach_step v mode all k k' : string_turn v mode all k = Next k' -> reach v mode all k k'.
Proof. intros H. exists 1%nat. intros t. cbn [Nat.add string_run]. rewrite H. reflexivity. Qed.

Lemma reach_trans v mode all k1 k2 k3 : reach v mode all k1 k2 -> reach v mode all k2 k3 -> reach v mode all k1 k3.
Proof. intros (a & H) (b & H'). exists (a + b)%nat. intros t. rewrite <- Nat.add_assoc, H, H'. reflexivity. Qed.

Lemma dchain_one e c len p : dchain [e] c len p -> hdr e c (Some len) p.
Proof. intros H. inversion H as [e' c' l' h' Hh|e' es' c' l' h' p' Hh Hd]; subst; [assumption|]. inversion Hd. Qed.

Lemma ichain_one e p : ichain [e] p -> hdr e true None p.
Proof. intros H. inversion H as [e' h' Hh|e' es' h' p' Hh Hd]; subst; [assumption|]. inversion Hd. Qed.

Lemma framed_one e c indef body whole : framed [e] c indef body whole ->
  exists h o, hdr e c o h /\ whole = h ++ body ++ (if indef then [0; 0] else [])
    /\ o = (if indef then None else Some (Z.of_nat (length body))) /\ (indef = true -> c = true).
Proof.
  intros [p b Hp|p b -> Hp].
  - apply dchain_one in Hp. exists p. eexists. split; [exact Hp|]. rewrite app_nil_r. repeat split. discriminate.
  - apply ichain_one in Hp. exists p. eexists. split; [exact Hp|]. repeat split.
Qed.

Lemma seg_len tg d s cs : segment tg d s cs -> (2 <= length s)%nat.
Proof.
  intros H. destruct H as [d h body Hh|d indef body whole cs Hf _].
  - rewrite app_length. apply hdr_bytes in Hh. lia.
  - destruct Hf as [p body Hp|p body _ Hp]; rewrite app_length.
    + apply dchain_bytes in Hp. lia.
    + apply ichain_bytes in Hp. lia.
Qed.

(** A header at the beginning of the current frame's bytes. *)
Lemma window_sees e c o h k f below x : k_stack k = f :: below -> hdr e c o h -> k_bs k = h ++ x -> bytes (k_bs k) ->
  (f_left f = -1 \/ Z.of_nat (length h) <= f_left f) ->
  exists tl ll tag, sees (string_window k) tl ll tag (code o) c /\ (tl + ll = length h)%nat /\ (forall t, e = Some t -> tag = t)
    /\ (code o =? -1) = match o with None => true | Some _ => false end.
Proof.
  intros Hk Hh Hbs Hb Hl.
  assert (exists x', string_window k = h ++ x' /\ bytes x') as (x' & -> & Bx).
  { rewrite Hbs in Hb. apply Forall_app in Hb. destruct Hb as (_ & Bx).
    unfold string_window. rewrite Hk, Hbs. destruct (_ || _) eqn:Ew.
    - exists x. split; [reflexivity|assumption].
    - apply orb_false_iff in Ew. destruct Ew as (E1 & E2). apply Z.ltb_ge in E1.
      rewrite firstn_app, firstn_all2 by lia. eexists. split; [reflexivity|]. apply bytes_firstn. assumption. }
  destruct (hdr_complete _ _ _ _ _ Hh Bx) as (tl & ll & tag & Hs & He & Hn & _ & _ & _ & Hcode).
  exists tl, ll, tag. repeat split; try assumption; apply Hs.
Qed.

Definition frame_ok (f : frame) : Prop := -1 <= f_left f /\ (f_nulls f = false -> 0 <= f_left f).
Definition room (f : frame) (n : nat) : Prop := f_left f = -1 \/ Z.of_nat n <= f_left f.
Definition moved (f : frame) (n : nat) : frame :=
  {| f_left := if f_left f =? -1 then -1 else f_left f - Z.of_nat n; f_got := f_got f + Z.of_nat n; f_nulls := f_nulls f |}.

Lemma reach_pop v mode all k g f below : k_stack k = g :: f :: below -> f_left g = 0 -> f_nulls g = false ->
  room f (Z.to_nat (f_got g)) -> 0 <= f_got g ->
  reach v mode all k {| k_stack := moved f (Z.to_nat (f_got g)) :: below; k_bs := k_bs k; k_acc := k_acc k; k_unused := k_unused k; k_consumed := k_consumed k |}.
Proof.
  intros Hk H1 H2 Hr H0. apply reach_step. rewrite (turn_pop v mode all k g (f :: below) Hk) by (unfold complete; rewrite H1, H2; reflexivity).
  unfold string_pop. unfold room in Hr. rewrite Z2Nat.id in Hr by assumption.
  replace (negb (f_left f =? -1) && (f_left f <? f_got g)) with false.
  2:{ symmetry. destruct (Z.eqb_spec (f_left f) (-1)); [reflexivity|]. cbn [negb andb]. apply Z.ltb_ge. lia. }
  unfold moved. rewrite Z2Nat.id by assumption. reflexivity.
Qed.

Lemma moved_plus f a b : frame_ok f -> room f (a + b) -> moved (moved f a) b = moved f (a + b).
Proof.
  intros (H1 & H2) Hr. unfold moved, room in *. cbn [f_left f_got f_nulls].
  destruct (Z.eqb_spec (f_left f) (-1)) as [E|E].
  - cbn. f_equal; lia.
  - destruct (Z.eqb_spec (f_left f - Z.of_nat a) (-1)); [lia|]. f_equal; lia.
Qed.

Lemma moved_zero f : moved f 0 = f.
Proof. destruct f as [l g n]. unfold moved. cbn [f_left f_got f_nulls]. f_equal; [destruct (Z.eqb_spec l (-1)); lia|lia]. Qed.

Lemma moved_ok f a : frame_ok f -> room f a -> frame_ok (moved f a).
Proof.
  intros (H1 & H2) Hr. unfold frame_ok, moved, room in *. cbn [f_left f_got f_nulls].
  destruct (Z.eqb_spec (f_left f) (-1)); [split; [lia|intros Hn; specialize (H2 Hn); lia]|split; [lia|intros; lia]].
Qed.

Lemma moved_room f a b : room f (a + b) -> frame_ok f -> room (moved f a) b.
Proof. unfold room, moved. cbn [f_left]. intros H _. destruct (Z.eqb_spec (f_left f) (-1)); [left; reflexivity|right; lia]. Qed.

(** Pushing a constructed or a primitive segment. *)
Lemma turn_header v mode all k f below c o h x : k_stack k = f :: below -> frame_ok f ->
  hdr (tgs v all (length below)) c o h -> k_bs k = h ++ x -> bytes (k_bs k) ->
  room f (length h + match o with Some l => Z.to_nat l | None => 0 end) ->
  (f_nulls f = true -> firstn 2 h <> [0; 0]) -> small (k_acc k ++ gain v [] h) ->
  string_turn v mode all k =
    let lft := match o with Some l => l | None => if f_left f =? -1 then -1 else f_left f - Z.of_nat (length h) end in
    let acc := k_acc k ++ gain v [] h in
    if c then Next {| k_stack := {| f_left := lft; f_got := Z.of_nat (length h); f_nulls := match o with None => true | _ => false end |} :: k_stack k;
                      k_bs := x; k_acc := acc; k_unused := k_unused k; k_consumed := k_consumed k + length h |}
    else string_contents v lft (length h) {| k_stack := k_stack k; k_bs := x; k_acc := acc; k_unused := k_unused k; k_consumed := k_consumed k |}.
Proof.
  intros Hk (Hok1 & Hok2) Hh Hbs Hb Hr Hnz Hsm.
  assert (Hr' : f_left f = -1 \/ Z.of_nat (length h) <= f_left f) by (unfold room in Hr; lia).
  destruct (window_sees _ _ _ _ _ _ _ _ Hk Hh Hbs Hb Hr') as (tl & ll & tag & Hs & Hn & He & Hcode).
  destruct (hdr_bytes _ _ _ _ Hh) as (Bh & L2).
  rewrite (turn_sees v mode all k tl ll tag (code o) c Hb); [|rewrite Hk|assumption].
  2:{ unfold complete. destruct (f_nulls f) eqn:En; [apply andb_false_r|]. specialize (Hok2 eq_refl). rewrite andb_true_r.
      apply Z.leb_gt. lia. }
  unfold after_header. rewrite Hk.
  replace (f_nulls f && zeros (k_bs k)) with false.
  2:{ symmetry. destruct (f_nulls f); [|reflexivity]. cbn [andb]. destruct (zeros (k_bs k)) eqn:Ez; [|reflexivity].
      exfalso. apply zeros_spec in Ez. apply (Hnz eq_refl). rewrite Hbs, firstn_app in Ez.
      replace (2 - length h)%nat with O in Ez by lia. rewrite app_nil_r in Ez. exact Ez. }
  rewrite (proj2 (expected_spec v all f below tag)); [|intros t Et; symmetry; apply He; assumption].
  unfold string_push. rewrite Hk, Hn, Hcode.
  assert (Hcode0 : 0 <= code o + Z.of_nat (length h)).
  { destruct o as [l|]; cbn [code]; [apply hdr_nonneg in Hh; lia|lia]. }
  destruct (Z.ltb_spec (code o + Z.of_nat (length h)) 0); [lia|]. cbn zeta.
  match goal with |- context [if ?x then Leave Failed else _] => replace x with false end.
  2:{ symmetry. destruct (Z.eqb_spec (f_left f) (-1)); [reflexivity|]. cbn [negb andb]. apply Z.ltb_ge.
      unfold room in Hr. destruct o as [l|]; cbn [code] in *; [apply hdr_nonneg in Hh; lia|lia]. }
  cbn [length]. change (S (length below) =? 0)%nat with false. cbn [negb]. rewrite orb_true_r.
  replace (firstn (length h) (k_bs k)) with h by (rewrite Hbs; symmetry; apply firstn_app_exact).
  replace (skipn (length h) (k_bs k)) with x by (rewrite Hbs; symmetry; apply skipn_app_exact).
  assert (Eacc : (match v with ANY => append (k_acc k) h | _ => Some (k_acc k) end) = Some (k_acc k ++ gain v [] h)).
  { destruct v; cbn [gain]; try (cbn; rewrite app_nil_r; reflexivity). apply append_some. exact Hsm. }
  rewrite Eacc.
  replace (if negb (f_left f =? -1) && match o with Some _ => false | None => true end then f_left f - Z.of_nat (length h) else code o)
    with (match o with Some l => l | None => if f_left f =? -1 then -1 else f_left f - Z.of_nat (length h) end).
  2:{ destruct o as [l|]; [rewrite andb_false_r; reflexivity|]. rewrite andb_true_r. destruct (f_left f =? -1); reflexivity. }
  destruct c; [|reflexivity]. destruct o; reflexivity.
Qed.

Definition after (k : machine) (f : frame) (below : list frame) (v : variant) (s rest : list Z) (cs : list (list Z)) : machine :=
  {| k_stack := moved f (length s) :: below; k_bs := rest; k_acc := k_acc k ++ gain v cs s;
     k_unused := unused_after v (k_unused k) cs; k_consumed := k_consumed k + length s |}.

Lemma gain_raw v cs raw raw' : gain v [] raw ++ gain v cs raw' = gain v cs (raw ++ raw').
Proof. rewrite <- gain_app. reflexivity. Qed.

Lemma reach_segments v mode all :
  (forall d s cs, segment (tgs v all) d s cs -> forall k f below rest, k_stack k = f :: below -> length below = d -> frame_ok f ->
     k_bs k = s ++ rest -> bytes (k_bs k) -> room f (length s) -> (f_nulls f = true -> firstn 2 s <> [0; 0]) ->
     small (k_acc k ++ gain v cs s) -> reach v mode all k (after k f below v s rest cs))
  /\ (forall indef d ss cs, segments (tgs v all) indef d ss cs -> forall k f below rest, k_stack k = f :: below -> length below = d -> frame_ok f ->
     f_nulls f = indef -> k_bs k = ss ++ rest -> bytes (k_bs k) -> room f (length ss) ->
     small (k_acc k ++ gain v cs ss) -> reach v mode all k (after k f below v ss rest cs)).
Proof.
  apply segment_mutind.
  - (* primitive *)
    intros d h body Hh k f below rest Hk Hd Hok Hbs Hb Hr Hnz Hsm. subst d.
    destruct (hdr_bytes _ _ _ _ Hh) as (Bh & L2).
    rewrite <- app_assoc in Hbs. rewrite app_length in Hr.
    assert (Hnz' : f_nulls f = true -> firstn 2 h <> [0; 0]).
    { intros Hn E. apply (Hnz Hn). rewrite firstn_app. replace (2 - length h)%nat with O by lia. rewrite app_nil_r. exact E. }
    assert (Hsm' : small (k_acc k ++ gain v [] h)).
    { destruct v; cbn [gain] in *; [cbn; rewrite app_nil_r; eapply small_app; exact Hsm|cbn; rewrite app_nil_r; eapply small_app; exact Hsm|
        rewrite app_assoc in Hsm; apply small_app in Hsm; exact Hsm]. }
    pose proof (turn_header v mode all k f below false (Some (Z.of_nat (length body))) h (body ++ rest) Hk Hok Hh Hbs Hb) as T.
    cbn iota in T. rewrite Nat2Z.id in T. specialize (T Hr Hnz' Hsm'). cbn zeta iota in T.
    unfold string_contents in T. cbn [k_bs k_acc k_unused k_stack k_consumed] in T.
    destruct (Z.ltb_spec (Z.of_nat (length body)) 0); [lia|]. cbn zeta in T.
    rewrite app_length in T. rewrite Z.min_r, Nat2Z.id in T by lia. rewrite firstn_app_exact, skipn_app_exact in T.
    match type of T with context [match ?x with None => Leave Failed | _ => _ end] =>
      assert (EA : x = Some (k_acc k ++ gain v [body] (h ++ body), unused_after v (k_unused k) [body])) end.
    { destruct v; cbn [gain unused_after fold_left] in *.
      - cbn [concat] in *. rewrite !app_nil_r in *. rewrite append_some by assumption. reflexivity.
      - unfold bits_of in *. cbn [map concat] in *. rewrite !app_nil_r in *. destruct body as [|b body]; cbn [List.tl] in *.
        + rewrite app_nil_r. reflexivity.
        + rewrite append_some by assumption. reflexivity.
      - rewrite app_assoc in Hsm |- *. rewrite append_some by assumption. reflexivity. }
    rewrite EA in T. rewrite Z.sub_diag in T. change (negb (0 =? 0)) with false in T. cbn iota in T.
    eapply reach_trans; [apply reach_step; exact T|]. clear T EA.
    eapply reach_trans; [apply reach_pop with (f := f) (below := below)|];
      [cbn [k_stack]; rewrite Hk; reflexivity|reflexivity|reflexivity|cbn [f_got]; unfold room in *; lia|cbn [f_got]; lia|].
    cbn [f_got k_bs k_acc k_unused k_consumed].
    replace (Z.to_nat (Z.of_nat (length h) + Z.of_nat (length body))) with (length (h ++ body)) by (rewrite app_length; lia).
    unfold after. rewrite app_length, Nat.add_assoc. apply reach_refl.
  - (* constructed *)
    intros d indef body whole cs Hf Hs IH k f below rest Hk Hd Hok Hbs Hb Hr Hnz Hsm. subst d.
    destruct (framed_one _ _ _ _ _ Hf) as (h & o & Hh & Ew & Eo & _).
    destruct (hdr_bytes _ _ _ _ Hh) as (Bh & L2).
    set (tail := if indef then [0; 0] else []) in *. subst whole.
    rewrite <- !app_assoc in Hbs. rewrite !app_length in Hr.
    assert (Hnz' : f_nulls f = true -> firstn 2 h <> [0; 0]).
    { intros Hn E. apply (Hnz Hn). rewrite firstn_app. replace (2 - length h)%nat with O by lia. rewrite app_nil_r. exact E. }
    assert (Hsm' : small (k_acc k ++ gain v [] h)).
    { destruct v; cbn [gain] in *; [cbn; rewrite app_nil_r; eapply small_app; exact Hsm|cbn; rewrite app_nil_r; eapply small_app; exact Hsm|
        rewrite app_assoc in Hsm; apply small_app in Hsm; exact Hsm]. }
    assert (Hr' : room f (length h + match o with Some l => Z.to_nat l | None => 0 end)).
    { subst o. unfold room in *. destruct indef; [lia|]. rewrite Nat2Z.id. unfold tail in Hr. cbn [length] in Hr. lia. }
    pose proof (turn_header v mode all k f below true o h (body ++ tail ++ rest) Hk Hok Hh Hbs Hb Hr' Hnz' Hsm') as T.
    cbn zeta iota in T.
    eapply reach_trans; [apply reach_step; exact T|]. clear T.
    match goal with |- reach _ _ _ ?q _ => set (k1 := q) end.
    match eval cbv delta [k1] in k1 with {| k_stack := ?g :: _; k_bs := _; k_acc := _; k_unused := _; k_consumed := _ |} => set (g0 := g) in k1 end.
    assert (Hg : frame_ok g0).
    { unfold frame_ok, g0. cbn [f_left f_nulls]. subst o. destruct indef; [|split; lia]. split; [|discriminate].
      unfold room in Hr. destruct (Z.eqb_spec (f_left f) (-1)); lia. }
    assert (Hgn : f_nulls g0 = indef) by (unfold g0; cbn [f_nulls]; subst o; destruct indef; reflexivity).
    assert (Hgr : room g0 (length body)).
    { unfold room, g0. cbn [f_left]. subst o. destruct indef; [|right; lia]. unfold room in Hr.
      destruct (Z.eqb_spec (f_left f) (-1)); [left; reflexivity|right; lia]. }
    eapply reach_trans.
    { apply (IH k1 g0 (k_stack k) (tail ++ rest)); [reflexivity|rewrite Hk; reflexivity|assumption|assumption|reflexivity| |assumption|].
      - rewrite Hbs in Hb. apply Forall_app in Hb. apply Hb.
      - cbn [k1 k_acc]. rewrite <- app_assoc, gain_raw. destruct v; cbn [gain] in *; try assumption.
        rewrite (app_assoc h) in Hsm. rewrite (app_assoc (k_acc k)) in Hsm. apply small_app in Hsm. exact Hsm. }
    assert (Bt : bytes (tail ++ rest)).
    { rewrite Hbs in Hb. apply Forall_app in Hb. destruct Hb as (_ & Hb). apply Forall_app in Hb. apply Hb. }
    set (k2 := after k1 g0 (k_stack k) v body (tail ++ rest) cs).
    assert (Hend : reach v mode all k2 {| k_stack := {| f_left := 0; f_got := Z.of_nat (length (h ++ body ++ tail)); f_nulls := false |} :: k_stack k;
       k_bs := rest; k_acc := k_acc k ++ gain v cs (h ++ body ++ tail); k_unused := unused_after v (k_unused k) cs;
       k_consumed := k_consumed k + length (h ++ body ++ tail) |}).
    { destruct indef; unfold tail in *.
      - apply reach_step. unfold k2, after.
        match goal with |- string_turn _ _ _ ?q = _ => set (k3 := q) end.
        assert (Hg3 : f_nulls (moved g0 (length body)) = true) by (unfold moved; cbn [f_nulls]; exact Hgn).
        assert (Hsee : exists tl ll tag, sees (string_window k3) tl ll tag (code (Some 0)) false /\ (tl + ll = 2)%nat).
        { destruct (window_sees None false (Some 0) [0; 0] k3 (moved g0 (length body)) (k_stack k) rest) as (tl & ll & tag & S & N & _).
          - reflexivity.
          - exists [0], [0], 0, 0. split; [reflexivity|]. split; [apply (low_tag 0 false 0); lia|]. split; [reflexivity|].
            split; [discriminate|]. split; [left; constructor; lia|]. reflexivity.
          - reflexivity.
          - exact Bt.
          - cbn [length]. unfold moved, g0. cbn [f_left]. subst o. unfold room in Hr. cbn [length] in Hr.
            destruct (Z.eqb_spec (f_left f) (-1)); [left; reflexivity|].
            destruct (Z.eqb_spec (f_left f - Z.of_nat (length h)) (-1)); [lia|]. right. lia.
          - exists tl, ll, tag. split; assumption. }
        destruct Hsee as (tl & ll & tag & Hsee & _).
        rewrite (turn_sees v mode all k3 tl ll tag (code (Some 0)) false Bt); [|unfold k3; cbn [k_stack]; unfold complete; rewrite Hg3; apply andb_false_r|exact Hsee].
        unfold after_header, k3. cbn [k_stack k_bs]. rewrite Hg3. cbn [andb app zeros]. change ((0 =? 0) && (0 =? 0)) with true. cbn iota.
        unfold string_eoc. cbn [k_stack k_bs k_acc k_unused k_consumed]. rewrite Hk at 1. cbn [length]. change (S (length below) =? 0)%nat with false.
        cbn [negb]. rewrite orb_true_r.
        replace (match v with ANY => append (k_acc k1 ++ gain v cs body) [0; 0] | _ => Some (k_acc k1 ++ gain v cs body) end)
          with (Some (k_acc k ++ gain v cs (h ++ body ++ [0; 0]))).
        2:{ cbn [k1 k_acc]. rewrite <- app_assoc, gain_raw. destruct v; cbn [gain] in *; try reflexivity.
            symmetry. rewrite append_some; [f_equal; rewrite <- !app_assoc; reflexivity|rewrite <- !app_assoc; exact Hsm]. }
        f_equal. unfold moved, g0. cbn [f_got]. f_equal.
        + f_equal. f_equal. rewrite !app_length. cbn [length]. lia.
        + cbn [k1 k_consumed]. rewrite !app_length. cbn [length]. lia.
      - assert (E2 : k2 = {| k_stack := {| f_left := 0; f_got := Z.of_nat (length (h ++ body ++ [])); f_nulls := false |} :: k_stack k;
           k_bs := rest; k_acc := k_acc k ++ gain v cs (h ++ body ++ []); k_unused := unused_after v (k_unused k) cs;
           k_consumed := k_consumed k + length (h ++ body ++ []) |}); [|rewrite E2; apply reach_refl].
        unfold k2, after. rewrite app_nil_r. cbn [k1 k_acc k_unused k_consumed app]. f_equal.
        + f_equal. unfold moved, g0. cbn [f_left f_got f_nulls]. subst o. rewrite app_length.
          destruct (Z.eqb_spec (Z.of_nat (length body)) (-1)); [lia|]. f_equal; lia.
        + rewrite <- app_assoc, gain_raw. reflexivity.
        + rewrite app_length. lia. }
    eapply reach_trans; [exact Hend|].
    eapply reach_trans; [apply reach_pop with (f := f) (below := below)|];
      [cbn [k_stack]; rewrite Hk; reflexivity|reflexivity|reflexivity|cbn [f_got]; rewrite Nat2Z.id, !app_length; exact Hr|cbn [f_got]; lia|].
    cbn [f_got k_bs k_acc k_unused k_consumed]. rewrite Nat2Z.id. apply reach_refl.
  - intros indef d k f below rest Hk Hd Hok Hn Hbs Hb Hr Hsm.
    assert (E : after k f below v [] rest [] = k); [|rewrite E; apply reach_refl].
    unfold after. cbn [length]. rewrite moved_zero, Nat.add_0_r. destruct k as [st bs acc u cn]. cbn in *. subst.
    f_equal; [|destruct v; reflexivity]. destruct v; apply app_nil_r.
  - intros indef d s ss cs cs' Hs IHs Hnz Hss IHss k f below rest Hk Hd Hok Hn Hbs Hb Hr Hsm.
    rewrite <- app_assoc in Hbs. rewrite app_length in Hr. rewrite gain_app in Hsm.
    eapply reach_trans.
    { apply (IHs k f below (ss ++ rest)); try assumption.
      - unfold room in *. lia.
      - rewrite Hn. assumption.
      - rewrite app_assoc in Hsm. apply small_app in Hsm. assumption. }
    rewrite Hbs in Hb. apply Forall_app in Hb. destruct Hb as (_ & Hb).
    assert (Hr1 : room f (length s)) by (unfold room in *; lia).
    eapply reach_trans.
    { apply (IHss _ (moved f (length s)) below rest); unfold after; cbn [k_stack k_bs k_acc].
      - reflexivity.
      - assumption.
      - apply moved_ok; assumption.
      - exact Hn.
      - reflexivity.
      - exact Hb.
      - apply moved_room; assumption.
      - rewrite <- app_assoc. assumption. }
    unfold after. cbn [k_stack k_bs k_acc k_unused k_consumed]. rewrite moved_plus by assumption.
    rewrite <- app_assoc, <- gain_app, <- unused_app, app_length, Nat.add_assoc. apply reach_refl.
Qed.
