(** Headers: ber_check_tags accepts exactly the chains of Asn1DecSpec.v. *)
From Coq Require Import Lia.
From Verif Require Import Base Ber BerSpec BerProofs BerProofs2 BerProofs4.
From Verif Require Import Asn1Dec Asn1DecSpec.

(** ** One header *)

Lemma accepted_nonneg c L n : accepted_length c L (Some n) -> 0 <= n.
Proof.
  intros [H|(_ & _ & E)].
  - inversion H; subst; [lia|]. unfold be256. apply (fold256_mono bs 0); [assumption|lia].
  - injection E as ->. lia.
Qed.

Lemma code_indef c L o : accepted_length c L o -> (code o =? -1) = match o with None => true | Some _ => false end.
Proof.
  intros H. destruct o; cbn [code]; [|reflexivity].
  apply Z.eqb_neq. apply accepted_nonneg in H. lia.
Qed.

Lemma hdr_nonneg e c n h : hdr e c (Some n) h -> 0 <= n.
Proof. intros (T & L & cl & num & _ & _ & _ & _ & H & _). eapply accepted_nonneg; eassumption. Qed.

Lemma hdr_bytes e c len h : hdr e c len h -> bytes h /\ (2 <= length h)%nat.
Proof.
  intros (T & L & cl & num & -> & Ht & _ & _ & Hl & _).
  destruct (tag_octets_bytes _ _ _ _ Ht) as (B1 & N1 & _). destruct (accepted_bytes _ _ _ Hl) as (B2 & N2).
  split; [apply Forall_app; split; assumption|rewrite app_length; lia].
Qed.

Lemma hdr_weaken e c len h : hdr e c len h -> hdr None c len h.
Proof.
  intros (T & L & cl & num & -> & Ht & Hf & _ & Hl). exists T, L, cl, num.
  split; [reflexivity|]. split; [assumption|]. split; [assumption|]. split; [intros t E; discriminate|assumption].
Qed.

Lemma hdr_some t c len h e : hdr (Some t) c len h -> (forall t', e = Some t' -> t' = t) -> hdr e c len h.
Proof.
  intros (T & L & cl & num & -> & Ht & Hf & Hg & Hl) He. exists T, L, cl, num.
  split; [reflexivity|]. split; [assumption|]. split; [assumption|].
  split; [intros t' E; rewrite (He _ E); apply Hg; reflexivity|assumption].
Qed.

Lemma hdr_no_primitive_indef e h : ~ hdr e false None h.
Proof.
  intros (T & L & cl & num & _ & _ & _ & _ & [Hl|(_ & _ & Hl)] & _); [|discriminate].
  inversion Hl. discriminate.
Qed.

(** What the decoder sees of a header at the beginning of its window. *)
Definition sees (bs : list Z) (tl ll : nat) (tag len : Z) (c : bool) : Prop :=
  ber_fetch_tag bs (length bs) = Ok (Got tl tag)
  /\ (exists b0 r, bs = b0 :: r /\ constructed_bit b0 = c)
  /\ ber_fetch_length c (skipn tl bs) (length bs - tl) = Ok (Got ll len).

Lemma hdr_complete e c len h rest : hdr e c len h -> bytes rest ->
  exists tl ll tag, sees (h ++ rest) tl ll tag (code len) c
    /\ (forall t, e = Some t -> tag = t) /\ (tl + ll = length h)%nat /\ (1 <= tl)%nat /\ (1 <= ll)%nat
    /\ leading tag h /\ (code len =? -1) = match len with None => true | Some _ => false end.
Proof.
  intros (T & L & cl & num & -> & Ht & Hf & Hg & Hl & Hfit) Hr.
  destruct (tag_octets_bytes _ _ _ _ Ht) as (B1 & N1 & C1 & _). destruct (accepted_bytes _ _ _ Hl) as (B2 & N2).
  exists (length T), (length L), (num * 4 + cl).
  split; [|split; [intros t E; apply Hg; assumption|split; [rewrite app_length; lia|
    split; [assumption|split; [assumption|split; [exists T, cl, c, num, L; repeat split; assumption|
    eapply code_indef; eassumption]]]]]].
  unfold sees. rewrite <- app_assoc. split; [|split].
  - apply fetch_tag_complete with (pc := c); [assumption|assumption|rewrite app_length; lia].
  - destruct T as [|b0 T]; [cbn [length] in N1; lia|]. exists b0, (T ++ L ++ rest). split; [reflexivity|exact C1].
  - rewrite skipn_app_exact. rewrite fetch_length_complete with (o := len); [|assumption|assumption|
      rewrite !app_length; lia].
    destruct len as [n|]; [|reflexivity]. cbn [length_fits] in Hfit.
    destruct (Z.ltb_spec n 4611686018427387904); [reflexivity|lia].
Qed.

Lemma hdr_sound bs tl ll tag len c : bytes bs -> sees bs tl ll tag len c ->
  exists o, len = code o /\ hdr (Some tag) c o (firstn (tl + ll) bs) /\ (tl + ll <= length bs)%nat
    /\ (1 <= tl)%nat /\ (1 <= ll)%nat /\ leading tag (firstn (tl + ll) bs)
    /\ (len =? -1) = match o with None => true | Some _ => false end.
Proof.
  intros Hb (E1 & (b0 & r & -> & Hc) & E2).
  apply fetch_tag_sound in E1; [|assumption|lia].
  destruct E1 as (cl & pc & num & Ht & Hf & -> & Hn & Hpc). cbn [nth] in Hpc.
  apply fetch_length_sound in E2; [|apply bytes_skipn; assumption|rewrite skipn_length; lia].
  destruct E2 as (o & -> & Hl & Hfit & Hm).
  assert (S : firstn (tl + ll) (b0 :: r) = firstn tl (b0 :: r) ++ firstn ll (skipn tl (b0 :: r))).
  { rewrite firstn_skipn_comm. rewrite <- (firstn_skipn tl (firstn (tl + ll) (b0 :: r))) at 1.
    rewrite firstn_firstn. replace (Nat.min tl (tl + ll)) with tl by lia. reflexivity. }
  exists o. split; [reflexivity|]. split; [|split; [lia|split; [lia|split; [lia|split]]]].
  - exists (firstn tl (b0 :: r)), (firstn ll (skipn tl (b0 :: r))), cl, num.
    split; [exact S|]. split; [rewrite <- Hc, Hpc; assumption|]. split; [assumption|]. split; [intros t E; injection E as <-; reflexivity|].
    split; assumption.
  - exists (firstn tl (b0 :: r)), cl, pc, num, (firstn ll (skipn tl (b0 :: r))).
    split; [exact S|]. split; [assumption|]. split; [assumption|reflexivity].
  - eapply code_indef; eassumption.
Qed.

(** ** The chain of headers *)

Lemma dchain_bytes es c len p : dchain es c len p -> bytes p /\ (2 <= length p)%nat /\ 0 <= len.
Proof.
  induction 1 as [e c len h Hh|e es c len h p Hh Hd IH].
  - destruct (hdr_bytes _ _ _ _ Hh). split; [assumption|]. split; [assumption|]. eapply hdr_nonneg; eassumption.
  - destruct (hdr_bytes _ _ _ _ Hh), IH as (IH1 & IH2 & IH3).
    split; [apply Forall_app; split; assumption|]. split; [rewrite app_length; lia|assumption].
Qed.

Lemma ichain_bytes es p : ichain es p -> bytes p /\ (2 <= length p)%nat.
Proof.
  induction 1 as [e h Hh|e es h p Hh Hd IH].
  - apply hdr_bytes in Hh. assumption.
  - destruct (hdr_bytes _ _ _ _ Hh), IH as (IH1 & IH2).
    split; [apply Forall_app; split; assumption|]. rewrite app_length; lia.
Qed.

Definition form_ok (form : option bool) (c : bool) : Prop := forall f, form = Some f -> f = c.

Lemma form_test form c : form_ok form c -> match form with None => false | Some f => negb (Bool.eqb f c) end = false.
Proof. intros H. destruct form as [f|]; [|reflexivity]. rewrite (H f eq_refl). destruct c; reflexivity. Qed.

Lemma form_test_false form c : match form with None => false | Some f => negb (Bool.eqb f c) end = false -> form_ok form c.
Proof. intros H f ->. destruct f, c; cbn in H; congruence. Qed.

(** One turn of the loop. *)
Lemma loop_turn e es form bs consumed limit nulls tlv_len constr tl ll tag len c :
  sees bs tl ll tag len c ->
  check_tags_loop (e :: es) form bs consumed limit nulls tlv_len constr =
  if match e with None => false | Some t => negb (tag =? t) end then Failed else
  if match es with
     | [] => match form with None => false | Some f => negb (Bool.eqb f c) end
     | _ :: _ => negb c
     end then Failed else
  let h := (tl + ll)%nat in
  if len =? -1 then
    if limit =? -1 then check_tags_loop es form (skipn h bs) (consumed + h) limit (S nulls) len c else Failed
  else if (0 <? nulls)%nat then Failed
  else if (if limit =? -1 then len + Z.of_nat h <? 0 else negb (limit =? len + Z.of_nat h)) then Failed
  else
    let limit := len + Z.of_nat h - Z.of_nat h in
    let bs := skipn h bs in
    let bs := if limit <? Z.of_nat (length bs) then firstn (Z.to_nat limit) bs else bs in
    check_tags_loop es form bs (consumed + h) limit nulls len c.
Proof.
  intros (E1 & (b0 & r & -> & <-) & E2). cbn [check_tags_loop]. rewrite E1. cbn zeta. rewrite E2. reflexivity.
Qed.

(** The bytes a decoder with a definite length [limit] may see. *)
Definition clip (limit : Z) (bs : list Z) : list Z :=
  if limit <? Z.of_nat (length bs) then firstn (Z.to_nat limit) bs else bs.

Lemma bytes_clip limit bs : bytes bs -> bytes (clip limit bs).
Proof. intros H. unfold clip. destruct (limit <? Z.of_nat (length bs)); [apply bytes_firstn|]; assumption. Qed.

Lemma clip_app limit p rest : 0 <= limit -> Z.of_nat (length p) <= limit -> exists rest', clip limit (p ++ rest) = p ++ rest' /\
  (bytes rest -> bytes rest').
Proof.
  intros H0 H1. unfold clip. destruct (limit <? Z.of_nat (length (p ++ rest))).
  - exists (firstn (Z.to_nat limit - length p) rest). split; [|apply bytes_firstn].
    rewrite firstn_app, firstn_all2 by lia. reflexivity.
  - exists rest. split; [reflexivity|trivial].
Qed.

Lemma loop_definite es c len p : dchain es c len p -> forall form rest consumed limit tlv_len constr,
  form_ok form c -> bytes rest -> (limit = -1 \/ limit = Z.of_nat (length p) + len) ->
  check_tags_loop es form (p ++ rest) consumed limit 0 tlv_len constr = Done (consumed + length p)%nat (len, c).
Proof.
  induction 1 as [e c len h Hh|e es c len h p Hh Hd IH]; intros form rest consumed limit tlv_len constr Hform Hr Hlim.
  - destruct (hdr_complete _ _ _ _ rest Hh Hr) as (tl & ll & tag & Hs & He & Hn & N1 & N2 & _ & Hcode). cbn [code] in Hs, Hcode.
    rewrite (loop_turn _ _ _ _ _ _ _ _ _ _ _ _ _ _ Hs). cbn zeta.
    replace (match e with None => false | Some t => negb (tag =? t) end) with false
      by (destruct e as [t|]; [rewrite (He t eq_refl), Z.eqb_refl; reflexivity|reflexivity]).
    rewrite form_test by assumption. rewrite Hcode. change (0 <? 0)%nat with false. rewrite Hn.
    apply hdr_nonneg in Hh.
    replace (if limit =? -1 then len + Z.of_nat (length h) <? 0 else negb (limit =? len + Z.of_nat (length h))) with false.
    2:{ destruct (Z.eqb_spec limit (-1)).
        - symmetry. apply Z.ltb_ge. lia.
        - destruct Hlim as [?|Hlim]; [lia|]. symmetry. apply negb_false_iff, Z.eqb_eq. lia. }
    cbn [check_tags_loop]. change (0 <? 0)%nat with false. reflexivity.
  - destruct (hdr_complete _ _ _ _ (p ++ rest) Hh) as (tl & ll & tag & Hs & He & Hn & N1 & N2 & _ & Hcode).
    { apply Forall_app. split; [apply (dchain_bytes _ _ _ _ Hd)|assumption]. }
    cbn [code] in Hs, Hcode. rewrite <- app_assoc.
    rewrite (loop_turn _ _ _ _ _ _ _ _ _ _ _ _ _ _ Hs). cbn zeta.
    replace (match e with None => false | Some t => negb (tag =? t) end) with false
      by (destruct e as [t|]; [rewrite (He t eq_refl), Z.eqb_refl; reflexivity|reflexivity]).
    replace (match es with [] => match form with None => false | Some f => negb (Bool.eqb f true) end | _ :: _ => negb true end) with false
      by (inversion Hd; reflexivity).
    rewrite Hcode. change (0 <? 0)%nat with false. rewrite Hn.
    destruct (dchain_bytes _ _ _ _ Hd) as (Bp & Np & L0).
    replace (if limit =? -1 then Z.of_nat (length p) + len + Z.of_nat (length h) <? 0
             else negb (limit =? Z.of_nat (length p) + len + Z.of_nat (length h))) with false.
    2:{ destruct (Z.eqb_spec limit (-1)).
        - symmetry. apply Z.ltb_ge. lia.
        - destruct Hlim as [?|Hlim]; [lia|]. symmetry. apply negb_false_iff, Z.eqb_eq. rewrite app_length in Hlim. lia. }
    rewrite skipn_app_exact.
    replace (Z.of_nat (length p) + len + Z.of_nat (length h) - Z.of_nat (length h)) with (Z.of_nat (length p) + len) by lia.
    fold (clip (Z.of_nat (length p) + len) (p ++ rest)).
    destruct (clip_app (Z.of_nat (length p) + len) p rest) as (rest' & -> & Hr'); [lia|lia|].
    rewrite IH; [|assumption|apply Hr'; assumption|right; reflexivity].
    rewrite app_length, Nat.add_assoc. reflexivity.
Qed.

Lemma loop_indefinite es p : ichain es p -> forall form rest consumed nulls tlv_len constr,
  form_ok form true -> bytes rest ->
  check_tags_loop es form (p ++ rest) consumed (-1) nulls tlv_len constr
  = Done (consumed + length p)%nat (- Z.of_nat (nulls + length es), true).
Proof.
  induction 1 as [e h Hh|e es h p Hh Hd IH]; intros form rest consumed nulls tlv_len constr Hform Hr.
  - destruct (hdr_complete _ _ _ _ rest Hh Hr) as (tl & ll & tag & Hs & He & Hn & N1 & N2 & _ & Hcode). cbn [code] in Hs, Hcode.
    rewrite (loop_turn _ _ _ _ _ _ _ _ _ _ _ _ _ _ Hs). cbn zeta.
    replace (match e with None => false | Some t => negb (tag =? t) end) with false
      by (destruct e as [t|]; [rewrite (He t eq_refl), Z.eqb_refl; reflexivity|reflexivity]).
    rewrite form_test by assumption. rewrite Hcode. change (-1 =? -1) with true. cbn iota. rewrite Hn.
    cbn [check_tags_loop]. change (0 <? S nulls)%nat with true. cbn iota. cbn [length].
    replace (nulls + 1)%nat with (S nulls) by lia. reflexivity.
  - destruct (hdr_complete _ _ _ _ (p ++ rest) Hh) as (tl & ll & tag & Hs & He & Hn & N1 & N2 & _ & Hcode).
    { apply Forall_app. split; [apply (ichain_bytes _ _ Hd)|assumption]. }
    cbn [code] in Hs, Hcode. rewrite <- app_assoc.
    rewrite (loop_turn _ _ _ _ _ _ _ _ _ _ _ _ _ _ Hs). cbn zeta.
    replace (match e with None => false | Some t => negb (tag =? t) end) with false
      by (destruct e as [t|]; [rewrite (He t eq_refl), Z.eqb_refl; reflexivity|reflexivity]).
    replace (match es with [] => match form with None => false | Some f => negb (Bool.eqb f true) end | _ :: _ => negb true end) with false
      by (inversion Hd; reflexivity).
    rewrite Hcode. change (-1 =? -1) with true. cbn iota. rewrite Hn. rewrite skipn_app_exact.
    rewrite IH by assumption. rewrite app_length, Nat.add_assoc. cbn [length].
    replace (nulls + S (length es))%nat with (S nulls + length es)%nat by lia. reflexivity.
Qed.

(** Otherwise it sees no header, and says so. *)
Definition blind (bs : list Z) : Prop :=
  match ber_fetch_tag bs (length bs) with
  | Ok (Got tl _) =>
      match bs with
      | [] => False
      | b0 :: _ =>
          match ber_fetch_length (constructed_bit b0) (skipn tl bs) (length bs - tl) with
          | Ok (Got _ _) => False
          | Ok _ => True
          | _ => False
          end
      end
  | Ok _ => True
  | _ => False
  end.

Lemma sees_or_blind bs : bytes bs -> (exists tl ll tag len c, sees bs tl ll tag len c) \/ blind bs.
Proof.
  intros Hb. destruct (fetch_tag_total bs (length bs)) as (r & E); [lia|]. unfold blind. rewrite E.
  destruct r as [| |tl tag]; [right; exact I|right; exact I|].
  destruct bs as [|b0 bs]; [cbn in E; discriminate|].
  destruct (fetch_length_total (constructed_bit b0) (skipn tl (b0 :: bs)) (length (b0 :: bs) - tl)) as (r & E2);
    [apply bytes_skipn; assumption|rewrite skipn_length; lia|].
  rewrite E2. destruct r as [| |ll len]; [right; exact I|right; exact I|].
  left. exists tl, ll, tag, len, (constructed_bit b0). split; [assumption|]. split; [|assumption].
  exists b0, bs. split; reflexivity.
Qed.

Lemma not_fault bs : bytes bs ->
  (exists tl ll tag len c, sees bs tl ll tag len c)
  \/ forall e es form consumed limit nulls tlv_len constr,
       check_tags_loop (e :: es) form bs consumed limit nulls tlv_len constr = Failed.
Proof.
  intros Hb. destruct (sees_or_blind bs Hb) as [H|H]; [left; assumption|right]. intros. unfold blind in H. cbn [check_tags_loop].
  destruct (ber_fetch_tag bs (length bs)) as [[| |tl tag]| |]; try reflexivity; try contradiction.
  destruct bs as [|b0 bs]; [contradiction|]. cbn zeta.
  destruct (match e with None => false | Some t => negb (tag =? t) end); [reflexivity|].
  match goal with |- (if ?x then _ else _) = _ => destruct x; [reflexivity|] end.
  destruct (ber_fetch_length (constructed_bit b0) (skipn tl (b0 :: bs)) (length (b0 :: bs) - tl)) as [[| |ll len]| |];
    try reflexivity; contradiction.
Qed.

Lemma firstn_clip n limit bs : Z.of_nat n <= limit \/ (n <= length (clip limit bs))%nat -> 0 <= limit -> firstn n (clip limit bs) = firstn n bs.
Proof.
  intros H H0. unfold clip in *. destruct (Z.ltb_spec limit (Z.of_nat (length bs))); [|reflexivity].
  rewrite firstn_firstn. f_equal. destruct H; [lia|]. rewrite firstn_length in H. lia.
Qed.

Lemma firstn_plus {A} (l : list A) a b : firstn (a + b) l = firstn a l ++ firstn b (skipn a l).
Proof.
  rewrite firstn_skipn_comm. rewrite <- (firstn_skipn a (firstn (a + b) l)) at 1.
  rewrite firstn_firstn. replace (Nat.min a (a + b)) with a by lia. reflexivity.
Qed.

(** The converse: what the loop accepts is a chain. *)
Lemma loop_sound es : forall form bs consumed limit nulls tlv_len constr n len c, bytes bs -> es <> [] ->
  ((limit = -1) \/ (0 <= limit /\ nulls = O)) ->
  check_tags_loop es form bs consumed limit nulls tlv_len constr = Done n (len, c) ->
  exists k, n = (consumed + k)%nat /\ (k <= length bs)%nat /\ form_ok form c /\
    ((nulls = O /\ dchain es c len (firstn k bs) /\ (0 <= limit -> limit = Z.of_nat k + len))
     \/ (limit = -1 /\ c = true /\ ichain es (firstn k bs) /\ len = - Z.of_nat (nulls + length es))).
Proof.
  induction es as [|e es IH]; [congruence|].
  intros form bs consumed limit nulls tlv_len constr n len c Hb _ Hlim E.
  destruct (not_fault bs Hb) as [(tl & ll & tag & len0 & c0 & Hs)|F]; [|rewrite F in E; discriminate].
  rewrite (loop_turn _ _ _ _ _ _ _ _ _ _ _ _ _ _ Hs) in E. cbn zeta in E.
  destruct (match e with None => false | Some t => negb (tag =? t) end) eqn:Ee; [discriminate|].
  assert (He : forall t', e = Some t' -> t' = tag).
  { intros t' ->. destruct (Z.eqb_spec tag t'); [congruence|discriminate]. }
  destruct (hdr_sound _ _ _ _ _ _ Hb Hs) as (o & -> & Hh & Hle & N1 & N2 & _ & Hcode).
  apply hdr_some with (e := e) in Hh; [|assumption]. rewrite Hcode in E.
  set (h := (tl + ll)%nat) in *.
  match type of E with (if ?x then _ else _) = _ => destruct x eqn:Ef; [discriminate|] end.
  destruct o as [l|]; cbn [code] in *.
  - (* definite *)
    destruct (Nat.ltb_spec 0 nulls); [discriminate|]. assert (nulls = O) by lia. subst nulls.
    assert (L0 : 0 <= l) by (eapply hdr_nonneg; eassumption).
    match type of E with (if ?x then _ else _) = _ => destruct x eqn:El; [discriminate|] end.
    assert (Hlim' : 0 <= limit -> limit = l + Z.of_nat h).
    { intros Hz. destruct (Z.eqb_spec limit (-1)); [lia|]. apply negb_false_iff, Z.eqb_eq in El. assumption. }
    replace (l + Z.of_nat h - Z.of_nat h) with l in E by lia. fold (clip l (skipn h bs)) in E.
    destruct es as [|e' es].
    + cbn [check_tags_loop] in E. change (0 <? 0)%nat with false in E. injection E as <- <- <-.
      exists h. split; [reflexivity|]. split; [assumption|]. split; [apply form_test_false; assumption|].
      left. split; [reflexivity|]. split; [constructor; assumption|]. intros Hz. rewrite (Hlim' Hz). lia.
    + destruct c0; [|discriminate].
      apply IH in E; [|apply bytes_clip, bytes_skipn; assumption|discriminate|right; split; [assumption|reflexivity]].
      destruct E as (k & -> & Hk & Hform & [(_ & Hd & Hl)|(? & _)]); [|lia]. specialize (Hl L0).
      assert (K : firstn k (clip l (skipn h bs)) = firstn k (skipn h bs)) by (apply firstn_clip; [right; assumption|assumption]).
      assert (Lk : length (firstn k (skipn h bs)) = k).
      { rewrite <- K. apply firstn_length_le. assumption. }
      exists (h + k)%nat. split; [lia|].
      split; [pose proof (firstn_le_length k (skipn h bs)) as Q; rewrite firstn_length, skipn_length in Lk; lia|].
      split; [assumption|]. left. split; [reflexivity|]. rewrite firstn_plus. rewrite K in Hd. split.
      * apply dchain_more; [|assumption]. rewrite Lk, <- Hl. assumption.
      * intros Hz. rewrite (Hlim' Hz). lia.
  - (* indefinite *)
    destruct c0; [|exfalso; eapply hdr_no_primitive_indef; eassumption].
    destruct (Z.eqb_spec limit (-1)) as [->|]; [|discriminate].
    destruct es as [|e' es].
    + cbn [check_tags_loop] in E. change (0 <? S nulls)%nat with true in E. cbn iota in E. injection E as <- <- <-.
      exists h. split; [reflexivity|]. split; [assumption|]. split; [apply form_test_false; assumption|].
      right. split; [reflexivity|]. split; [reflexivity|]. split; [constructor; assumption|].
      cbn [length]. replace (nulls + 1)%nat with (S nulls) by lia. lia.
    + apply IH in E; [|apply bytes_skipn; assumption|discriminate|left; reflexivity].
      destruct E as (k & -> & Hk & Hform & [(? & _)|(_ & -> & Hi & ->)]); [discriminate|].
      exists (h + k)%nat. split; [lia|]. split; [rewrite skipn_length in Hk; lia|]. split; [assumption|].
      right. split; [reflexivity|]. split; [reflexivity|]. rewrite firstn_plus. split; [apply ichain_more; assumption|].
      cbn [length]. f_equal. lia.
Qed.

Lemma loop_no_fault es : forall form bs consumed limit nulls tlv_len constr, bytes bs ->
  check_tags_loop es form bs consumed limit nulls tlv_len constr <> Fault
  /\ check_tags_loop es form bs consumed limit nulls tlv_len constr <> Spin.
Proof.
  induction es as [|e es IH]; intros form bs consumed limit nulls tlv_len constr Hb.
  - cbn [check_tags_loop]. split; discriminate.
  - destruct (not_fault bs Hb) as [(tl & ll & tag & len0 & c0 & Hs)|F]; [|rewrite F; split; discriminate].
    rewrite (loop_turn _ _ _ _ _ _ _ _ _ _ _ _ _ _ Hs). cbn zeta.
    repeat match goal with |- context [if ?x then Failed else _] => destruct x; [split; discriminate|] end.
    destruct (len0 =? -1).
    + destruct (limit =? -1); [|split; discriminate]. apply IH. apply bytes_skipn. assumption.
    + repeat match goal with |- context [if ?x then Failed else _] => destruct x; [split; discriminate|] end.
      apply IH. fold (clip (len0 + Z.of_nat (tl + ll) - Z.of_nat (tl + ll)) (skipn (tl + ll) bs)).
      apply bytes_clip, bytes_skipn. assumption.
Qed.

(** ** ber_check_tags *)

(** The untagged ANY is the chain with one unknown tag. *)
Lemma any_as_loop bs : bytes bs -> ber_check_tags [] 0 None bs = check_tags_loop [None] None bs 0 (-1) 0 0 false.
Proof.
  intros Hb. unfold ber_check_tags. change (0 =? 0) with true. change (length (@nil Z) =? 0)%nat with true. cbn [andb].
  destruct (sees_or_blind bs Hb) as [(tl & ll & tag & len0 & c0 & Hs)|F].
  - rewrite (loop_turn _ _ _ _ _ _ _ _ _ _ _ _ _ _ Hs). cbn zeta. cbn iota.
    destruct (hdr_sound _ _ _ _ _ _ Hb Hs) as (o & -> & Hh & Hle & N1 & N2 & _ & Hcode).
    destruct Hs as (E1 & (b0 & r & -> & <-) & E2). rewrite E1. cbn zeta. rewrite E2, Hcode.
    destruct o as [l|]; cbn [code] in *.
    + change (0 <? 0)%nat with false. apply hdr_nonneg in Hh. change (-1 =? -1) with true. cbn iota.
      destruct (Z.ltb_spec (l + Z.of_nat (tl + ll)) 0); [lia|]. cbn [check_tags_loop]. reflexivity.
    + change (-1 =? -1) with true. cbn iota. cbn [check_tags_loop]. change (0 <? 1)%nat with true. reflexivity.
  - unfold blind in F. cbn [check_tags_loop].
    destruct (ber_fetch_tag bs (length bs)) as [[| |tl tag]| |]; try reflexivity; try contradiction.
    destruct bs as [|b0 bs]; [contradiction|]. cbn zeta. cbn iota.
    destruct (ber_fetch_length (constructed_bit b0) (skipn tl (b0 :: bs)) (length (b0 :: bs) - tl)) as [[| |ll len]| |];
      try reflexivity; contradiction.
Qed.

(** The types whose headers are checked: those with a tag of their own, or one
    their context gives them, and the untagged ANY. *)
Definition checkable (tags : list Z) (mode : Z) (form : option bool) : Prop :=
  tags <> [] \/ mode = 1 \/ (mode = 0 /\ form = None).

Lemma check_as_loop tags mode form bs : bytes bs -> checkable tags mode form ->
  ber_check_tags tags mode form bs = check_tags_loop (chain tags mode) form bs 0 (-1) 0 0 false.
Proof.
  intros Hb Hc. destruct tags as [|t tags].
  - destruct Hc as [?|[->|[-> ->]]]; [congruence| |].
    + reflexivity.
    + rewrite any_as_loop by assumption. reflexivity.
  - unfold ber_check_tags, chain. change (length (t :: tags) =? 0)%nat with false. rewrite andb_false_r. destruct (mode =? 1); reflexivity.
Qed.

Lemma chain_nonempty tags mode : chain tags mode <> [].
Proof. unfold chain. destruct (mode =? 1), tags; discriminate. Qed.

Lemma check_definite tags mode form c len p rest : checkable tags mode form -> dchain (chain tags mode) c len p ->
  form_ok form c -> bytes rest -> ber_check_tags tags mode form (p ++ rest) = Done (length p) (len, c).
Proof.
  intros Hc Hd Hf Hr. rewrite check_as_loop; [|apply Forall_app; split; [apply (dchain_bytes _ _ _ _ Hd)|assumption]|assumption].
  rewrite (loop_definite _ _ _ _ Hd) by (try assumption; left; reflexivity). reflexivity.
Qed.

Lemma check_indefinite tags mode form p rest : checkable tags mode form -> ichain (chain tags mode) p ->
  form_ok form true -> bytes rest ->
  ber_check_tags tags mode form (p ++ rest) = Done (length p) (- Z.of_nat (length (chain tags mode)), true).
Proof.
  intros Hc Hd Hf Hr. rewrite check_as_loop; [|apply Forall_app; split; [apply (ichain_bytes _ _ Hd)|assumption]|assumption].
  rewrite (loop_indefinite _ _ Hd) by assumption. reflexivity.
Qed.

Lemma check_sound tags mode form bs n len c : bytes bs -> checkable tags mode form ->
  ber_check_tags tags mode form bs = Done n (len, c) ->
  (n <= length bs)%nat /\ form_ok form c /\
  ((dchain (chain tags mode) c len (firstn n bs) /\ 0 <= len)
   \/ (c = true /\ ichain (chain tags mode) (firstn n bs) /\ len = - Z.of_nat (length (chain tags mode)) /\ len < 0)).
Proof.
  intros Hb Hc E. rewrite check_as_loop in E by assumption.
  apply loop_sound in E; [|assumption|apply chain_nonempty|left; reflexivity].
  destruct E as (k & -> & Hk & Hf & [(_ & Hd & _)|(_ & -> & Hi & ->)]); cbn [Nat.add].
  - split; [assumption|]. split; [assumption|]. left. split; [assumption|]. apply (dchain_bytes _ _ _ _ Hd).
  - split; [assumption|]. split; [assumption|]. right. repeat split; try assumption.
    pose proof (chain_nonempty tags mode). destruct (chain tags mode); [congruence|]. cbn [length]. lia.
Qed.

Lemma check_total tags mode form bs : bytes bs -> checkable tags mode form ->
  ber_check_tags tags mode form bs <> Fault /\ ber_check_tags tags mode form bs <> Spin.
Proof. intros Hb Hc. rewrite check_as_loop by assumption. apply loop_no_fault. assumption. Qed.
