(** CHOICE, and the decoder of every well-formed type. *)
From Coq Require Import Lia.
From Verif Require Import Base Ber BerSpec BerProofs BerProofs2 BerProofs4.
From Verif Require Import Asn1Dec Asn1DecSpec Asn1DecProofs Asn1DecProofs2 Asn1DecProofs3 Asn1DecProofs4 Asn1DecProofs5 Asn1DecProofs6 Asn1DecProofs7 Asn1DecProofs8.

Lemma Forall2_nth_l {A B} (R : A -> B -> Prop) : forall n l l' x, Forall2 R l l' -> nth_error l n = Some x ->
  exists y, nth_error l' n = Some y /\ R x y.
Proof.
  induction n as [|n IH]; intros l l' x H E; destruct H as [|a b l l' Hab H]; try discriminate.
  - injection E as <-. exists b. split; [reflexivity|assumption].
  - apply (IH _ _ _ H) in E. exact E.
Qed.

(** What follows the headers. *)
Definition choice_body (turns : nat) (tagged : bool) (t2e : list (Z * nat)) (fs : list field) (lft : Z) (bs : list Z) (consumed : nat) : outcome value :=
  let win := LEFT lft bs in
  match ber_fetch_tag win (length win) with
  | Ok (Got _ tlv_tag) =>
      match choice_search t2e tlv_tag with
      | None => Failed
      | Some el =>
          match nth_error fs el with
          | None => Fault
          | Some m =>
              match d_decode m win with
              | Done n v =>
                  let lft := advance lft n in
                  if 0 <? lft then Failed
                  else if (lft =? -1) && negb tagged then Done (consumed + n)%nat (VChoice el v)
                  else choice_eocs turns (Z.to_nat (- lft)) (skipn n bs) (consumed + n)%nat (VChoice el v)
              | r => r
              end
          end
      end
  | Ok _ => Failed
  | _ => Fault
  end.

Lemma choice_unfold turns tags t2e fs mode bs :
  CHOICE_decode_ber turns tags t2e fs mode bs =
  if negb (mode =? 0) || negb (length tags =? 0)%nat
  then match ber_check_tags tags mode None bs with
       | Done consumed (lft, _) => choice_body turns true t2e fs lft (skipn consumed bs) consumed
       | Failed => Failed
       | Fault => Fault
       | Spin => Spin
       end
  else choice_body turns false t2e fs (-1) bs 0.
Proof.
  unfold CHOICE_decode_ber. destruct (negb (mode =? 0) || negb (length tags =? 0)%nat).
  - destruct (ber_check_tags tags mode None bs) as [n [l c]| | |]; reflexivity.
  - reflexivity.
Qed.

Lemma body_sound turns tagged t2e fs ms lft bs consumed n v : bytes bs -> choice_ok t2e ms = true ->
  Forall2 (fun f m => for_member f m /\ Sound (d_decode f) (m_type m) (m_mode m)) fs ms ->
  choice_body turns tagged t2e fs lft bs consumed = Done n v ->
  exists k mtag md opt any t b x, nth_error ms k = Some (Member (Some mtag) md opt any t) /\ leading mtag b /\ enc t md b x
    /\ v = VChoice k x
    /\ (if tagged || negb (lft =? -1)
        then exists rest, bs = b ++ tail_of lft ++ rest /\ n = (consumed + length (b ++ tail_of lft))%nat /\ (0 <= lft -> lft = Z.of_nat (length b))
        else exists rest, bs = b ++ rest /\ n = (consumed + length b)%nat).
Proof.
  intros Hb Hok Hfs E. unfold choice_body in E. cbn zeta in E. pose proof (LEFT_bytes lft bs Hb) as Hbw.
  destruct (ber_fetch_tag (LEFT lft bs) (length (LEFT lft bs))) as [[| |k0 tag]| |] eqn:Et; try discriminate.
  destruct (choice_search t2e tag) as [el|] eqn:Es; [|discriminate].
  destruct (nth_error fs el) as [f|] eqn:Ef; [|discriminate].
  destruct (choice_spec _ _ Hok) as (H1 & _). destruct (H1 _ _ Es) as (md & opt & any & t & Em).
  destruct (Forall2_nth _ _ _ _ _ Hfs Em) as (f' & Ef' & _ & Hsound). rewrite Ef in Ef'. injection Ef' as <-. cbn [m_type m_mode] in Hsound.
  destruct (d_decode f (LEFT lft bs)) as [k x| | |] eqn:Ed; try discriminate.
  apply Hsound in Ed; [|assumption]. destruct Ed as (Hk & Henc).
  destruct (LEFT_firstn lft bs k Hk) as (Efk & Hk' & Hkl).
  destruct (enc_leading _ _ _ _ Henc) as ((tag' & Hlead) & Hlen2).
  pose proof (leading_unique _ _ _ _ _ _ Hlead eq_refl Et) as ->.
  exists el, tag, md, opt, any, t, (firstn k (LEFT lft bs)), x.
  assert (Lb : length (firstn k (LEFT lft bs)) = k) by (apply firstn_length_le; assumption).
  split; [assumption|]. split; [assumption|]. split; [assumption|].
  destruct (advance_sign lft k Hkl) as (Hs1 & Hs2 & Hs3).
  destruct (Z.ltb_spec 0 (advance lft k)) as [|Hle]; [discriminate|].
  assert (Hadv : lft < 0 -> advance lft k = lft) by (intros H; unfold advance; destruct (Z.leb_spec 0 lft); [lia|reflexivity]).
  destruct ((advance lft k =? -1) && negb tagged) eqn:Eu.
  - injection E as <- <-. apply andb_true_iff in Eu. destruct Eu as (E1 & Etg). apply Z.eqb_eq in E1. apply negb_true_iff in Etg. subst tagged.
    assert (lft = -1). { destruct (Z.ltb_spec lft 0); [lia|]. rewrite Hs3 in E1 by assumption. specialize (Hkl ltac:(assumption)). lia. }
    subst lft. cbn [orb negb Z.eqb]. change ((-1) =? -1) with true. cbn [negb orb]. split; [reflexivity|]. exists (skipn k bs).
    split; [rewrite Efk; symmetry; apply firstn_skipn|]. rewrite Lb. reflexivity.
  - apply choice_eocs_sound in E. destruct E as (-> & -> & rest & Erest). split; [reflexivity|].
    assert (Htag : tagged || negb (lft =? -1) = true).
    { destruct tagged; [reflexivity|]. cbn [orb negb] in *. rewrite andb_true_r in Eu. destruct (Z.eqb_spec lft (-1)) as [->|]; [|reflexivity].
      rewrite Hadv in Eu by lia. discriminate. }
    rewrite Htag.
    assert (Etail : eocs (Z.to_nat (- advance lft k)) = tail_of lft).
    { unfold tail_of. destruct (Z.ltb_spec lft 0) as [H|H]; [rewrite Hadv by assumption; reflexivity|].
      rewrite Hs3 in * by assumption. specialize (Hkl H). replace (Z.to_nat (- (lft - Z.of_nat k))) with O by lia. reflexivity. }
    exists rest. split; [|split].
    + rewrite Efk, <- Etail, <- Erest. symmetry. apply firstn_skipn.
    + rewrite app_length, Lb, <- Etail, eocs_length. lia.
    + intros H. rewrite Lb. rewrite Hs3 in Hle by assumption. specialize (Hkl H). lia.
Qed.

Lemma choice_sound turns tags t2e fs ms mode bs n v : bytes bs -> choice_ok t2e ms = true ->
  Forall2 (fun f m => for_member f m /\ Sound (d_decode f) (m_type m) (m_mode m)) fs ms ->
  (tags <> [] \/ mode = 1 \/ mode = 0) ->
  CHOICE_decode_ber turns tags t2e fs mode bs = Done n v ->
  (n <= length bs)%nat /\ enc (TChoice tags t2e ms) mode (firstn n bs) v.
Proof.
  intros Hb Hok Hfs Hmode E. rewrite choice_unfold in E.
  assert (Hck : checkable tags mode None) by (unfold checkable; tauto).
  destruct (negb (mode =? 0) || negb (length tags =? 0)%nat) eqn:Etg.
  - assert (Ht : mode <> 0 \/ tags <> []).
    { destruct (Z.eqb_spec mode 0); [|left; assumption]. right. intros ->. discriminate. }
    destruct (ber_check_tags tags mode None bs) as [m [lft c]| | |] eqn:Ec; try discriminate.
    apply check_sound in Ec; [|assumption|assumption]. destruct Ec as (Hm & _ & Hc).
    apply (body_sound _ _ _ _ ms) in E; [|apply bytes_skipn; assumption|assumption|assumption].
    destruct E as (k & mtag & md & opt & any & t & b & x & Em & Hl & Henc & -> & rest & Ebs & -> & Hlen).
    destruct (framed_intro (chain tags mode) c lft bs m b rest Hb Hc Hm Ebs Hlen) as (Hfr & Hle).
    split; [assumption|]. eapply enc_choice_tagged; eassumption.
  - apply orb_false_iff in Etg. destruct Etg as (E0 & E1). apply negb_false_iff in E0, E1. apply Z.eqb_eq in E0. apply Nat.eqb_eq in E1.
    destruct tags; [|discriminate]. subst mode.
    apply (body_sound _ _ _ _ ms) in E; [|assumption|assumption|assumption].
    destruct E as (k & mtag & md & opt & any & t & b & x & Em & Hl & Henc & -> & rest & -> & ->).
    split; [rewrite app_length; lia|]. cbn [Nat.add]. rewrite firstn_app_exact. eapply enc_choice; eassumption.
Qed.

Lemma body_complete turns tagged t2e fs ms lft b x rest consumed k mtag md opt any t :
  choice_ok t2e ms = true ->
  Forall2 (fun f m => for_member f m /\ Complete (d_decode f) (m_type m) (m_mode m)) fs ms ->
  nth_error ms k = Some (Member (Some mtag) md opt any t) -> leading mtag b -> enc t md b x ->
  bytes (b ++ tail_of lft ++ rest) -> (0 <= lft -> lft = Z.of_nat (length b)) ->
  (Z.to_nat (- lft) < turns)%nat -> tagged || negb (lft =? -1) = true ->
  choice_body turns tagged t2e fs lft (b ++ tail_of lft ++ rest) consumed
  = Done (consumed + length (b ++ tail_of lft))%nat (VChoice k x).
Proof.
  intros Hok Hfs Em Hl Henc Hb Hlen Hturns Htag. unfold choice_body. cbn zeta.
  destruct (LEFT_app lft b (tail_of lft ++ rest)) as (rest' & Ew & Hbr').
  { destruct (Z.ltb_spec lft 0); [left; assumption|right]. lia. }
  rewrite Ew. destruct (leading_fetch mtag b rest' Hl) as (k0 & Et). rewrite Et.
  destruct (choice_spec _ _ Hok) as (_ & H2). rewrite (H2 _ _ _ _ _ _ Em).
  destruct (Forall2_nth _ _ _ _ _ Hfs Em) as (f & Ef & _ & Hcomp). rewrite Ef. cbn [m_type m_mode] in Hcomp.
  assert (Bb : bytes b) by (apply Forall_app in Hb; apply Hb).
  assert (Br : bytes (tail_of lft ++ rest)) by (apply Forall_app in Hb; apply Hb).
  rewrite (Hcomp b x rest' Henc) by (apply Forall_app; split; [assumption|apply Hbr'; assumption]).
  assert (Hkl : 0 <= lft -> Z.of_nat (length b) <= lft) by (intros H; specialize (Hlen H); lia).
  destruct (advance_sign lft (length b) Hkl) as (Hs1 & Hs2 & Hs3).
  assert (Hadv : lft < 0 -> advance lft (length b) = lft) by (intros H; unfold advance; destruct (Z.leb_spec 0 lft); [lia|reflexivity]).
  assert (Hle : advance lft (length b) <= 0).
  { destruct (Z.ltb_spec lft 0) as [H|H]; [rewrite Hadv; lia|]. rewrite Hs3 by assumption. specialize (Hlen H). lia. }
  destruct (Z.ltb_spec 0 (advance lft (length b))); [lia|].
  assert (Eu : (advance lft (length b) =? -1) && negb tagged = false).
  { destruct tagged; [apply andb_false_r|]. cbn [orb negb] in *. rewrite andb_true_r. apply negb_true_iff in Htag. apply Z.eqb_neq in Htag. apply Z.eqb_neq.
    destruct (Z.ltb_spec lft 0) as [H0|H0]; [rewrite Hadv; lia|]. rewrite Hs3 by assumption. specialize (Hlen H0). lia. }
  rewrite Eu. rewrite skipn_app_exact.
  assert (Etail : tail_of lft = eocs (Z.to_nat (- advance lft (length b)))).
  { unfold tail_of. destruct (Z.ltb_spec lft 0) as [H0|H0]; [rewrite Hadv by assumption; reflexivity|].
    rewrite Hs3 by assumption. specialize (Hlen H0). replace (Z.to_nat (- (lft - Z.of_nat (length b)))) with O by lia. reflexivity. }
  rewrite Etail. rewrite choice_eocs_complete.
  - f_equal. rewrite app_length, eocs_length. lia.
  - destruct (Z.ltb_spec lft 0) as [H0|H0]; [rewrite Hadv by assumption; assumption|]. rewrite Hs3 by assumption. specialize (Hlen H0). lia.
Qed.

Lemma choice_complete turns tags t2e fs ms mode b v rest : choice_ok t2e ms = true ->
  Forall2 (fun f m => for_member f m /\ Complete (d_decode f) (m_type m) (m_mode m)) fs ms ->
  (tags <> [] \/ mode = 1 \/ mode = 0) -> (length (chain tags mode) < turns)%nat ->
  enc (TChoice tags t2e ms) mode b v -> bytes (b ++ rest) ->
  CHOICE_decode_ber turns tags t2e fs mode (b ++ rest) = Done (length b) v.
Proof.
  intros Hok Hfs Hmode Hturns Henc Hb. rewrite choice_unfold.
  assert (Hck : checkable tags mode None) by (unfold checkable; tauto).
  inversion Henc as [| | | | | | | | | | |t2e0 ms0 k mtag md opt any t bs x Em Hl Hx|tags0 t2e0 ms0 mode0 k mtag md opt any t c indef body whole x Htag Hfr Em Hl Hx]; subst.
  - cbn [length Nat.eqb]. change (0 =? 0) with true. cbn [negb orb].
    (* untagged *)
    unfold choice_body. cbn zeta. assert (EL : LEFT (-1) (b ++ rest) = b ++ rest) by reflexivity. rewrite EL.
    destruct (leading_fetch mtag b rest Hl) as (k0 & Et). rewrite Et.
    destruct (choice_spec _ _ Hok) as (_ & H2). rewrite (H2 _ _ _ _ _ _ Em).
    destruct (Forall2_nth _ _ _ _ _ Hfs Em) as (f & Ef & _ & Hcomp). rewrite Ef. cbn [m_type m_mode] in Hcomp.
    rewrite (Hcomp b x rest Hx) by assumption. reflexivity.
  - assert (Etg : negb (mode =? 0) || negb (length tags =? 0)%nat = true).
    { destruct Htag as [H|H]; [destruct (Z.eqb_spec mode 0); [contradiction|reflexivity]|]. destruct tags; [contradiction|apply orb_true_r]. }
    rewrite Etg. destruct (framed_elim tags mode None c indef body b rest Hck (form_none c) Hfr Hb) as (p & len & Ec & -> & Hi & Hlen & Bb & _ & Hneg).
    rewrite Ec. rewrite <- !app_assoc, skipn_app_exact.
    rewrite (body_complete _ _ _ _ ms _ _ x _ _ k mtag md opt any t); try assumption.
    + f_equal. rewrite !app_length. lia.
    + destruct (Z.ltb_spec len 0) as [H|H]; [rewrite (Hneg H); lia|]. lia.
    + reflexivity.
Qed.

Lemma body_not_fault turns tagged t2e fs ms lft bs consumed : bytes bs -> choice_ok t2e ms = true ->
  Forall2 (fun f m => for_member f m /\ NoFault (d_decode f)) fs ms ->
  choice_body turns tagged t2e fs lft bs consumed <> Fault.
Proof.
  intros Hb Hok Hfs. unfold choice_body. cbn zeta. pose proof (LEFT_bytes lft bs Hb) as Hbw.
  destruct (fetch_tag_total (LEFT lft bs) (length (LEFT lft bs))) as (r & Et); [lia|]. rewrite Et. destruct r as [| |k0 tag]; try discriminate.
  destruct (choice_search t2e tag) as [el|] eqn:Es; [|discriminate].
  destruct (choice_spec _ _ Hok) as (H1 & _). destruct (H1 _ _ Es) as (md & opt & any & t & Em).
  destruct (Forall2_nth _ _ _ _ _ Hfs Em) as (f & Ef & _ & Hnf). rewrite Ef. specialize (Hnf (LEFT lft bs) Hbw).
  destruct (d_decode f (LEFT lft bs)) as [k x| | |]; try discriminate; [|contradiction].
  destruct (0 <? advance lft k); [discriminate|]. destruct ((advance lft k =? -1) && negb tagged); [discriminate|]. apply choice_eocs_not_fault.
Qed.

Lemma choice_not_fault turns tags t2e fs ms mode bs : bytes bs -> choice_ok t2e ms = true ->
  Forall2 (fun f m => for_member f m /\ NoFault (d_decode f)) fs ms ->
  (tags <> [] \/ mode = 1 \/ mode = 0) ->
  CHOICE_decode_ber turns tags t2e fs mode bs <> Fault.
Proof.
  intros Hb Hok Hfs Hmode. rewrite choice_unfold.
  assert (Hck : checkable tags mode None) by (unfold checkable; tauto).
  destruct (negb (mode =? 0) || negb (length tags =? 0)%nat).
  - destruct (check_total tags mode None bs Hb Hck) as (H1 & _). destruct (ber_check_tags tags mode None bs) as [m [lft c]| | |]; try discriminate; [|contradiction].
    apply (body_not_fault _ _ _ _ ms); [apply bytes_skipn; assumption|assumption|assumption].
  - apply (body_not_fault _ _ _ _ ms); assumption.
Qed.

(** Without the octet 0x80 there is no indefinite length. *)
Definition no_indefinite (bs : list Z) : Prop := bytes bs /\ ~ In 128 bs.

Lemma firstn_In {A} n (l : list A) x : In x (firstn n l) -> In x l.
Proof. intros H. rewrite <- (firstn_skipn n l). apply in_or_app. left. assumption. Qed.
Lemma skipn_In {A} n (l : list A) x : In x (skipn n l) -> In x l.
Proof. intros H. rewrite <- (firstn_skipn n l). apply in_or_app. right. assumption. Qed.

Lemma no_indefinite_closed : closed no_indefinite.
Proof.
  split; [intros bs H; apply H|]. split; intros n bs (Hb & Hn); split.
  - apply bytes_firstn. assumption.
  - intros H. apply Hn. eapply firstn_In. eassumption.
  - apply bytes_skipn. assumption.
  - intros H. apply Hn. eapply skipn_In. eassumption.
Qed.

Lemma hdr_indef_octet e h : hdr e true None h -> In 128 h.
Proof.
  intros (T & L & cl & num & -> & _ & _ & _ & Ha & _). apply in_or_app. right.
  destruct Ha as [H|(_ & _ & H)]; [inversion H; subst; left; reflexivity|discriminate].
Qed.

Lemma ichain_indef_octet es p : ichain es p -> In 128 p.
Proof.
  intros H. destruct H as [e h H|e es h p H _]; apply hdr_indef_octet in H; [assumption|apply in_or_app; left; assumption].
Qed.

(** A CHOICE without tags of its own does not loop; neither does it without
    indefinite lengths. *)
Lemma choice_not_spin OK turns t2e fs ms mode bs : closed OK -> OK bs -> choice_ok t2e ms = true ->
  Forall2 (fun f m => for_member f m /\ (forall bs, OK bs -> d_decode f bs <> Spin) /\ Sound (d_decode f) (m_type m) (m_mode m)) fs ms ->
  mode = 0 \/ (mode = 1 /\ (0 < turns)%nat /\ forall bs, OK bs -> no_indefinite bs) ->
  CHOICE_decode_ber turns [] t2e fs mode bs <> Spin.
Proof.
  intros Hclosed Hb Hok Hfs Hmode. rewrite choice_unfold.
  assert (Hbody : forall tagged lft m, (tagged = false /\ lft = -1) \/ (0 <= lft /\ (0 < turns)%nat) -> choice_body turns tagged t2e fs lft (skipn m bs) m <> Spin).
  { intros tagged lft m Hl. unfold choice_body. cbn zeta.
    assert (Hbs : OK (skipn m bs)) by (apply Hclosed; assumption).
    pose proof (LEFT_closed OK lft _ Hclosed Hbs) as Hbw.
    destruct (fetch_tag_total (LEFT lft (skipn m bs)) (length (LEFT lft (skipn m bs)))) as (r & Et); [lia|]. rewrite Et. destruct r as [| |k0 tag]; try discriminate.
    destruct (choice_search t2e tag) as [el|] eqn:Es; [|discriminate].
    destruct (nth_error fs el) as [f|] eqn:Ef; [|discriminate].
    destruct (Forall2_nth_l _ _ _ _ _ Hfs Ef) as (mm & _ & _ & Hns & Hsound). specialize (Hns _ Hbw).
    destruct (d_decode f (LEFT lft (skipn m bs))) as [k x| | |] eqn:Ed; try discriminate; [|contradiction].
    destruct Hl as [(-> & ->)|(H0 & Ht)]; [discriminate|].
    destruct (Z.ltb_spec 0 (advance lft k)) as [|Hle]; [discriminate|].
    destruct ((advance lft k =? -1) && negb tagged); [discriminate|].
    apply Hsound in Ed; [|apply Hclosed; assumption]. destruct Ed as (Hk & _).
    destruct (LEFT_firstn lft _ k Hk) as (_ & _ & Hkl). specialize (Hkl H0).
    destruct (advance_sign lft k (fun _ => Hkl)) as (_ & _ & Hs). rewrite Hs by assumption.
    replace (Z.to_nat (- (lft - Z.of_nat k))) with O by lia. destruct turns; [lia|discriminate]. }
  destruct Hmode as [->|(-> & Ht & Hni)].
  - cbn [length Nat.eqb]. change (0 =? 0) with true. cbn [negb orb]. apply (Hbody false (-1) O). left. split; reflexivity.
  - change (negb (1 =? 0) || negb (length (@nil Z) =? 0)%nat) with true. cbn iota.
    assert (Hck : checkable [] 1 None) by (unfold checkable; tauto).
    destruct (check_total [] 1 None bs (proj1 Hclosed bs Hb) Hck) as (_ & H1).
    destruct (ber_check_tags [] 1 None bs) as [m [lft c]| | |] eqn:Ec; try discriminate; [|contradiction].
    apply check_sound in Ec; [|apply Hclosed; assumption|assumption]. destruct Ec as (Hm & _ & [(_ & H0)|(_ & Hi & _)]).
    + apply Hbody. right. split; assumption.
    + exfalso. apply ichain_indef_octet, firstn_In in Hi. apply (Hni bs Hb). assumption.
Qed.

(** ** Every type *)

Lemma ty_rect' (P : ty -> Prop) :
  (forall tags, P (TPrim tags)) -> (forall tags, P (TNull tags)) -> (forall tags, P (TBool tags)) ->
  (forall v tags all, P (TString v tags all)) ->
  (forall tags t2e ms, Forall (fun m => P (m_type m)) ms -> P (TSeq tags t2e ms)) ->
  (forall tags etag t, P t -> P (TOf tags etag t)) ->
  (forall tags t2e ms, Forall (fun m => P (m_type m)) ms -> P (TChoice tags t2e ms)) ->
  forall t, P t.
Proof.
  intros H1 H2 H3 H4 H5 H6 H7. fix IH 1. intros [tags|tags|tags|v tags all|tags t2e ms|tags etag t|tags t2e ms].
  - apply H1.
  - apply H2.
  - apply H3.
  - apply H4.
  - apply H5. induction ms as [|[mt md o a t] ms IHms]; constructor; [apply IH|apply IHms].
  - apply H6, IH.
  - apply H7. induction ms as [|[mt md o a t] ms IHms]; constructor; [apply IH|apply IHms].
Qed.

(** The tag modes a type may be used with: only one EXPLICIT tag for the types
    that have no tags. *)
Definition usable (t : ty) (mode : Z) : Prop :=
  match t with
  | TString ANY _ _ | TChoice _ _ _ => mode = 0 \/ mode = 1
  | _ => True
  end.

Definition fields (turns : nat) (ms : list member) : list field :=
  map (fun m => match m with
                | Member tag md opt any t' =>
                    {| d_key := (tag, any); d_optional := opt; d_decode := decode turns t' md |}
                end) ms.

Lemma fields_are turns ms (R : field -> member -> Prop) :
  Forall (fun m => R {| d_key := key m; d_optional := optional_of m; d_decode := decode turns (m_type m) (m_mode m) |} m) ms ->
  Forall2 (fun f m => for_member f m /\ R f m) (fields turns ms) ms.
Proof.
  intros H. induction H as [|[mt md o a t] ms Hm H IH]; [constructor|]. cbn [fields map]. constructor; [|exact IH].
  split; [split; reflexivity|exact Hm].
Qed.

Lemma fits_usable m : member_fits m -> usable (m_type m) (m_mode m).
Proof.
  destruct m as [mt md o a t]. unfold member_fits, member_mode_ok. cbn [m_type m_mode]. rewrite andb_true_iff. intros (H1 & H2).
  assert (Hmd : md = 0 \/ md = 1 \/ md = -1).
  { apply orb_true_iff in H1. destruct H1 as [H1|H1]; [apply orb_true_iff in H1; destruct H1 as [H1|H1]|]; apply Z.eqb_eq in H1; tauto. }
  destruct t as [| | |[| |]| | |]; cbn [usable]; trivial.
  - apply andb_true_iff in H2. destruct H2 as (H2 & _). apply andb_true_iff in H2. destruct H2 as (_ & H2).
    apply negb_true_iff, Z.eqb_neq in H2. tauto.
  - apply andb_true_iff in H2. destruct H2 as (H2 & _). apply andb_true_iff in H2. destruct H2 as (H2 & _).
    apply andb_true_iff in H2. destruct H2 as (_ & H2). apply negb_true_iff, Z.eqb_neq in H2. tauto.
Qed.

Lemma tags_given (tags : list Z) : negb (length tags =? 0)%nat = true -> tags <> [].
Proof. intros H ->. discriminate. Qed.

Lemma wf_members ms :
  forallb (fun m => match m with Member mtag md _ any t' => member_mode_ok md any mtag t' && wf t' end) ms = true ->
  Forall (fun m => member_fits m /\ wf (m_type m) = true) ms.
Proof.
  rewrite forallb_forall, Forall_forall. intros H m Hin. apply H in Hin. destruct m as [mt md o a t]. apply andb_true_iff in Hin. exact Hin.
Qed.

Lemma wf_seq tags t2e ms : wf (TSeq tags t2e ms) = true ->
  tags <> [] /\ members_ok t2e 0 ms = true /\ Forall member_fits ms /\ Forall (fun m => wf (m_type m) = true) ms.
Proof.
  cbn [wf]. rewrite !andb_true_iff. intros ((H1 & H2) & H3). apply wf_members in H3.
  split; [apply tags_given; assumption|]. split; [assumption|].
  split; (eapply Forall_impl; [|exact H3]); cbn; tauto.
Qed.

Lemma wf_choice tags t2e ms : wf (TChoice tags t2e ms) = true ->
  tags = [] /\ choice_ok t2e ms = true /\ Forall member_fits ms /\ Forall (fun m => wf (m_type m) = true) ms.
Proof.
  cbn [wf]. rewrite !andb_true_iff. intros ((H1 & H2) & H3). apply wf_members in H3.
  split; [destruct tags; [reflexivity|discriminate]|]. split; [assumption|].
  split; (eapply Forall_impl; [|exact H3]); cbn; tauto.
Qed.

Lemma wf_of tags etag t : wf (TOf tags etag t) = true -> tags <> [] /\ usable t 0 /\ wf t = true.
Proof.
  cbn [wf]. rewrite !andb_true_iff. intros ((H1 & H2) & H3). split; [apply tags_given; assumption|]. split; [|assumption].
  apply (fits_usable (Member etag 0 0 (match t with TString ANY _ _ => true | _ => false end) t)). exact H2.
Qed.

Lemma wf_string v tags all mode : wf (TString v tags all) = true -> usable (TString v tags all) mode -> checkable tags mode None.
Proof.
  intros Hwf Hu. unfold checkable. destruct v; cbn [wf usable] in *.
  - apply andb_true_iff in Hwf. destruct Hwf as (H & _). left. apply tags_given. assumption.
  - apply andb_true_iff in Hwf. destruct Hwf as (H & _). left. apply tags_given. assumption.
  - destruct Hu; subst; tauto.
Qed.

Lemma members_forall (P : member -> Prop) (Q : ty -> Z -> Prop) ms :
  Forall (fun m => forall mode, wf (m_type m) = true -> usable (m_type m) mode -> Q (m_type m) mode) ms ->
  Forall member_fits ms -> Forall (fun m => wf (m_type m) = true) ms ->
  Forall (fun m => Q (m_type m) (m_mode m)) ms.
Proof.
  intros H1 H2 H3. rewrite Forall_forall in *. intros m Hin. apply H1; [assumption|apply H3; assumption|apply fits_usable, H2; assumption].
Qed.

(** The decoder accepts encodings only. *)
Theorem decode_sound turns : forall t mode, wf t = true -> usable t mode -> Sound (decode turns t mode) t mode.
Proof.
  induction t as [tags|tags|tags|v tags all|tags t2e ms IH|tags etag t IH|tags t2e ms IH] using ty_rect'; intros mode Hwf Hu bs n x Hb E.
  - apply primitive_sound; [assumption|apply tags_given; assumption|exact E].
  - apply null_sound; [assumption|apply tags_given; assumption|exact E].
  - apply bool_sound; [assumption|apply tags_given; assumption|exact E].
  - apply string_sound; [assumption|eapply wf_string; eassumption|exact E].
  - apply wf_seq in Hwf. destruct Hwf as (Ht & Hok & Hfit & Hwf).
    change (SEQUENCE_decode_ber tags t2e (fields turns ms) mode bs = Done n x) in E. unfold SEQUENCE_decode_ber in E.
    destruct (ber_check_tags tags mode (Some true) bs) as [m [lft c]| | |] eqn:Ec; try discriminate.
    apply check_sound in Ec; [|assumption|apply checkable_tags; assumption]. destruct Ec as (Hm & Hf & Hc).
    rewrite <- (Hf true eq_refl) in Hc.
    assert (Hfs : Forall2 (fun f m => for_member f m /\ Sound (d_decode f) (m_type m) (m_mode m)) (fields turns ms) ms).
    { apply (fields_are turns ms (fun f m => Sound (d_decode f) (m_type m) (m_mode m))). cbn [d_decode].
      apply (members_forall (fun _ => True) (fun t md => Sound (decode turns t md) t md)); assumption. }
    apply (seq_sound t2e (length ms) _ ms) in E; try assumption; [|lia|apply bytes_skipn; assumption].
    destruct E as (body & vs & rest & -> & Ebs & -> & Hl & Hmem).
    destruct (framed_intro (chain tags mode) true lft bs m body rest Hb Hc Hm Ebs Hl) as (Hfr & Hle).
    split; [assumption|]. eapply enc_seq; eassumption.
  - apply wf_of in Hwf. destruct Hwf as (Ht & Hut & Hwf). specialize (IH 0 Hwf Hut).
    cbn [decode] in E. unfold SET_OF_decode_ber in E.
    destruct (ber_check_tags tags mode (Some true) bs) as [m [lft c]| | |] eqn:Ec; try discriminate.
    apply check_sound in Ec; [|assumption|apply checkable_tags; assumption]. destruct Ec as (Hm & Hf & Hc).
    rewrite <- (Hf true eq_refl) in Hc.
    apply (of_sound etag _ t IH) in E; [|apply bytes_skipn; assumption].
    destruct E as (body & vs & rest & -> & Ebs & -> & Hl & Hmem).
    destruct (framed_intro (chain tags mode) true lft bs m body rest Hb Hc Hm Ebs Hl) as (Hfr & Hle).
    split; [assumption|]. eapply enc_of; eassumption.
  - apply wf_choice in Hwf. destruct Hwf as (-> & Hok & Hfit & Hwf).
    apply (choice_sound turns _ t2e (fields turns ms) ms); try assumption; [|right; cbn [usable] in Hu; tauto].
    apply (fields_are turns ms (fun f m => Sound (d_decode f) (m_type m) (m_mode m))). cbn [d_decode].
    apply (members_forall (fun _ => True) (fun t md => Sound (decode turns t md) t md)); assumption.
Qed.

(** And all of them. *)
Theorem decode_complete turns : (2 <= turns)%nat -> forall t mode, wf t = true -> usable t mode -> Complete (decode turns t mode) t mode.
Proof.
  intros Hturns.
  induction t as [tags|tags|tags|v tags all|tags t2e ms IH|tags etag t IH|tags t2e ms IH] using ty_rect'; intros mode Hwf Hu b x rest Henc Hb.
  - apply primitive_complete; [apply tags_given; assumption|exact Henc|assumption].
  - apply null_complete; [apply tags_given; assumption|exact Henc|assumption].
  - apply bool_complete; [apply tags_given; assumption|exact Henc|assumption].
  - apply string_complete; [eapply wf_string; eassumption|exact Henc|assumption].
  - apply wf_seq in Hwf. destruct Hwf as (Ht & Hok & Hfit & Hwf).
    change (SEQUENCE_decode_ber tags t2e (fields turns ms) mode (b ++ rest) = Done (length b) x). unfold SEQUENCE_decode_ber.
    inversion Henc as [| | | | | | | | |tags0 t2e0 ms0 mode0 indef body whole vs Hfr Hmem| | |]; subst.
    destruct (framed_elim tags mode (Some true) true indef body b rest (checkable_tags _ _ _ Ht) form_true Hfr Hb) as (p & len & Ec & -> & Hi & Hlen & Bb & _ & _).
    rewrite Ec. rewrite <- !app_assoc, skipn_app_exact.
    rewrite (seq_complete t2e (length ms) (fields turns ms) ms 0 len body vs rest); try assumption; [|lia| |rewrite Hi; assumption].
    + f_equal. rewrite !app_length. lia.
    + apply (fields_are turns ms (fun f m => Complete (d_decode f) (m_type m) (m_mode m))). cbn [d_decode].
      apply (members_forall (fun _ => True) (fun t md => Complete (decode turns t md) t md)); assumption.
  - apply wf_of in Hwf. destruct Hwf as (Ht & Hut & Hwf). specialize (IH 0 Hwf Hut).
    cbn [decode]. unfold SET_OF_decode_ber.
    inversion Henc as [| | | | | | | | | |tags0 etag0 t0 mode0 indef body whole vs Hfr Hmem| |]; subst.
    destruct (framed_elim tags mode (Some true) true indef body b rest (checkable_tags _ _ _ Ht) form_true Hfr Hb) as (p & len & Ec & -> & Hi & Hlen & Bb & _ & _).
    rewrite Ec. rewrite <- !app_assoc, skipn_app_exact.
    rewrite (of_complete etag _ t IH _ len body vs rest); try assumption; [| |rewrite Hi; assumption].
    + f_equal. rewrite !app_length. lia.
    + rewrite !app_length. lia.
  - apply wf_choice in Hwf. destruct Hwf as (-> & Hok & Hfit & Hwf). cbn [usable] in Hu.
    apply (choice_complete turns _ t2e (fields turns ms) ms); try assumption; [|right; tauto|].
    + apply (fields_are turns ms (fun f m => Complete (d_decode f) (m_type m) (m_mode m))). cbn [d_decode].
      apply (members_forall (fun _ => True) (fun t md => Complete (decode turns t md) t md)); assumption.
    + destruct Hu as [-> | ->]; cbn; lia.
Qed.

(** It does not read outside of its buffer. *)
Theorem decode_no_fault turns : forall t mode, wf t = true -> usable t mode -> NoFault (decode turns t mode).
Proof.
  induction t as [tags|tags|tags|v tags all|tags t2e ms IH|tags etag t IH|tags t2e ms IH] using ty_rect'; intros mode Hwf Hu bs Hb.
  - apply primitive_total; [assumption|apply tags_given; assumption].
  - apply null_total; [assumption|apply tags_given; assumption].
  - apply bool_total; [assumption|apply tags_given; assumption].
  - apply string_total; [assumption|eapply wf_string; eassumption].
  - apply wf_seq in Hwf. destruct Hwf as (Ht & Hok & Hfit & Hwf).
    change (SEQUENCE_decode_ber tags t2e (fields turns ms) mode bs <> Fault). unfold SEQUENCE_decode_ber.
    destruct (check_total tags mode (Some true) bs Hb (checkable_tags _ _ _ Ht)) as (H1 & _).
    destruct (ber_check_tags tags mode (Some true) bs) as [m [lft c]| | |]; try discriminate; [|contradiction].
    apply (seq_not bytes t2e Fault bytes_closed (or_introl eq_refl) (length ms) (fields turns ms) ms); try assumption; [lia| |apply bytes_skipn; assumption].
    apply (fields_are turns ms (fun f m => NoFault (d_decode f))). cbn [d_decode].
    apply (members_forall (fun _ => True) (fun t md => NoFault (decode turns t md))); assumption.
  - pose proof (wf_of _ _ _ Hwf) as (Ht & Hut & Hwft). specialize (IH 0 Hwft Hut).
    cbn [decode]. unfold SET_OF_decode_ber.
    destruct (check_total tags mode (Some true) bs Hb (checkable_tags _ _ _ Ht)) as (H1 & _).
    destruct (ber_check_tags tags mode (Some true) bs) as [m [lft c]| | |]; try discriminate; [|contradiction].
    apply (of_not bytes etag _ t Fault bytes_closed (or_introl eq_refl)); [apply decode_sound; assumption|exact IH|rewrite skipn_length; lia|apply bytes_skipn; assumption].
  - apply wf_choice in Hwf. destruct Hwf as (-> & Hok & Hfit & Hwf). cbn [usable] in Hu.
    apply (choice_not_fault turns _ t2e (fields turns ms) ms); try assumption; [|right; tauto].
    apply (fields_are turns ms (fun f m => NoFault (d_decode f))). cbn [d_decode].
    apply (members_forall (fun _ => True) (fun t md => NoFault (decode turns t md))); assumption.
Qed.

(** No CHOICE in it is inside an EXPLICIT tag. *)
Fixpoint no_tagged_choice (t : ty) (mode : Z) : bool :=
  match t with
  | TSeq _ _ ms => forallb (fun m => match m with Member _ md _ _ t' => no_tagged_choice t' md end) ms
  | TOf _ _ t' => no_tagged_choice t' 0
  | TChoice _ _ ms => (mode =? 0) && forallb (fun m => match m with Member _ md _ _ t' => no_tagged_choice t' md end) ms
  | _ => true
  end.

Lemma no_tagged_members ms :
  forallb (fun m => match m with Member _ md _ _ t' => no_tagged_choice t' md end) ms = true ->
  Forall (fun m => no_tagged_choice (m_type m) (m_mode m) = true) ms.
Proof. rewrite forallb_forall, Forall_forall. intros H m Hin. apply H in Hin. destruct m. exact Hin. Qed.

Theorem decode_no_spin OK turns : closed OK -> forall t mode, wf t = true -> usable t mode ->
  no_tagged_choice t mode = true \/ ((0 < turns)%nat /\ forall bs, OK bs -> no_indefinite bs) ->
  forall bs, OK bs -> decode turns t mode bs <> Spin.
Proof.
  intros Hclosed.
  induction t as [tags|tags|tags|v tags all|tags t2e ms IH|tags etag t IH|tags t2e ms IH] using ty_rect'; intros mode Hwf Hu Hnt bs Hb;
    pose proof (proj1 Hclosed bs Hb) as Hbb.
  - apply primitive_total; [assumption|apply tags_given; assumption].
  - apply null_total; [assumption|apply tags_given; assumption].
  - apply bool_total; [assumption|apply tags_given; assumption].
  - apply string_total; [assumption|eapply wf_string; eassumption].
  - apply wf_seq in Hwf. destruct Hwf as (Ht & Hok & Hfit & Hwf).
    change (SEQUENCE_decode_ber tags t2e (fields turns ms) mode bs <> Spin). unfold SEQUENCE_decode_ber.
    destruct (check_total tags mode (Some true) bs Hbb (checkable_tags _ _ _ Ht)) as (_ & H1).
    destruct (ber_check_tags tags mode (Some true) bs) as [m [lft c]| | |]; try discriminate; [|contradiction].
    apply (seq_not OK t2e Spin Hclosed (or_intror eq_refl) (length ms) (fields turns ms) ms); try assumption; [lia| |apply Hclosed; assumption].
    apply (fields_are turns ms (fun f m => forall bs, OK bs -> d_decode f bs <> Spin)). cbn [d_decode].
    rewrite Forall_forall in *. intros m0 Hin. apply IH; [assumption|apply Hwf; assumption|apply fits_usable, Hfit; assumption|].
    destruct Hnt as [Hnt|Hnt]; [left|right; assumption]. cbn [no_tagged_choice] in Hnt. apply no_tagged_members in Hnt.
    rewrite Forall_forall in Hnt. apply Hnt; assumption.
  - pose proof (wf_of _ _ _ Hwf) as (Ht & Hut & Hwft). specialize (IH 0 Hwft Hut Hnt).
    cbn [decode]. unfold SET_OF_decode_ber.
    destruct (check_total tags mode (Some true) bs Hbb (checkable_tags _ _ _ Ht)) as (_ & H1).
    destruct (ber_check_tags tags mode (Some true) bs) as [m [lft c]| | |]; try discriminate; [|contradiction].
    apply (of_not OK etag _ t Spin Hclosed (or_intror eq_refl)); [apply decode_sound; assumption|exact IH|rewrite skipn_length; lia|apply Hclosed; assumption].
  - apply wf_choice in Hwf. destruct Hwf as (-> & Hok & Hfit & Hwf). cbn [usable] in Hu.
    apply (choice_not_spin OK turns t2e (fields turns ms) ms); try assumption.
    + apply (fields_are turns ms (fun f m => (forall bs, OK bs -> d_decode f bs <> Spin) /\ Sound (d_decode f) (m_type m) (m_mode m))). cbn [d_decode].
      rewrite Forall_forall in *. intros m0 Hin. split.
      * apply IH; [assumption|apply Hwf; assumption|apply fits_usable, Hfit; assumption|].
        destruct Hnt as [Hnt|Hnt]; [left|right; assumption]. cbn [no_tagged_choice] in Hnt. apply andb_true_iff in Hnt. destruct Hnt as (_ & Hnt).
        apply no_tagged_members in Hnt. rewrite Forall_forall in Hnt. apply Hnt; assumption.
      * apply decode_sound; [apply Hwf; assumption|apply fits_usable, Hfit; assumption].
    + destruct Hnt as [Hnt|(H0 & Hni)].
      * left. cbn [no_tagged_choice] in Hnt. apply andb_true_iff in Hnt. destruct Hnt as (Hnt & _). apply Z.eqb_eq. assumption.
      * destruct Hu as [->| ->]; [left; reflexivity|right]. auto.
Qed.
