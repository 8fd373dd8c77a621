(** C74: the traversal of the tree only adds what is authorised. *)
From Coq Require Import String.
From Verif Require Import Base BaseLemmas CString Types DbTable Vrps VrpsSpec PduWireSpec Address AddressSpec PathBuilder Manifest ManifestSpec ManifestProofs ManifestProps Oid SArray SArraySpec
  Resources ResourcesSpec ResourcesProofs ResourcesProofs2 ResourcesProofs3 ResourcesProofs4 ResourcesProps Roa RoaSpec RoaBytes RoaBytesProps BerSpec Objects CertBytes CertBytesProps
  SignedData SignedDataSpec SignedDataProps SignedObject SignedObjectSpec SignedObjectProps Extensions ExtensionsSpec ExtensionsProps CertProfile CertProfileSpec CertProfileProps
  Asn1Dec Asn1DecSpec Asn1Types Asn1CheckProps ObjectsProps Asn1Check Asn1Constraints Tree TreeSpec.
From Verif Require CertStack.
Notation length := List.length.

(** ** The size of the content *)
Lemma octets_small t a mode b v : enc (TString STR t a) mode b v -> exists c, v = VBytes c /\ small c.
Proof. intros E. inversion E; subst; eauto. Qed.
Lemma eci_small b v : enc t_EncapsulatedContentInfo 0 b v -> exists t c, v = VSeq [t; c] /\ forall w, c = Some w -> exists c, w = VBytes c /\ small c.
Proof.
  intros E. inversion E; subst. clear E.
  repeat match goal with H : enc_members _ (_ :: _) _ _ |- _ => inversion H; clear H; subst | H : enc_members _ [] _ _ |- _ => inversion H; clear H; subst end.
  all: eexists _, _; split; [reflexivity|]; intros w Q; try discriminate Q; injection Q as <-; eapply octets_small; eassumption.
Qed.
Lemma econtent_small b v sd c : enc t_SignedData 0 b v -> view_signed_data v = Some sd -> sd_econtent sd = Some c -> small c.
Proof.
  intros E V Q. inversion E; subst. clear E.
  do 3 match goal with H : enc_members _ (_ :: _) _ _ |- _ => inversion H; clear H; subst; [lia|] end.
  match goal with H : enc t_EncapsulatedContentInfo _ _ _ |- _ => apply eci_small in H; destruct H as (t & w & -> & Hw) end.
  cbn [view_signed_data] in V.
  repeat match type of V with match ?x with _ => _ end = _ => destruct x eqn:?; try discriminate V end.
  injection V as <-. cbn [sd_econtent] in Q. subst.
  match goal with H : view_optional view_bytes ?x = Some (Some c) |- _ => destruct x as [w|]; [|discriminate H]; destruct (Hw w eq_refl) as (c' & -> & Hc'); cbn in H; injection H as <-; exact Hc' end.
Qed.
Lemma accepted_octets nobuf turns bs c : bytes bs -> (2 <= turns)%nat -> decode_octets nobuf turns bs = Some c -> small c.
Proof.
  intros Hb Ht D. unfold decode_octets in D. destruct (asn1_decode nobuf turns t_MessageDigest k_MessageDigest bs) as [v| | |] eqn:A; try discriminate D.
  apply accepted_iff in A; [|cbn; tauto|assumption..]. destruct A as ((n & Hn & He) & _). apply octets_small in He. destruct He as (c' & -> & Hc). cbn in D. injection D as <-. exact Hc.
Qed.
(** The eContent of a SignedData is not that long. *)
Lemma contains_small nobuf turns content sd c : bytes content -> (2 <= turns)%nat ->
  contains (decode_signed_data nobuf turns) (decode_signed_data_pkcs7 nobuf turns) (decode_octets nobuf turns) content sd ->
  sd_econtent sd = Some c -> small c.
Proof.
  intros Hb Ht [D|(_ & sd7 & any & e & D & De & E0 & _)] Q.
  - unfold decode_signed_data in D. destruct (asn1_decode nobuf turns t_SignedData k_SignedData content) as [v| | |] eqn:A; try discriminate D.
    apply accepted_iff in A; [|cbn; tauto|assumption..]. destruct A as ((n & Hn & He) & _). eapply econtent_small; eassumption.
  - rewrite E0 in Q. injection Q as <-. eapply accepted_octets; [|exact Ht|exact De].
    destruct (C67_signed_data_complete nobuf turns content Hb Ht) as (_ & C2 & _).
    pose proof D as D'. unfold decode_signed_data_pkcs7 in D'. destruct (asn1_decode nobuf turns t_SignedDataPKCS7 k_SignedDataPKCS7 content) as [v| | |] eqn:A; try discriminate D'.
    destruct (C2 v eq_refl) as (sd' & D2 & B & _). rewrite D2 in D. injection D as -> Ea. destruct B as (_ & _ & _ & B4 & _). rewrite Ea in B4. exact B4.
Qed.

(** ** The stack and the path *)
Definition relm (h : heap) (m : meta) (a : node) : Prop :=
  n_uri a = me_uri m /\ n_cert a = me_cert m /\
  holds4 h (me_resources m) = n_ip4 a /\ holds6 h (me_resources m) = n_ip6 a /\ holdsA h (me_resources m) = n_as a.
Definition rel (h : heap) := Forall2 (relm h).

Lemma rel_ext h h' s chain : ext_of h h' -> Forall (res_ok h) (map me_resources s) -> rel h s chain -> rel h' s chain.
Proof.
  intros X F R. induction R as [|m a s chain (A & B & C & D & E) R IH]; [constructor|]. inversion F as [|? ? F1 F2]; subst.
  constructor; [|apply IH; assumption]. destruct (holds_ext _ _ _ X F1) as (-> & -> & ->) || (destruct (holds_ext _ _ _ X F1) as (H4 & H6 & HA)).
  unfold relm. rewrite H4, H6, HA. auto.
Qed.
Lemma rel_trusted h s chain : rel h s chain -> trusted s = map n_cert chain.
Proof. intros R. induction R as [|m a s chain (A & B & _) R IH]; [reflexivity|]. unfold trusted in *. cbn [map]. rewrite B, IH. reflexivity. Qed.
Lemma rel_top h s chain : rel h s chain -> top s = issuer chain.
Proof. intros R. destruct R as [|m a s chain (A & B & _) R]; [reflexivity|]. unfold top, issuer. cbn. rewrite B. reflexivity. Qed.
Lemma rel_length h s chain : rel h s chain -> length s = length chain.
Proof. intros R. induction R; cbn; congruence. Qed.
Lemma peek_map s : peek_resources (map me_resources s) = top_resources s.
Proof. destruct s; reflexivity. Qed.

Lemma ext_refl h : ext_of h h.
Proof. repeat split; exists []; rewrite app_nil_r; reflexivity. Qed.
Lemma ext_trans a b c : ext_of a b -> ext_of b c -> ext_of a c.
Proof.
  intros ((x4 & A) & (x6 & B) & (xa & C)) ((y4 & A') & (y6 & B') & (ya & C')).
  repeat split; eexists; [rewrite A', A|rewrite B', B|rewrite C', C]; rewrite <- app_assoc; reflexivity.
Qed.

Lemma init_ta_nonempty h parent p exts h' r : init_resources h parent p Resources.CERTYPE_TA exts = Ok (h', r, 0) ->
  holds4 h' r <> [] \/ holds6 h' r <> [] \/ holdsA h' r <> [].
Proof.
  unfold init_resources. intros H. destruct (certificate_get_resources _ _ _ _ _) as [[[h1 r1] e]| |]; cbn [bind] in H; try discriminate H.
  destruct (Z.eqb_spec e 0) as [Ez|Nz]; cbn [negb] in H; [|injection H as _ _ H; congruence].
  destruct (resources_empty h1 r1) as [em| |] eqn:E; cbn [bind] in H; try discriminate H. injection H as -> -> H. destruct em; [discriminate H|]. clear H.
  unfold resources_empty in E.
  destruct (cell (ha h') (r_asns r)) as [xa| |] eqn:Ea; cbn [bind] in E; try discriminate E.
  destruct (cell (h4 h') (r_ip4s r)) as [x4| |] eqn:E4; cbn [bind] in E; try discriminate E.
  destruct (cell (h6 h') (r_ip6s r)) as [x6| |] eqn:E6; cbn [bind] in E; try discriminate E.
  assert (K : forall A (num : A -> Z * Z) cells q x, cell cells q = Ok x -> ResourcesSpec.content num cells q = [] -> sarray_empty x = true).
  { intros A num cells q x Hc Hn. unfold cell, ResourcesSpec.content in *. destruct q as [i|]; [|injection Hc as <-; reflexivity].
    destruct (nth_error cells i) as [sa|]; [|discriminate Hc]. injection Hc as <-. cbn [sarray_empty]. unfold sa_count. apply map_eq_nil in Hn. rewrite Hn. reflexivity. }
  destruct (holds4 h' r) eqn:Q4; [|left; discriminate]. destruct (holds6 h' r) eqn:Q6; [|right; left; discriminate]. destruct (holdsA h' r) eqn:QA; [|right; right; discriminate].
  exfalso. injection E as E. unfold rasn_empty, res4_empty, res6_empty in E.
  rewrite (K _ _ _ _ _ Ea QA), (K _ _ _ _ _ E4 Q4), (K _ _ _ _ _ E6 Q6) in E. discriminate E.
Qed.

Section Sound.
  Context (W : world) (S : sane W) (n0 : nat).
  Definition during (k : nat) : Prop := (n0 <= k)%nat.

  Lemma read_exts l : Forall raw_ok l -> Forall extension_ok (map (read_extension (w_nobuf W) (w_turns W)) l).
  Proof. intros F. apply Forall_map. eapply Forall_impl; [|exact F]. intros a H. apply read_ok; [apply S|exact H]. Qed.

  (** The resources of a certificate below the stack. *)
  Lemma resources_sound h s chain p f t rec c h' r : reachable (h, map me_resources s) -> rel h s chain ->
    Forall raw_ok (ct_resources c) -> Extensions.r_policy rec = Some p ->
    certificate_get_resources h (resources_create (policy_of p) f) (top_resources s) t (read_resources W c) = Ok (h', r, 0) ->
    ext_of h h' /\ res_ok h' r /\ holding W chain rec c (holds4 h' r) (holds6 h' r) (holdsA h' r).
  Proof.
    intros R L F P G. pose proof (read_exts _ F) as FE. fold (read_resources W c) in FE.
    destruct (reachable_ok _ R) as (Hh & Hs & Ho). cbn [fst snd] in *.
    pose proof (parent_of _ _ Hs) as Hp. rewrite peek_map in Hp.
    pose proof (cert_step h (top_resources s) (policy_of p) f t _ Hh Hp FE) as Q. rewrite G in Q. destruct Q as (_ & X & Hr & Hle). specialize (Hle eq_refl).
    split; [exact X|]. split; [exact Hr|].
    rewrite <- peek_map in G. destruct (C21_held _ _ _ _ _ _ _ _ R FE G) as (S4 & S6 & SA & Hsome). rewrite peek_map in *.
    assert (M : forall (hold : heap -> resources -> list (Z * Z)) (nh : node -> list (Z * Z)),
      (forall m a, relm h m a -> hold h (me_resources m) = nh a) -> option_map (hold h) (top_resources s) = option_map nh (hd_error chain)).
    { intros hold nh HH. destruct L as [|m a s0 chain0 Hm L]; [reflexivity|]. cbn. f_equal. auto. }
    assert (M4 := M holds4 n_ip4 ltac:(intros m a (_ & _ & ? & _); assumption)).
    assert (M6 := M holds6 n_ip6 ltac:(intros m a (_ & _ & _ & ? & _); assumption)).
    assert (MA := M holdsA n_as ltac:(intros m a (_ & _ & _ & _ & ?); assumption)).
    constructor.
    - exists p. split; [exact P|]. cbn zeta. fold (read_resources W c). split; [|split; [|split]]; [| | |exact Hsome].
      + destruct S4 as (A & B). split; [exact A|]. intros b Hb. specialize (B b Hb). destruct (f_choice b); auto; rewrite <- M4; auto.
        destruct B as (pa & -> & ->). reflexivity.
      + destruct S6 as (A & B). split; [exact A|]. intros b Hb. specialize (B b Hb). destruct (f_choice b); auto; rewrite <- M6; auto.
        destruct B as (pa & -> & ->). reflexivity.
      + destruct SA as (A & B). split; [exact A|]. intros b Hb. specialize (B b Hb). destruct b; auto; rewrite <- MA; auto.
        destruct B as (pa & -> & ->). reflexivity.
    - pose proof (ordered_ext _ _ _ X Hs Ho) as Ho'.
      assert (Hi : match peek_resources (map me_resources s) with Some pa => le_res h' r pa | None => True end) by (rewrite peek_map; exact Hle).
      pose proof (ordered_cons _ _ _ Ho' Hi) as Hall. pose proof (rel_ext _ _ _ _ X Hs L) as L'.
      intros a Ha. apply In_nth_error in Ha. destruct Ha as (j & Hj).
      assert (exists m, nth_error s j = Some m /\ relm h' m a) as (m & Hm & Hrel).
      { clear - L' Hj. revert j Hj. induction L'; intros [|j] Hj; cbn in *; try discriminate; [injection Hj as <-; eauto|eauto]. }
      specialize (Hall 0%nat (Datatypes.S j) r (me_resources m) ltac:(lia) eq_refl). cbn [nth_error] in Hall. rewrite nth_error_map, Hm in Hall. cbn in Hall.
      specialize (Hall eq_refl). destruct Hall as (Q4 & Q6 & QA). destruct Hrel as (_ & _ & <- & <- & <-). auto.
  Qed.

  (** RFC 6487. *)
  Lemma conforming_sound h s chain c t is_ta : rel h s chain ->
    (t = CertStack.CERTYPE_TA /\ is_ta = true) \/ ((t = CertStack.CERTYPE_CA \/ t = CertStack.CERTYPE_EE) /\ is_ta = false) ->
    validate_rfc6487 W s c t = Ok tt -> conforming W chain is_ta (ct c).
  Proof.
    intros L Ht V. unfold validate_rfc6487 in V. rewrite (rel_top _ _ _ L) in V.
    apply C72_sound in V; [|apply S]. destruct V as (V1 & V2 & V3 & V4 & V5 & V6 & k & V7 & V8 & V9).
    constructor; auto.
    - intros ->. destruct Ht as [[_ ?]|[Ht _]]; [discriminate|]. apply V6. destruct Ht as [->| ->]; discriminate.
    - exists k. split; [exact V7|]. split.
      + destruct Ht as [[-> _]|[[->| ->] _]]; exact V8.
      + intros ->. destruct Ht as [[-> _]|[_ ?]]; [|discriminate]. apply V9. reflexivity.
  Qed.
  Lemma chain_sound h s chain n crl c : rel h s chain -> during n -> certificate_validate_chain W n s (Some crl) c = Ok tt -> verified W during chain crl c.
  Proof.
    intros L D. unfold certificate_validate_chain. rewrite (rel_trusted _ _ _ L). intros V. exists n. split; [exact D|].
    destruct (w_verify W n (map n_cert chain) crl c); [left; reflexivity| |discriminate]. right. split; [reflexivity|].
    destruct (w_crl_stale W); cbn [incidence] in V; destruct (w_verify_stale W n (map n_cert chain) crl c) eqn:E; try discriminate V; split; try discriminate; reflexivity.
  Qed.

  (** A signed object. *)
  Lemma object_sound h s chain n n' u o crl oid f refs h' r : reachable (h, map me_resources s) -> rel h s chain -> during n -> during n' ->
    signed_object_decode W n u = Ok o -> validate_object W n' s h (Some crl) oid f o = Ok (refs, (h', r)) ->
    ext_of h h' /\ res_ok h' r /\
    exists b ee, w_read W n (u_local u) = inr b /\ signed_object_ok W during chain crl oid b (snd o) ee /\
      n_record ee = refs /\ n_ip4 ee = holds4 h' r /\ n_ip6 ee = holds6 h' r /\ n_as ee = holdsA h' r /\
      Forall (typed (w_nid W)) (x_extensions (ct (n_cert ee))) /\
      (exists p, ee_resources h (top_resources s) p f (read_resources W (n_cert ee)) = Ok (h', r, 0)) /\ Forall raw_ok (ct_resources (n_cert ee)) /\
      exists sid, validate_ee W s (n_cert ee) sid = Ok refs.
  Proof.
    intros R L D D' Hd Hv. unfold signed_object_decode in Hd. destruct (w_read W n (u_local u)) as [|b] eqn:Hb; [discriminate|].
    destruct (sa_file W S _ _ _ Hb) as (Bb & Fb & Zb).
    assert (Hread : read_signed_object (w_sha256 W) (w_hashalg W) (w_d2i_X509 W) (certificate_validate_chain W n' s (Some crl))
      (fun c => validate_rfc6487 W s c CertStack.CERTYPE_EE) (fun c sid => bind (validate_ee W s c sid) with_policy) (fun _ _ => Ok tt) (w_evp_verify W)
      (fun c p => bind (ee_resources h (top_resources s) (policy_of p) f (read_resources W c)) (fun '(h, r, error) =>
                  if error =? 0 then Ok (h, r) else Err EINVAL)) (w_slack W) (w_nobuf W) (w_turns W) oid (w_frames W) b = Ok (snd o, refs, (h', r))).
    { unfold read_signed_object, signed_object. destruct (content_info_decode _ b) as [c|e|]; cbn [bind] in *; try discriminate Hd.
      destruct (signed_data_decode _ _ _ _) as [sd|e|]; cbn [bind] in *; try discriminate Hd. injection Hd as <-.
      unfold validate_object in Hv. cbn [fst snd] in Hv. rewrite Hv. reflexivity. }
    apply C70_exact in Hread; [|exact Bb|apply S]. destruct Hread as (type & content & Hci & Hn & Hc & [K1 K2 K3 K4 (si & ski & attrs & c & A1 & A2 & A3 & A4 & A5 & A6 & A7 & A8 & A9 & x & pol & B1 & B2 & B3 & B4 & _ & B6 & B7)]).
    destruct (sa_ee W S _ _ _ B1) as (Tx & Rx).
    assert (Hcl : bytes content /\ (length content <= length b)%nat).
    { destruct (content_info_cases (0 :: w_slack W) (w_nobuf W) (w_turns W) b Bb (sa_turns W S)) as [E|(ty & c0 & E & _ & E1 & E2)]; rewrite E in Hci; [discriminate|].
      injection Hci as _ E3 _. apply app_inv_tail in E3. subst c0. auto. }
    destruct Hcl as (Bc & Lc).
    destruct (@signature_check (w_sha256 W) cert record (heap * resources) (w_d2i_X509 W) (fun _ => Ok tt) (fun _ => Ok tt) (fun _ _ => UB) (fun _ _ => Ok tt) (w_evp_verify W)
      (fun _ _ => UB) (w_slack W) (w_nobuf W) (w_turns W) content (snd o) x (si_signature si) (w_frames W)) as (_ & Hsig);
      [exact Bc|apply S|apply S|lia|lia|exact Hc|rewrite A1; discriminate|].
    destruct (Hsig B6) as (si' & sis & attrs' & m & Q1 & Q2 & Q3 & Q4). rewrite A1 in Q1. injection Q1 as <- <-. rewrite A5 in Q2. injection Q2 as <-.
    destruct (validate_ee W s x ski) as [rf|e|] eqn:Ve; cbn [bind] in B4; try discriminate B4. unfold with_policy in B4.
    destruct (Extensions.r_policy rf) as [pol'|] eqn:Ep; [|discriminate B4]. injection B4 as -> ->.
    destruct (ee_resources h (top_resources s) (policy_of pol) f (read_resources W x)) as [[[h1 r1] error]|e|] eqn:Er; cbn [bind] in B7; try discriminate B7.
    destruct (Z.eqb_spec error 0) as [->|]; [|discriminate B7]. injection B7 as -> ->.
    destruct (resources_sound h s chain pol f Resources.CERTYPE_EE refs x h' r R L Rx Ep Er) as (X & Hr & Hh).
    split; [exact X|]. split; [exact Hr|]. exists b, {| n_uri := u; n_cert := x; n_record := refs; n_ip4 := holds4 h' r; n_ip6 := holds6 h' r; n_as := holdsA h' r |}.
    split; [reflexivity|]. split; [|cbn [n_record n_ip4 n_ip6 n_as n_cert]; repeat (split; [solve [reflexivity|assumption|eauto]|]); eauto].
    assert (He : extensions_ok W EE chain ski (ct x) refs).
    { unfold extensions_ok. rewrite <- (rel_top _ _ _ L). unfold validate_ee in Ve.
      eapply (C71_sound (w_nid W) (sa_inj W S) _ _ _ _ _ _ _ _ (w_sha1 W) (w_J W) _ _ (sa_conf W S) EE); [exact Tx|exact Ve]. }
    constructor; cbn [n_record n_ip4 n_ip6 n_as n_cert]; auto.
    - exists type, content, si, ski, attrs, c, m. repeat (split; [solve [assumption]|]). assumption.
    - eapply chain_sound; eassumption.
    - eapply conforming_sound; eauto.
  Qed.

  Lemma view_list_length {A} (f : value -> option A) l r : view_list f l = Some r -> length r = length l.
  Proof.
    revert r. induction l as [|x l IH]; intros r H; cbn [view_list] in H; [injection H as <-; reflexivity|].
    destruct (f x); [|discriminate]. destruct (view_list f l) as [r'|]; [|discriminate]. injection H as <-. cbn. rewrite (IH r' eq_refl). reflexivity.
  Qed.
  Lemma manifest_length nobuf turns bs m : bytes bs -> (2 <= turns)%nat -> decode_manifest nobuf turns bs = Some m -> (length (m_files m) <= length bs)%nat.
  Proof.
    intros Hb Ht D. unfold decode_manifest in D. destruct (asn1_decode nobuf turns t_Manifest k_Manifest bs) as [v| | |] eqn:A; try discriminate D.
    apply accepted_longest in A; [|cbn; tauto|assumption..]. cbn [got] in D. unfold view_manifest in D.
    repeat match type of D with match ?x with _ => _ end = _ => first [is_var x; destruct x|destruct x eqn:?]; try discriminate D end.
    injection D as <-. cbn [m_files]. match goal with H : view_list view_fah _ = Some _ |- _ => apply view_list_length in H; rewrite H end.
    cbn [longest fold_right] in A. lia.
  Qed.

  Definition slot_ok (sl : crl_slot) (cu : rpki_uri) (crl : x509_crl) : Prop := cr_uri sl = Some (u_local cu) /\ cr_stack sl = Some crl.
  Definition pp_good (chain : list node) (p : pp) : Prop := exists cu crl, publishes W during chain (pp_files p) cu crl /\ slot_ok (pp_slot p) cu crl.

  Lemma crl_of_filled n s sl cu crl : slot_ok sl cu crl -> crl_of W n s (Some sl) = Ok (Some sl, Ok (Some crl)).
  Proof. intros (A & B). unfold crl_of, rpp_crl. rewrite A, B. reflexivity. Qed.
  Lemma crl_of_fresh n s path slot a : crl_of W n s (Some {| cr_uri := path; cr_stack := None; cr_error := None |}) = Ok (slot, Ok a) ->
    exists p c, path = Some p /\ a = Some c /\ slot = Some {| cr_uri := Some p; cr_stack := Some c; cr_error := None |} /\
      load_crl W n p = Some c /\ crl_validate (w_commonName W) (w_serialNumber W) (w_sha256WithRSA W) (w_nid W) (w_sha1 W) (top s) c = Ok tt.
  Proof.
    unfold crl_of, rpp_crl. cbn [cr_uri cr_stack cr_error]. destruct path as [p|]; [|discriminate]. unfold crl_load.
    destruct (load_crl W n p) as [c|] eqn:E; [|discriminate]. destruct (crl_validate _ _ _ _ _ _ c) as [[]| |] eqn:V; cbn [bind]; intros H; try discriminate H.
    injection H as <- <-. exists p, c. auto.
  Qed.
  Lemma validate_manifest_ok now stale m : validate_manifest now stale m = Ok 0 ->
    (m_version m = None \/ m_version m = Some (Some 0)) /\ (length (m_number m) <= 20)%nat /\ validate_dates (m_this m) (m_next m) now stale = Ok 0 /\ m_alg m = 0.
  Proof.
    unfold validate_manifest. intros H.
    assert (V : m_version m = None \/ m_version m = Some (Some 0)).
    { destruct (m_version m) as [[v|]|]; [|cbn in H; discriminate H|auto]. destruct (Z.eqb_spec v 0) as [Ev|]; [rewrite Ev; auto|cbn in H; discriminate H]. }
    assert (E : match m_version m with None => 0 | Some None => -22 | Some (Some v) => if negb (v =? 0) then -22 else 0 end = 0) by (destruct V as [->| ->]; reflexivity).
    rewrite E in H. cbn [negb Z.eqb] in H. destruct (Nat.ltb_spec 20 (length (m_number m))); [discriminate H|].
    destruct (validate_dates _ _ _ _) as [e0| |]; cbn [bind] in H; try discriminate H. destruct (Z.eqb_spec e0 0) as [Ev|N]; cbn [negb] in H; [|injection H as H; contradiction].
    injection H as H. subst e0. auto.
  Qed.

  Lemma ee_reachable h s p f exts h' r e : reachable (h, map me_resources s) -> Forall extension_ok exts ->
    ee_resources h (top_resources s) p f exts = Ok (h', r, e) -> reachable (h', map me_resources s).
  Proof.
    intros R F E. eapply (reach_step _ (OpEE p f exts)); [exact R|exact F|]. cbn [stack_step]. rewrite peek_map, E. reflexivity.
  Qed.

  Lemma hash_file_errno n p : hash_file W n p <> inl 0.
  Proof.
    unfold hash_file. pose proof (sa_errno W S n p) as E. destruct (w_read W n p) as [e|b]; [congruence|]. destruct (w_sha256 W b); discriminate.
  Qed.

  Lemma econtent_facts chain crl oid n u b sd ee body : w_read W n u = inr b -> signed_object_ok W during chain crl oid b sd ee -> sd_econtent sd = Some body ->
    bytes body /\ Z.of_nat (length body) <= 2147483647.
  Proof.
    intros Hb [(type & content & si & ski & attrs & c & m & A & _ & C & _) _ _ _ _ _ _ _] Q. destruct (sa_file W S _ _ _ Hb) as (Bb & _).
    assert (bytes content) as Bc.
    { destruct (content_info_cases (0 :: w_slack W) (w_nobuf W) (w_turns W) b Bb (sa_turns W S)) as [E|(ty & c0 & E & _ & E1 & E2)]; rewrite E in A; [discriminate A|].
      injection A as _ E3 _. apply app_inv_tail in E3. subst c0. auto. }
    pose proof (contains_small _ _ _ _ _ Bc (sa_turns W S) C Q) as Sm. unfold Asn1DecSpec.small in Sm. split; [|lia].
    destruct (@holds_encoding (w_sha256 W) cert (w_d2i_X509 W) (w_slack W) (w_nobuf W) (w_turns W) content sd Bc (sa_turns W S) C) as ((_ & _ & _ & B4 & _) & _). rewrite Q in B4. exact B4.
  Qed.

  Lemma manifest_sound h s a rest n mft notif h' p : reachable (h, map me_resources s) -> rel h s (a :: rest) -> during n ->
    r_mft (n_record a) = Some mft ->
    (forall nu, notif = Some nu -> In nu (r_rpp (n_record a)) /\ u_type nu = UT_HTTPS) ->
    handle_manifest W n s h mft notif = Ok (h', p) ->
    ext_of h h' /\ reachable (h', map me_resources s) /\ pp_good (a :: rest) p.
  Proof.
    intros R L D M N H. unfold handle_manifest in H.
    destruct (cage W mft notif) as [uri| |] eqn:Hcage; cbn [bind] in H; try discriminate H.
    destruct (signed_object_decode W n uri) as [o| |] eqn:Hdec; cbn [bind] in H; try discriminate H.
    destruct (sd_econtent (snd o)) as [body|] eqn:Hbody; [|discriminate H].
    destruct (decode_manifest (w_nobuf W) (w_turns W) body) as [m|] eqn:Hm; [|discriminate H].
    destruct (build_rpp _ _ _ _ _ _ _ _ _ _) as [files| |] eqn:Hbuild; cbn [bind] in H; try discriminate H.
    destruct (crl_of W (n + 2) s _) as [[slot crl]| |] eqn:Hcrl; cbn [bind] in H; try discriminate H.
    destruct crl as [crl| |]; cbn [bind] in H; try discriminate H.
    destruct (validate_object W (n + 3) s h crl OID_MANIFEST false o) as [[refs [h1 r]]| |] eqn:Hobj; cbn [bind] in H; try discriminate H.
    destruct (validate_manifest _ _ m) as [e| |] eqn:Hval; cbn [bind] in H; try discriminate H.
    destruct (Z.eqb_spec e 0) as [->|]; cbn [negb] in H; [|discriminate H].
    destruct (refs_validate_ee refs _ _) as [[]| |] eqn:Hrefs; cbn [bind] in H; try discriminate H.
    apply crl_of_fresh in Hcrl. destruct Hcrl as (path & c & Hpath & -> & -> & Hload & Hcv). injection H as -> <-.
    destruct (pp_crl files) as [cu|] eqn:Hcu; [|discriminate Hpath]. injection Hpath as <-.
    assert (D1 : during (n + 1)) by (unfold during in *; lia). assert (D2 : during (n + 2)) by (unfold during in *; lia).
    assert (D3 : during (n + 3)) by (unfold during in *; lia). assert (D4 : during (n + 4)) by (unfold during in *; lia).
    destruct (object_sound h s (a :: rest) n (n + 3)%nat uri o c OID_MANIFEST false refs h' r R L D D3 Hdec Hobj)
      as (X & Hr & b & ee & Hb & Hso & <- & _ & _ & _ & Tee & (pol & Hres) & Ree & (sid & Hee)).
    split; [exact X|]. split; [eapply ee_reachable; [exact R| |exact Hres]; apply read_exts; exact Ree|].
    exists cu, c. split; [|split; reflexivity]. cbn [pp_files].
    destruct (econtent_facts _ _ _ _ _ _ _ _ _ Hb Hso Hbody) as (Bbody & Zbody).
    pose proof (manifest_length _ _ _ _ Bbody (sa_turns W S) Hm) as Hlen.
    assert (Hne : m_files m <> []) by (intros E; rewrite E in Hbuild; discriminate Hbuild).
    destruct (C41_sound (w_J W) (w_repository W) (w_tal W) (option_map u_global notif) (hash_file W (n + 1)) (w_not_found W) (w_not_match W) uri (w_rnd W (n + 1)) (m_files m) files
                (hash_file_errno (n + 1)) Hne ltac:(lia) Hbuild) as (us & cu' & F2 & Hcu' & Hsub & K1 & K2 & K3).
    rewrite Hcu in Hcu'. injection Hcu' as <-.
    destruct (validate_manifest_ok _ _ _ Hval) as (V1 & V2 & V3 & V4).
    unfold load_crl in Hload. destruct (w_read W (n + 2) (u_local cu)) as [|bc] eqn:Hbc; [discriminate Hload|].
    destruct (C73_crl_sound _ _ _ (w_nid W) (sa_inj W S) (w_sha1 W) _ _ (sa_crl W S _ _ Hload) Hcv) as (Q1 & Q2 & _ & Q3 & Q4).
    constructor.
    - exists a, rest, mft, notif, uri, b, (snd o), ee, body, m, (n + 1)%nat, us, (n + 4)%nat.
      split; [reflexivity|]. split; [exact M|]. split.
      { unfold cage in Hcage. destruct notif as [nu|]; [|injection Hcage as <-; reflexivity]. destruct (N nu eq_refl). auto. }
      split; [exists n; auto|]. split; [exact Hso|]. split.
      { unfold crl_uri in Hrefs. rewrite Hcu in Hrefs. cbn [option_map] in Hrefs. unfold validate_ee in Hee.
        destruct (C71_ee_references (w_nid W) (sa_inj W S) _ 0 0 0 _ _ _ _ _ _ _ _ (sa_conf W S) _ _ _ _ _ (u_global cu) (u_global uri) Tee Hee) as (_ & Hiff).
        apply Hiff in Hrefs. destruct Hrefs as (R1 & R2). split; assumption. }
      repeat (split; [solve [assumption]|]). assumption.
    - exists bc. split; [exists (n + 2)%nat; auto|exact Hload].
    - split; [exact Q1|]. split; [exact Q2|]. split; [exact Q3|]. rewrite <- (rel_top _ _ _ L). exact Q4.
  Qed.

  Context (root : rpki_uri).
  Notation authorised := (authorised W during root).
  Definition grown (db db' : db_table) : Prop := forall v, roas_of db' v -> roas_of db v \/ authorised v.
  Lemma grown_refl db : grown db db.
  Proof. intros v H. auto. Qed.
  Lemma grown_trans a b c : grown a b -> grown b c -> grown a c.
  Proof. intros H K v Hv. destruct (K v Hv) as [K1|K1]; auto. Qed.

  Lemma rel_in h s chain a : rel h s chain -> In a chain -> exists m, In m s /\ relm h m a.
  Proof. intros L. induction L as [|m a0 s chain H L IH]; cbn; [contradiction|]. intros [->|Ha]; [eauto|]. destruct (IH Ha) as (m' & ? & ?). eauto. Qed.

  Lemma roa_sound h s chain n p u db h' db' ok : reachable (h, map me_resources s) -> rel h s chain -> during n ->
    valid W during root chain -> pp_good chain p -> In u (pp_roas (pp_files p)) ->
    roa_traverse W n s p u h db = Ok (h', db', ok) ->
    ext_of h h' /\ reachable (h', map me_resources s) /\ grown db db'.
  Proof.
    intros R L D V (cu & crl & Hp & Hs) Hu H. unfold roa_traverse in H.
    set (before := bind (signed_object_decode W n u) _) in H.
    destruct before as [[roa [refs [h1 r]]]|e|] eqn:Hb; [|injection H as <- <- <-; split; [apply ext_refl|]; split; [exact R|apply grown_refl]|discriminate H].
    subst before. destruct (signed_object_decode W n u) as [o| |] eqn:Hdec; cbn [bind] in Hb; try discriminate Hb.
    destruct (sd_econtent (snd o)) as [body|] eqn:Hbody; [|discriminate Hb].
    destruct (decode_roa (w_nobuf W) (w_turns W) body) as [roa'|] eqn:Hroa; [|discriminate Hb].
    rewrite (crl_of_filled _ _ _ _ _ Hs) in Hb. cbn [bind] in Hb.
    destruct (validate_object W (n + 1) s h (Some crl) OID_ROA false o) as [[refs' [h1' r']]| |] eqn:Hobj; cbn [bind] in Hb; try discriminate Hb.
    injection Hb as -> -> -> ->.
    assert (D1 : during (n + 1)) by (unfold during in *; lia).
    destruct (object_sound h s chain n (n + 1)%nat u o crl OID_ROA false refs h1 r R L D D1 Hdec Hobj)
      as (X & Hr & b & ee & Hbb & Hso & _ & E4 & E6 & _ & _ & (pol & Hres) & Ree & _).
    pose proof (read_exts _ Ree) as Fee. destruct (econtent_facts _ _ _ _ _ _ _ _ _ Hbb Hso Hbody) as (Bbody & _).
    assert (R1 : reachable (h1, map me_resources s)) by (eapply ee_reachable; [exact R|exact Fee|exact Hres]).
    rewrite <- peek_map in Hres.
    destruct (C68_any_bytes (w_nobuf W) (w_turns W) h (map me_resources s) pol false _ h1 r db body (sa_turns W S) Bbody R Fee Hres) as (db1 & e & Hcontent & _ & Hall).
    unfold roa_content in Hcontent. rewrite Hroa in Hcontent, Hall. rewrite Hcontent in H. cbn [bind] in H. destruct Hall as (_ & _ & Hall).
    assert (G : h' = h1 /\ db' = db1).
    { destruct (negb (e =? 0)); [injection H as <- <- _; auto|]. destruct (refs_validate_ee _ _ _); try discriminate H; injection H as <- <- _; auto. }
    destruct G as (-> & ->). split; [exact X|]. split; [exact R1|].
    intros v Hv. destruct (Hall v Hv) as [|(A1 & A2 & A3 & A4 & A5 & A6)]; [auto|]. right. exists chain, u, cu, ee. exists (pp_files p), crl, b, (snd o), body, roa.
    split; [exact V|]. split; [exact Hp|]. split; [exact Hu|]. split; [exists n; auto|]. split; [exact Hso|].
    repeat (split; [solve [assumption]|]). split; [rewrite E4, E6; exact A5|].
    intros a Ha. destruct (rel_in _ _ _ _ L Ha) as (m & Hm & (_ & _ & <- & <- & _)). apply A6. apply in_map. exact Hm.
  Qed.

  Lemma roa_loop_sound s chain p : valid W during root chain -> pp_good chain p -> forall l n h db h' db',
    reachable (h, map me_resources s) -> rel h s chain -> during n -> (forall u, In u l -> In u (pp_roas (pp_files p))) ->
    roa_loop W n s p l h db = Ok (h', db') ->
    ext_of h h' /\ reachable (h', map me_resources s) /\ grown db db'.
  Proof.
    intros V Hp. induction l as [|u l IH]; intros n h db h' db' R L D Hl H; cbn [roa_loop] in H.
    - injection H as <- <-. split; [apply ext_refl|]. split; [exact R|apply grown_refl].
    - destruct (roa_traverse W n s p u h db) as [[[h1 db1] ok]| |] eqn:H1; cbn [bind] in H; try discriminate H.
      destruct (roa_sound h s chain n p u db h1 db1 ok R L D V Hp (Hl u (or_introl eq_refl)) H1) as (X & R1 & G).
      destruct (reachable_ok _ R) as (_ & Hs & _). cbn [fst snd] in Hs.
      destruct (IH (n + 2)%nat h1 db1 h' db' R1 (rel_ext _ _ _ _ X Hs L) ltac:(unfold during in *; lia) (fun u Hu => Hl u (or_intror Hu)) H) as (X' & R' & G').
      split; [eapply ext_trans; eassumption|]. split; [exact R'|eapply grown_trans; eassumption].
  Qed.

  (** The deferred certificates, against the path. *)
  Inductive defers_ok : list defer -> list node -> Prop :=
  | defers_nil chain : defers_ok [] chain
  | defers_separator d chain : defers_ok d (tl chain) -> defers_ok (Separator :: d) chain
  | defers_deferred p u d chain : valid W during root chain -> pp_good chain p -> In u (pp_certs (pp_files p)) -> defers_ok d chain ->
      defers_ok (Deferred p u :: d) chain.
  Definition inv (db0 : db_table) (s : state) : Prop := exists chain,
    rel (s_heap s) (s_stack s) chain /\ reachable (s_heap s, map me_resources (s_stack s)) /\ defers_ok (s_defers s) chain /\
    during (s_clock s) /\ grown db0 (s_db s).

  Lemma rpp_traverse_sound db0 n s p s' chain : rel (s_heap s) (s_stack s) chain -> reachable (s_heap s, map me_resources (s_stack s)) ->
    defers_ok (s_defers s) chain -> during n -> grown db0 (s_db s) -> valid W during root chain -> pp_good chain p ->
    rpp_traverse W n s p = Ok s' -> inv db0 s'.
  Proof.
    intros L R Df D G V Hp H. unfold rpp_traverse in H.
    destruct (roa_loop W n (s_stack s) p (pp_roas (pp_files p)) (s_heap s) (s_db s)) as [[h db]| |] eqn:Hl; cbn [bind] in H; try discriminate H.
    injection H as <-. destruct (roa_loop_sound _ _ _ V Hp _ _ _ _ _ _ R L D (fun u Hu => Hu) Hl) as (X & R' & G').
    destruct (reachable_ok _ R) as (_ & Hs & _). cbn [fst snd] in Hs.
    exists chain. cbn [s_heap s_stack s_defers s_clock s_db]. split; [eapply rel_ext; eassumption|]. split; [exact R'|]. split; [|split; [unfold during in *; lia|eapply grown_trans; eassumption]].
    assert (F : Forall (fun u => In u (pp_certs (pp_files p))) (rev (pp_certs (pp_files p)))) by (apply Forall_forall; intros u Hu; apply in_rev; exact Hu).
    revert F Df. generalize (rev (pp_certs (pp_files p))). intros l F. generalize (s_defers s). induction F as [|u l Hu F IH]; intros d Df; cbn [fold_left]; [exact Df|].
    apply IH. constructor; assumption.
  Qed.

  (** A certificate that is pushed continues the path. *)
  Lemma push_sound parent u s chain sl crl c t r downloaded pol h1 rs :
    rel (s_heap s) (s_stack s) chain -> reachable (s_heap s, map me_resources (s_stack s)) -> during (s_clock s) ->
    match parent with
    | None => chain = [] /\ u = root /\ ends_with (u_global root) (cstr ".cer")
    | Some p => valid W during root chain /\ pp_good chain p /\ In u (pp_certs (pp_files p))
    end ->
    (length (s_stack s) < w_max_depth W)%nat ->
    crl_of W (s_clock s) (s_stack s) (option_map pp_slot parent) = Ok (sl, Ok crl) ->
    certificate_load W (s_clock s) u = Ok c ->
    certificate_validate_chain W (s_clock s + 1) (s_stack s) crl c = Ok tt ->
    get_certificate_type c (match parent with None => true | Some _ => false end) = Ok t ->
    t <> CertStack.CERTYPE_BGPSEC -> validate_rfc6487 W (s_stack s) c t = Ok tt ->
    match parent with None => validate_ta W c | Some p => validate_ca W (s_stack s) (crl_uri (pp_files p)) c end = Ok r ->
    download_rpp W (s_clock s + 2) (r_rpp r) = Some downloaded ->
    Extensions.r_policy r = Some pol ->
    init_resources (s_heap s) (top_resources (s_stack s)) (policy_of pol) (match parent with None => Resources.CERTYPE_TA | Some _ => Resources.CERTYPE_CA end) (read_resources W c) = Ok (h1, rs, 0) ->
    let a := {| n_uri := u; n_cert := c; n_record := r; n_ip4 := holds4 h1 rs; n_ip6 := holds6 h1 rs; n_as := holdsA h1 rs |} in
    let stack1 := {| me_uri := u; me_cert := c; me_resources := rs |} :: s_stack s in
    rel h1 stack1 (a :: chain) /\ reachable (h1, map me_resources stack1) /\ valid W during root (a :: chain) /\
    forall nu, (match u_type downloaded with UT_HTTPS => Some downloaded | _ => None end) = Some nu -> In nu (r_rpp (n_record a)) /\ u_type nu = UT_HTTPS.
  Proof.
    intros L R D Hpar Hdepth Hcrl Hload Hchain Ht N1 Hprof Hexts Hdown Epol Hinit a stack1. set (n := s_clock s) in *.
    assert (Htype : match parent with None => t = CertStack.CERTYPE_TA | Some _ => ct_purpose c = true /\ ((t = CertStack.CERTYPE_CA /\ ct_ca c = true) \/ t = CertStack.CERTYPE_BGPSEC) end).
    { unfold get_certificate_type in Ht. destruct parent; [|injection Ht as <-; reflexivity]. destruct (ct_purpose c); cbn [negb] in Ht; [|discriminate Ht]. split; [reflexivity|].
      destruct (ct_ca c); [injection Ht as <-; auto|]. destruct (ct_router c); [injection Ht as <-; auto|discriminate Ht]. }
    unfold certificate_load in Hload. destruct (w_read W n (u_local u)) as [|bytes0] eqn:Hread; [discriminate Hload|].
    destruct (w_load_X509 W bytes0) as [c'|] eqn:Hx; [|discriminate Hload]. injection Hload as ->.
    destruct (sa_cert W S _ _ Hx) as (Tc & Rc). pose proof (read_exts _ Rc) as Fc.
    set (ty := match parent with None => Resources.CERTYPE_TA | Some _ => Resources.CERTYPE_CA end) in *.
    pose proof (init_inv _ _ _ _ _ _ _ _ Hinit) as (e0 & Hget & He0).
    destruct (reachable_ok _ R) as (Hheap & Hst & Hord). cbn [fst snd] in Hheap, Hst, Hord.
    assert (Hx1 : ext_of (s_heap s) h1).
    { pose proof (parent_of _ _ Hst) as Hpo. rewrite peek_map in Hpo.
      pose proof (cert_step (s_heap s) (top_resources (s_stack s)) (policy_of pol) false ty _ Hheap Hpo Fc) as Q. unfold read_resources in Hget. rewrite Hget in Q. apply Q. }
    assert (Rstep : reachable (h1, rs :: map me_resources (s_stack s))).
    { eapply (reach_step _ (OpPush (policy_of pol) ty (read_resources W c))); [exact R|exact Fc|]. cbn [stack_step]. rewrite peek_map, Hinit. reflexivity. }
    assert (Hget0 : e0 = 0) by (apply He0; reflexivity). subst e0.
    destruct (resources_sound _ _ chain pol false ty r c h1 rs R L Rc Epol Hget) as (_ & Hrs & Hold).
    assert (L1 : rel h1 stack1 (a :: chain)).
    { constructor; [|eapply rel_ext; eassumption]. unfold relm. cbn. auto. }
    assert (Hfile : file W during u bytes0) by (exists n; auto).
    split; [exact L1|]. split; [exact Rstep|]. split.
    { destruct parent as [p|].
      - destruct Hpar as (V & (cu & crl0 & Hp & Hs) & Hu). destruct Htype as (Hpurp & [(-> & Hca)|Hbg]); [|contradiction].
        cbn [option_map] in Hcrl. rewrite (crl_of_filled _ _ _ _ _ Hs) in Hcrl. injection Hcrl as <- <-.
        assert (Hcu : crl_uri (pp_files p) = Some (u_global cu)).
        { destruct (pu_manifest _ _ _ _ _ _ Hp) as (? & ? & ? & ? & ? & ? & ? & ? & ? & ? & ? & ? & ? & Hall). unfold crl_uri.
          destruct Hall as (_ & _ & _ & _ & _ & _ & _ & _ & _ & _ & _ & _ & _ & _ & _ & -> & _). reflexivity. }
        unfold validate_ca in Hexts. rewrite Hcu in Hexts.
        destruct (C71_ca_references (w_nid W) (sa_inj W S) (w_ca_issuers W) (w_caRepository W) (w_ad_notify W) (w_ad_mft W) 0 (w_certPolicyRpki W) (w_certPolicyRpkiV2 W) (w_qt_cps W)
                    (w_sha1 W) (w_J W) (w_repository W) (w_tal W) (sa_conf W S) (key_of (ct c)) (option_map key_of (top (s_stack s))) (x_extensions (ct c)) (u_global cu) Tc) as (_ & Hiff).
        apply Hiff in Hexts. destruct Hexts as (Hca' & Hcrldp).
        eapply valid_ca with (crl := crl0) (cu := cu) (files := pp_files p); cbn [a n_uri n_cert n_record n_ip4 n_ip6 n_as]; [exact V|exact Hp|exact Hu|exact Hfile|exact Hx| |exact Hpurp|exact Hca| | |exact Hcrldp|exact Hold|].
        + eapply (chain_sound _ _ _ (n + 1)%nat); [exact L|unfold during in *; lia|exact Hchain].
        + eapply conforming_sound; [exact L| |exact Hprof]. auto.
        + unfold extensions_ok. rewrite <- (rel_top _ _ _ L).
          eapply (C71_sound (w_nid W) (sa_inj W S) _ _ _ _ (w_ad_so W) _ _ _ (w_sha1 W) (w_J W) _ _ (sa_conf W S) ExtensionsSpec.CA); [exact Tc|exact Hca'].
        + rewrite <- (rel_length _ _ _ L). exact Hdepth.
      - destruct Hpar as (-> & -> & Hend). subst t.
        eapply valid_ta; cbn [a n_uri n_cert n_record n_ip4 n_ip6 n_as]; [exact Hend|reflexivity|exact Hfile|exact Hx| | |exact Hold| |lia].
        + eapply conforming_sound; [exact L| |exact Hprof]. auto.
        + eapply (C71_sound (w_nid W) (sa_inj W S) (w_ca_issuers W) _ _ _ (w_ad_so W) _ _ _ (w_sha1 W) (w_J W) _ _ (sa_conf W S) TrustAnchor); [exact Tc|exact Hexts].
        + eapply init_ta_nonempty; exact Hinit. }
    intros nu Hnu. destruct (u_type downloaded) eqn:Et; try discriminate Hnu. injection Hnu as <-. split; [|exact Et]. unfold download_rpp in Hdown. cbn [a n_record].
    destruct (r_rpp r) as [|x l]; [discriminate Hdown|]. destruct (w_download W (n + 2) (x :: l)); [|discriminate Hdown]. eapply nth_error_In; exact Hdown.
  Qed.

  Lemma traverse_sound db0 parent u s s' b chain : rel (s_heap s) (s_stack s) chain -> reachable (s_heap s, map me_resources (s_stack s)) ->
    defers_ok (s_defers s) chain -> during (s_clock s) -> grown db0 (s_db s) ->
    match parent with
    | None => chain = [] /\ u = root /\ ends_with (u_global root) (cstr ".cer")
    | Some p => valid W during root chain /\ pp_good chain p /\ In u (pp_certs (pp_files p))
    end ->
    certificate_traverse W parent u s = Ok (s', b) -> inv db0 s'.
  Proof.
    intros L R Df D G Hpar H. unfold certificate_traverse in H. cbn zeta in H. cbn [s_defers s_stack s_heap s_db s_clock] in H.
    set (n := s_clock s) in *.
    assert (I0 : inv db0 {| s_defers := s_defers s; s_stack := s_stack s; s_heap := s_heap s; s_db := s_db s; s_clock := n + 8 |}).
    { exists chain. cbn. repeat (split; [assumption|]). split; [unfold during in *; lia|assumption]. }
    set (s0 := {| s_defers := s_defers s; s_stack := s_stack s; s_heap := s_heap s; s_db := s_db s; s_clock := n + 8 |}) in *.
    destruct (Nat.leb_spec (w_max_depth W) (length (s_stack s))) as [|Hdepth]; [injection H as <- _; exact I0|].
    destruct (crl_of W n (s_stack s) (option_map pp_slot parent)) as [[sl crl]| |] eqn:Hcrl; cbn [bind] in H; try discriminate H.
    destruct crl as [crl| |]; cbn [attempt] in H; [|injection H as <- _; exact I0|discriminate H].
    destruct (certificate_load W n u) as [c| |] eqn:Hload; cbn [attempt] in H; [|injection H as <- _; exact I0|discriminate H].
    destruct (certificate_validate_chain W (n + 1) (s_stack s) crl c) as [[]| |] eqn:Hchain; cbn [attempt] in H; [|injection H as <- _; exact I0|discriminate H].
    destruct (get_certificate_type c _) as [t| |] eqn:Ht; cbn [attempt] in H; [|injection H as <- _; exact I0|discriminate H].
    assert (Htype : match parent with None => t = CertStack.CERTYPE_TA | Some _ => ct_purpose c = true /\ ((t = CertStack.CERTYPE_CA /\ ct_ca c = true) \/ t = CertStack.CERTYPE_BGPSEC) end).
    { unfold get_certificate_type in Ht. destruct parent; [|injection Ht as <-; reflexivity]. destruct (ct_purpose c); cbn [negb] in Ht; [|discriminate Ht]. split; [reflexivity|].
      destruct (ct_ca c); [injection Ht as <-; auto|]. destruct (ct_router c); [injection Ht as <-; auto|discriminate Ht]. }
    assert (K : t = CertStack.CERTYPE_BGPSEC \/ t = CertStack.CERTYPE_EE \/ t = CertStack.CERTYPE_TA \/ t = CertStack.CERTYPE_CA) by (destruct t; auto).
    assert (Hcont : (t <> CertStack.CERTYPE_BGPSEC /\ t <> CertStack.CERTYPE_EE -> inv db0 s') -> inv db0 s').
    { intros K1. destruct K as [->|[->|K]]; [injection H as <- _; exact I0..|]. apply K1. destruct K as [->| ->]; split; discriminate. }
    apply Hcont. intros (N1 & N2). clear Hcont K.
    match type of H with match t with _ => _ end = _ => idtac end.
    match type of H with match t with CertStack.CERTYPE_TA => ?body | _ => _ end = _ => assert (H' : body = Ok (s', b)) by (destruct t; congruence) end.
    clear H. rename H' into H.
    destruct (validate_rfc6487 W (s_stack s) c t) as [[]| |] eqn:Hprof; cbn [attempt] in H; [|injection H as <- _; exact I0|discriminate H].
    set (exts := match parent with None => validate_ta W c | Some p => validate_ca W (s_stack s) (crl_uri (pp_files p)) c end) in H.
    destruct exts as [r| |] eqn:Hexts; cbn [attempt] in H; [|injection H as <- _; exact I0|discriminate H]. subst exts.
    destruct (download_rpp W (n + 2) (r_rpp r)) as [downloaded|] eqn:Hdown; [|injection H as <- _; exact I0].
    destruct (with_policy r) as [[r0 policy]| |] eqn:Hpol; cbn [bind] in H; try discriminate H.
    unfold with_policy in Hpol. destruct (Extensions.r_policy r) as [pol|] eqn:Epol; [|discriminate Hpol]. injection Hpol as <- <-.
    destruct (init_resources _ _ _ _ _) as [[[h1 rs] error]| |] eqn:Hinit; cbn [bind] in H; try discriminate H.
    set (ty := match parent with None => Resources.CERTYPE_TA | Some _ => Resources.CERTYPE_CA end) in *.
    assert (Fc : Forall extension_ok (read_resources W c)).
    { pose proof Hload as Hl. unfold certificate_load in Hl. destruct (w_read W n (u_local u)) as [|bytes0]; [discriminate Hl|].
      destruct (w_load_X509 W bytes0) as [c'|] eqn:Hx; [|discriminate Hl]. injection Hl as ->. apply read_exts. apply (sa_cert W S _ _ Hx). }
    pose proof (init_inv _ _ _ _ _ _ _ _ Hinit) as (e0 & Hget & He0).
    destruct (reachable_ok _ R) as (Hheap & Hst & Hord). cbn [fst snd] in Hheap, Hst, Hord.
    assert (Hx1 : ext_of (s_heap s) h1).
    { pose proof (parent_of _ _ Hst) as Hpo. rewrite peek_map in Hpo.
      pose proof (cert_step (s_heap s) (top_resources (s_stack s)) (policy_of pol) false ty _ Hheap Hpo Fc) as Q. rewrite Hget in Q. apply Q. }
    destruct (Z.eqb_spec error 0) as [Ez|Nz]; cbn [negb] in H.
    2:{ injection H as <- _. exists chain. cbn. split; [eapply rel_ext; eassumption|]. split; [|split; [exact Df|split; [unfold during in *; lia|exact G]]].
        eapply (reach_step _ (OpPush (policy_of pol) ty (read_resources W c))); [exact R|exact Fc|]. cbn [stack_step]. rewrite peek_map, Hinit. cbn [bind]. destruct (Z.eqb_spec error 0); [contradiction|reflexivity]. }
    subst error.
    destruct (r_mft r) as [mft|] eqn:Hmft; [|discriminate H].
    destruct (push_sound parent u s chain sl crl c t r downloaded pol h1 rs L R D Hpar Hdepth Hcrl Hload Hchain Ht N1 Hprof Hexts Hdown Epol Hinit) as (L1 & Rstep & V1 & N).
    set (a := {| n_uri := u; n_cert := c; n_record := r; n_ip4 := holds4 h1 rs; n_ip6 := holds6 h1 rs; n_as := holdsA h1 rs |}) in *.
    set (stack1 := {| me_uri := u; me_cert := c; me_resources := rs |} :: s_stack s) in *.
    destruct (handle_manifest W (n + 3) stack1 h1 mft _) as [[h2 p]| |] eqn:Hman; [| |discriminate H].
    - destruct (manifest_sound h1 stack1 a chain (n + 3)%nat mft _ h2 p Rstep L1 ltac:(unfold during in *; lia) Hmft N Hman) as (X2 & R2 & Hgood).
      destruct (rpp_traverse W (n + 8) _ p) as [s1| |] eqn:Hrpp; cbn [bind] in H; try discriminate H. injection H as <- _.
      destruct (reachable_ok _ Rstep) as (_ & Hst1 & _). cbn [fst snd] in Hst1.
      eapply (rpp_traverse_sound db0 (n + 8)%nat _ p s1 (a :: chain)); [| | | | |exact V1|exact Hgood|exact Hrpp]; cbn [s_heap s_stack s_defers s_db].
      + eapply rel_ext; [exact X2|exact Hst1|exact L1].
      + exact R2.
      + constructor. exact Df.
      + unfold during in *; lia.
      + exact G.
    - injection H as <- _. exists chain. cbn [s_heap s_stack s_defers s_db s_clock tl stack1].
      split; [eapply rel_ext; eassumption|]. split; [eapply (reach_step _ OpPop); [exact Rstep|exact I|reflexivity]|].
      split; [exact Df|]. split; [unfold during in *; lia|exact G].
  Qed.

  Lemma rel_tl h s chain : rel h s chain -> rel h (tl s) (tl chain).
  Proof. intros L. destruct L; [constructor|assumption]. Qed.
  Lemma pop_sound h : forall d stack chain stack' o, rel h stack chain -> reachable (h, map me_resources stack) -> defers_ok d chain ->
    pop_loop d stack = Ok (stack', o) ->
    exists chain', rel h stack' chain' /\ reachable (h, map me_resources stack') /\
      match o with
      | None => True
      | Some (p, u, d') => valid W during root chain' /\ pp_good chain' p /\ In u (pp_certs (pp_files p)) /\ defers_ok d' chain'
      end.
  Proof.
    induction d as [|[|p u] d IH]; intros stack chain stack' o L R Df H; cbn [pop_loop] in H.
    - injection H as <- <-. exists chain. auto.
    - destruct stack as [|m stack]; [discriminate H|]. inversion Df; subst. eapply (IH _ (tl chain)); [|eapply (reach_step _ OpPop); [exact R|exact I|reflexivity]|eassumption|exact H].
      apply rel_tl in L. exact L.
    - injection H as <- <-. inversion Df; subst. exists chain. auto 10.
  Qed.
  Lemma loop_sound db0 : forall fuel s db, inv db0 s -> tal_loop W fuel s = Some (Ok db) -> grown db0 db.
  Proof.
    induction fuel as [|fuel IH]; intros s db (chain & L & R & Df & D & G) H; cbn [tal_loop] in H; [discriminate H|].
    destruct (pop_loop (s_defers s) (s_stack s)) as [[stack [[[p u] d]|]]| |] eqn:P; try discriminate H; [|injection H as <-; exact G].
    destruct (pop_sound _ _ _ _ _ _ L R Df P) as (chain' & L' & R' & V & Hp & Hu & Df').
    destruct (certificate_traverse W (Some p) u _) as [[s1 b]| |] eqn:T; try discriminate H.
    apply (IH s1 db); [|exact H]. eapply (traverse_sound db0 (Some p) u _ s1 b chain'); [| | | | | |exact T]; cbn [s_heap s_stack s_defers s_db s_clock]; auto.
  Qed.
End Sound.

Theorem tree_sound W fuel n u db db' b : sane W -> handle_tal_uri W fuel n u db = Some (Ok (db', b)) ->
  forall v, roas_of db' v -> roas_of db v \/ authorised W (fun k => (n <= k)%nat) u v.
Proof.
  intros S H. change (grown W n u db db'). unfold handle_tal_uri in H.
  destruct (str_ends_with (u_global u) (cstr ".cer")) eqn:Hend; cbn [negb] in H; [|injection H as <- _; apply grown_refl].
  assert (I : forall s b, certificate_traverse W None u (create n db) = Ok (s, b) -> inv W n u db s).
  { intros s b0 T. eapply (traverse_sound W S n u db None u _ s b0 []); [| | | | | |exact T]; unfold create; cbn [s_heap s_stack s_defers s_db s_clock].
    - constructor.
    - constructor.
    - constructor.
    - unfold during. lia.
    - apply grown_refl.
    - split; [reflexivity|]. split; [reflexivity|]. apply ends_with_iff. exact Hend. }
  destruct (certificate_traverse W None u (create n db)) as [[s b0]| |] eqn:T; try discriminate H. specialize (I s b0 eq_refl).
  destruct b0.
  - destruct (tal_loop W fuel s) as [[db1| |]|] eqn:Tl; try discriminate H. injection H as -> _. eapply loop_sound; eassumption.
  - injection H as <- _. destruct I as (chain & _ & _ & _ & _ & G). exact G.
Qed.
