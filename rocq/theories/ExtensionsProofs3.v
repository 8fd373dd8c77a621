From Coq Require Import Lia String.
From Verif Require Import Base BaseLemmas CString PathBuilder PathSpec PathProps SignedData Extensions ExtensionsSpec ExtensionsProofs ExtensionsProofs2.
Notation length := List.length.

(** ** Key usages *)
Lemma byte_bits a b : is_byte a -> is_byte b -> (forall n, (n < 8)%nat -> Z.testbit a (7 - Z.of_nat n) = Z.testbit b (7 - Z.of_nat n)) -> a = b.
Proof.
  intros A B H. apply Z.bits_inj'. intros n Hn. destruct (Z.lt_ge_cases n 8) as [L|L].
  - replace n with (7 - Z.of_nat (Z.to_nat (7 - n))) by lia. apply H. lia.
  - assert (Q : forall c, is_byte c -> Z.testbit c n = false).
    { intros c [C1 C2]. destruct (Z.eq_dec c 0) as [->|N]; [apply Z.bits_0|]. apply Z.bits_above_log2; [exact C1|]. apply Z.lt_le_trans with 8; [|exact L].
      apply Z.log2_lt_pow2; [lia|]. cbn. unfold is_byte in *; lia. }
    rewrite !Q by assumption. reflexivity.
Qed.

Lemma bit_cases s n : (n < 8)%nat -> bit s n = Z.testbit (nth 0 s 0) (7 - Z.of_nat n).
Proof. intros H. unfold bit. rewrite Nat.div_small, Nat.mod_small by exact H. reflexivity. Qed.
Lemma bit_cases2 s n : (n < 8)%nat -> bit s (8 + n) = Z.testbit (nth 1 s 0) (7 - Z.of_nat n).
Proof.
  intros H. unfold bit. replace ((8 + n) / 8)%nat with 1%nat; [|apply Nat.div_unique with n; lia].
  replace ((8 + n) mod 8)%nat with n; [reflexivity|]. apply Nat.mod_unique with 1%nat; lia.
Qed.
Lemma bit_far s n : (length s <= n / 8)%nat -> bit s n = false.
Proof. intros H. unfold bit. rewrite nth_overflow by exact H. apply Z.bits_0. Qed.

Definition usage_byte (ns : list nat) (b : Z) : Prop := is_byte b /\ (forall n, In n ns -> (n < 8)%nat) /\ forall n, (n < 8)%nat -> Z.testbit b (7 - Z.of_nat n) = true <-> In n ns.
Lemma ku_iff s ns b : usage_byte ns b -> Forall is_byte s -> (1 <= length s <= 2)%nat ->
  (exactly s ns <-> nth 0 (firstn 2 (s ++ [0; 0])) 0 = b /\ nth 1 (firstn 2 (s ++ [0; 0])) 0 = 0).
Proof.
  intros (Bb & Lt & H) Bs L.
  assert (Z0 : is_byte 0) by (unfold is_byte; lia).
  assert (N : forall k, is_byte (nth k s 0)).
  { intros k. destruct (Nat.lt_ge_cases k (length s)); [rewrite Forall_forall in Bs; apply Bs, nth_In; assumption|rewrite nth_overflow by assumption; exact Z0]. }
  assert (E0 : nth 0 (firstn 2 (s ++ [0; 0])) 0 = nth 0 s 0) by (destruct s as [|? [|? s]]; cbn in *; try lia; reflexivity).
  assert (E1 : nth 1 (firstn 2 (s ++ [0; 0])) 0 = nth 1 s 0) by (destruct s as [|? [|? s]]; cbn in *; try lia; reflexivity).
  rewrite E0, E1. split.
  - intros X. split.
    + apply byte_bits; auto. intros n Hn. specialize (X n). rewrite bit_cases in X by exact Hn. specialize (H n Hn).
      destruct (Z.testbit (nth 0 s 0) (7 - Z.of_nat n)), (Z.testbit b (7 - Z.of_nat n)); try reflexivity; intuition congruence.
    + apply byte_bits; auto. intros n Hn. specialize (X (8 + n)%nat). rewrite bit_cases2 in X by exact Hn. rewrite Z.bits_0.
      destruct (Z.testbit (nth 1 s 0) (7 - Z.of_nat n)); [|reflexivity]. destruct X as (X & _). specialize (X eq_refl). apply Lt in X. lia.
  - intros (A & B) n. destruct (Nat.lt_ge_cases n 8) as [Hn|Hn].
    + rewrite bit_cases by exact Hn. rewrite A. apply H. exact Hn.
    + destruct (Nat.lt_ge_cases n 16) as [Hm|Hm].
      * replace n with (8 + (n - 8))%nat by lia. rewrite bit_cases2 by lia. rewrite B, Z.bits_0. split; [discriminate|]. intros I. apply Lt in I. lia.
      * rewrite bit_far; [split; [discriminate|intros I; apply Lt in I; lia]|].
        assert (2 <= n / 8)%nat by (apply Nat.div_le_lower_bound; lia). lia.
Qed.

Lemma usage_6 : usage_byte [5; 6]%nat 6.
Proof.
  split; [unfold is_byte; lia|]. split; [cbn; intuition lia|]. intros n Hn.
  do 8 (destruct n as [|n]; [cbn; intuition (try discriminate; try lia)|]). lia.
Qed.
Lemma usage_128 : usage_byte [0]%nat 128.
Proof.
  split; [unfold is_byte; lia|]. split; [cbn; intuition lia|]. intros n Hn.
  do 8 (destruct n as [|n]; [cbn; intuition (try discriminate; try lia)|]). lia.
Qed.

(** The fields an extension is remembered in. *)
Definition same (i : ext_id) (r r' : record) : Prop :=
  match i with
  | CDP => r_crldp r = r_crldp r'
  | AIA => r_caIssuers r = r_caIssuers r'
  | SIA => r_signedObject r = r_signedObject r' /\ r_rpp r = r_rpp r' /\ r_mft r = r_mft r'
  | CP => r_policy r = r_policy r'
  | _ => True
  end.
Lemma same_refl i r : same i r r.
Proof. destruct i; cbn; auto. Qed.
Lemma same_sym i r r' : same i r r' -> same i r' r.
Proof. destruct i; cbn; intuition. Qed.
Lemma same_trans i r1 r2 r3 : same i r1 r2 -> same i r2 r3 -> same i r1 r3.
Proof. destruct i; cbn; intuition congruence. Qed.
Lemma critical_iff i : meta_critical i = true <-> critical i.
Proof. unfold critical. destruct i; cbn; intuition congruence. Qed.

Lemma rsync_iff text : is_rsync text = true <-> has_scheme UT_RSYNC text.
Proof.
  unfold is_rsync, has_scheme, ExtensionsSpec.scheme. change (cstr "rsync://") with RSYNC_PREFIX. destruct (8 <=? length text)%nat eqn:E.
  - rewrite (list_eqb_spec Z.eqb Z.eqb_eq). split.
    + intros Q. exists (skipn 8 text). rewrite <- Q. symmetry. apply firstn_skipn.
    + intros (rest & ->). reflexivity.
  - split; [discriminate|]. intros (rest & ->). rewrite app_length in E. cbn in E. discriminate.
Qed.

Lemma cdp_sound names r r' : cdp_names names r = Ok r' -> exists text, first_rsync names text /\
  r' = {| r_crldp := Some text; r_caIssuers := r_caIssuers r; r_signedObject := r_signedObject r; r_rpp := r_rpp r; r_mft := r_mft r; r_policy := r_policy r |}.
Proof.
  induction names as [|[text b|] l IH]; cbn [cdp_names]; [discriminate|..].
  - destruct (is_rsync text) eqn:R.
    + destruct b; [discriminate|]. intros Q. injection Q as <-. exists text. split; [constructor; apply rsync_iff; exact R|reflexivity].
    + intros Q. destruct (IH Q) as (t & F & ->). exists t. split; [|reflexivity]. constructor; [|exact F]. intros t' b' Q'. injection Q' as <- <-.
      rewrite <- rsync_iff. congruence.
  - intros Q. destruct (IH Q) as (t & F & ->). exists t. split; [|reflexivity]. constructor; [|exact F]. intros t' b' Q'. discriminate.
Qed.
Lemma cdp_complete names text r : first_rsync names text ->
  cdp_names names r = Ok {| r_crldp := Some text; r_caIssuers := r_caIssuers r; r_signedObject := r_signedObject r; r_rpp := r_rpp r; r_mft := r_mft r; r_policy := r_policy r |}.
Proof.
  induction 1 as [text l H|g l text H F IH]; cbn [cdp_names]; [apply rsync_iff in H; rewrite H; reflexivity|].
  destruct g as [t b|]; [|exact IH]. specialize (H t b eq_refl). rewrite <- rsync_iff in H. destruct (is_rsync t); [congruence|exact IH].
Qed.
Lemma first_fun names t t' : first_rsync names t -> first_rsync names t' -> t = t'.
Proof. intros A B. apply (cdp_complete _ _ empty_record) in A. apply (cdp_complete _ _ empty_record) in B. congruence. Qed.


(** ** The handlers of a profile *)
Section Callbacks.
  Context (nid : ext_id -> Z) (inj : forall i j, nid i = nid j -> i = j).
  Context (nid_ca_issuers nid_caRepository nid_ad_notify nid_ad_mft nid_ad_so : Z).
  Context (nid_certPolicyRpki nid_certPolicyRpkiV2 nid_qt_cps : Z).
  Context (sha1 : list Z -> option (list Z)).
  Context (J : Z) (repository : list Z) (tal : option (list Z)) (C : conf_ok repository tal None).
  Context (p : profile).
  Context (spk : option (list Z)) (parent : option (option (list Z))) (sid : list Z) (es : list x509_extension).
  Context (T : Forall (typed nid) es).

  Local Notation content := (content nid nid_ca_issuers nid_caRepository nid_ad_notify nid_ad_mft nid_ad_so nid_certPolicyRpki nid_certPolicyRpkiV2 nid_qt_cps sha1 repository tal p spk parent sid es).
  Local Notation well_formed := (well_formed nid nid_ca_issuers nid_caRepository nid_ad_notify nid_ad_mft nid_ad_so nid_certPolicyRpki nid_certPolicyRpkiV2 nid_qt_cps sha1 repository tal p spk parent sid es).

  Definition ids : list ext_id :=
    match p with
    | TrustAnchor => [BC; SKI; AKI; KU; SIA; CP; IR; AR; IR2; AR2]
    | CA => [BC; SKI; AKI; KU; CDP; AIA; SIA; CP; IR; AR; IR2; AR2]
    | EE => [SKI; AKI; KU; CDP; AIA; SIA; CP; IR; AR; IR2; AR2]
    | Crl => [AKI; CN]
    end.
  Definition required (i : ext_id) : bool := match presence_of p i with Required => true | _ => false end.
  Definition cb_of (i : ext_id) : option (ext_value -> record -> res record) :=
    match i with
    | BC => Some handle_bc
    | SKI => Some (match p with EE => handle_ski_ee sha1 spk sid | _ => handle_ski_ca sha1 spk end)
    | AKI => Some (match p with TrustAnchor => handle_aki_ta nid es | _ => handle_aki sha1 parent end)
    | KU => Some (handle_ku (match p with EE => 128 | _ => 6 end))
    | CDP => Some handle_cdp
    | AIA => Some (handle_aia nid_ca_issuers J repository tal)
    | SIA => Some (match p with EE => handle_sia_ee nid_ad_so J repository tal | _ => handle_sia_ca nid_caRepository nid_ad_notify nid_ad_mft J repository tal end)
    | CP => Some (handle_cp nid_certPolicyRpki nid_certPolicyRpkiV2 nid_qt_cps)
    | CN => Some (fun _ r => Ok r)
    | IR | AR | IR2 | AR2 | EKU => None
    end.
  Definition handlers : list handler := map (fun i => entry i (required i) (cb_of i)) ids.

  Lemma ids_known i : In i ids <-> known p i.
  Proof. unfold ids, known. destruct p, i; cbn; intuition congruence. Qed.
  Lemma ids_nodup : NoDup (map h_id handlers).
  Proof. unfold handlers. rewrite map_map. cbn [entry h_id]. rewrite map_id. unfold ids. destruct p; repeat constructor; cbn; intuition discriminate. Qed.
  Lemma in_handlers h : In h handlers <-> exists i, known p i /\ h = entry i (required i) (cb_of i).
  Proof. unfold handlers. rewrite in_map_iff. split; intros (i & A & B); exists i; rewrite ?ids_known in *; intuition congruence. Qed.
  Lemma handlers_fresh h : In h handlers -> h_found h = false.
  Proof. rewrite in_handlers. intros (i & _ & ->). reflexivity. Qed.
  Lemma content_same i v r r' : same i r r' -> content i v r -> content i v r'.
  Proof.
    destruct i; cbn [same content]; auto.
    - intros H (a & b & A & B & D). exists a, b. rewrite <- H. auto.
    - intros H (a & b & A & B & D). exists a, b. rewrite <- H. auto.
    - intros (H1 & H2 & H3) (l & A & B). exists l. split; [exact A|]. rewrite <- H1, <- H2, <- H3. exact B.
    - intros H (a & b & c & A & B & D & F). exists a, b, c. rewrite <- H. auto.
  Qed.

  Lemma hash_iff k id : validate_public_key_hash sha1 k id = Ok tt <-> key_id sha1 k id.
  Proof.
    unfold validate_public_key_hash, hash_validate_sha1, key_id. destruct k as [k|]; [|split; [discriminate|intros (? & ? & _); discriminate]].
    destruct (sha1 k) as [a|] eqn:S; [|split; [discriminate|intros (? & Q & ?); injection Q as <-; congruence]].
    pose proof (list_eqb_spec Z.eqb Z.eqb_eq id a) as L. split.
    - destruct ((length id =? length a)%nat && list_eqb Z.eqb id a) eqn:E; [|discriminate]. intros _. apply Bool.andb_true_iff in E. destruct E as (_ & E).
      apply L in E. subst. eauto.
    - intros (k' & Q & S'). injection Q as <-. rewrite S in S'. injection S' as ->. rewrite Nat.eqb_refl. cbn [andb]. rewrite (proj2 L eq_refl). reflexivity.
  Qed.
  Lemma hash_cases k id : validate_public_key_hash sha1 k id = Ok tt \/ exists e, validate_public_key_hash sha1 k id = Err e.
  Proof.
    unfold validate_public_key_hash, hash_validate_sha1. destruct k as [k|]; [|eauto]. destruct (sha1 k) as [a|]; [|eauto]. destruct (_ && _); eauto.
  Qed.

  Definition one_ski := forall n1 n2 e1 e2, nth_error es n1 = Some e1 -> nth_error es n2 = Some e2 -> e_nid e1 = nid SKI -> e_nid e2 = nid SKI -> n1 = n2.
  Lemma get_in n v : get_ext_d2i es n = Some v -> exists e, In e es /\ e_nid e = n /\ e_value e = Some v.
  Proof.
    unfold get_ext_d2i. destruct (filter (fun e => e_nid e =? n) es) as [|e [|]] eqn:F; try discriminate. intros V.
    assert (I : In e (filter (fun e => e_nid e =? n) es)) by (rewrite F; left; reflexivity).
    apply filter_In in I. destruct I as (I & Q). apply Z.eqb_eq in Q. eauto.
  Qed.
  Lemma get_one e : one_ski -> In e es -> e_nid e = nid SKI -> get_ext_d2i es (nid SKI) = e_value e.
  Proof.
    intros O I M. unfold get_ext_d2i. enough (filter (fun e => e_nid e =? nid SKI) es = [e]) as -> by reflexivity.
    unfold one_ski in O. clear T. revert O I. induction es as [|a l IH]; intros O I; [destruct I|]. cbn [filter]. destruct (Z.eqb_spec (e_nid a) (nid SKI)) as [A|A].
    - assert (a = e).
      { destruct I as [I|I]; [exact I|]. apply In_nth_error in I. destruct I as (n & Hn). discriminate (O 0%nat (S n) a e eq_refl Hn A M). }
      subst a. f_equal. destruct (filter (fun e => e_nid e =? nid SKI) l) as [|b k] eqn:F; [reflexivity|]. exfalso.
      assert (Q : In b (filter (fun e => e_nid e =? nid SKI) l)) by (rewrite F; left; reflexivity). apply filter_In in Q. destruct Q as (Q & Q').
      apply Z.eqb_eq in Q'. apply In_nth_error in Q. destruct Q as (n & Hn). discriminate (O 0%nat (S n) e b eq_refl Hn A Q').
    - destruct I as [->|I]; [contradiction|]. apply IH; [|exact I]. intros n1 n2 e1 e2 Q1 Q2 M1 M2. enough (S n1 = S n2) by lia. apply (O (S n1) (S n2) e1 e2); auto.
  Qed.

  Lemma cp_iff v r r' : handle_cp nid_certPolicyRpki nid_certPolicyRpkiV2 nid_qt_cps v r = Ok r' <->
    (exists id qualifiers policy, v = V_policies [{| pi_id := id; pi_qualifiers := qualifiers |}] /\
        ((id = nid_certPolicyRpki /\ policy = RPKI_POLICY_RFC6484) \/
         (id = nid_certPolicyRpkiV2 /\ id <> nid_certPolicyRpki /\ policy = RPKI_POLICY_RFC8360)) /\
        (qualifiers = None \/ qualifiers = Some [] \/ qualifiers = Some [nid_qt_cps]) /\
        r' = {| r_crldp := r_crldp r; r_caIssuers := r_caIssuers r; r_signedObject := r_signedObject r; r_rpp := r_rpp r; r_mft := r_mft r; r_policy := Some policy |}).
  Proof.
    split.
    - unfold handle_cp. destruct v as [| | | | | |l|]; try discriminate. destruct l as [|[pid q] [|]]; try discriminate. cbn [pi_id pi_qualifiers].
      assert (X : forall pol, (pid = nid_certPolicyRpki /\ pol = RPKI_POLICY_RFC6484) \/ (pid = nid_certPolicyRpkiV2 /\ pid <> nid_certPolicyRpki /\ pol = RPKI_POLICY_RFC8360) ->
        bind (Ok {| r_crldp := r_crldp r; r_caIssuers := r_caIssuers r; r_signedObject := r_signedObject r; r_rpp := r_rpp r; r_mft := r_mft r; r_policy := Some pol |})
          (fun r => match q with None => Ok r | Some [] => Ok r | Some [q] => if q =? nid_qt_cps then Ok r else Err EINVAL | Some _ => Err EINVAL end) = Ok r' ->
        (q = None \/ q = Some [] \/ q = Some [nid_qt_cps]) /\
        r' = {| r_crldp := r_crldp r; r_caIssuers := r_caIssuers r; r_signedObject := r_signedObject r; r_rpp := r_rpp r; r_mft := r_mft r; r_policy := Some pol |}).
      { intros pol _. cbn [bind]. destruct q as [[|q [|]]|]; try discriminate; try (intros Q; injection Q as <-; auto; fail).
        destruct (Z.eqb_spec q nid_qt_cps); [subst|discriminate]. intros Q; injection Q as <-; auto. }
      destruct (Z.eqb_spec pid nid_certPolicyRpki) as [E1|E1]; [|destruct (Z.eqb_spec pid nid_certPolicyRpkiV2) as [E2|E2]; [|discriminate]]; intros E.
      + destruct (X RPKI_POLICY_RFC6484 ltac:(auto) E) as (Q & ->). exists pid, q, RPKI_POLICY_RFC6484. split; [reflexivity|]. split; [auto|]. split; [exact Q|reflexivity].
      + destruct (X RPKI_POLICY_RFC8360 ltac:(auto) E) as (Q & ->). exists pid, q, RPKI_POLICY_RFC8360. split; [reflexivity|]. split; [auto|]. split; [exact Q|reflexivity].
    - intros (id & q & pol & -> & D & Q & ->). unfold handle_cp. cbn [pi_id pi_qualifiers].
      destruct D as [(-> & ->)|(-> & N & ->)].
      + rewrite Z.eqb_refl. cbn [bind]. destruct Q as [->|[->| ->]]; try reflexivity. rewrite Z.eqb_refl. reflexivity.
      + destruct (Z.eqb_spec nid_certPolicyRpkiV2 nid_certPolicyRpki); [contradiction|]. rewrite Z.eqb_refl. cbn [bind].
        destruct Q as [->|[->| ->]]; try reflexivity. rewrite Z.eqb_refl. reflexivity.
  Qed.

  Lemma rsync_caged : UT_RSYNC <> UT_CAGED. Proof. discriminate. Qed.
  Lemma https_caged : UT_HTTPS <> UT_CAGED. Proof. discriminate. Qed.

  Lemma typed_in e i v : In e es -> e_nid e = nid i -> e_value e = Some v -> typed nid {| e_nid := nid i; e_critical := false; e_value := Some v |}.
  Proof.
    intros I M V. rewrite Forall_forall in T. specialize (T e I). intros j w Q W. cbn in Q, W. injection W as <-. apply (T j v); [congruence|exact V].
  Qed.

  (** What a successful callback says. *)
  Lemma cb_sound i cb e v r r' : cb_of i = Some cb -> known p i -> In e es -> e_nid e = nid i -> e_value e = Some v -> same i r empty_record -> cb v r = Ok r' ->
    content i (Some v) r' /\ forall j, j <> i -> same j r r'.
  Proof.
    intros CB K I M V B E. rewrite Forall_forall in T. pose proof (T e I i v M V) as TY. destruct i; cbn [cb_of] in CB; try discriminate; injection CB as <-.
    - destruct TY as (b & ->). cbn [handle_bc] in E. destruct b; [discriminate|]. injection E as <-. split; [reflexivity|]. intros; apply same_refl.
    - destruct TY as (id & ->).
      assert (X : validate_public_key_hash sha1 spk id = Ok tt /\ r' = r /\ (p = EE -> id = sid)).
      { destruct (hash_cases spk id) as [H|(x & H)].
        - split; [exact H|]. destruct p; cbn [handle_ski_ca handle_ski_ee] in E; rewrite H in E; cbn [bind] in E; try (injection E as <-; split; [reflexivity|discriminate]).
          destruct (negb _ || negb _) eqn:N; [discriminate|]. injection E as <-. split; [reflexivity|]. intros _. apply Bool.orb_false_iff in N. destruct N as (_ & N).
          apply Bool.negb_false_iff in N. apply (list_eqb_spec Z.eqb Z.eqb_eq) in N. exact N.
        - destruct p; cbn [handle_ski_ca handle_ski_ee] in E; rewrite H in E; discriminate. }
      destruct X as (H & -> & S). split; [|intros; apply same_refl]. exists id. split; [reflexivity|]. split; [apply hash_iff; exact H|exact S].
    - destruct TY as (k & a & b & ->).
      assert (Y : p <> TrustAnchor -> handle_aki sha1 parent (V_akid k a b) r = Ok r' ->
        r' = r /\ exists id, k = Some id /\ a = false /\ b = false /\ exists issuer_key, parent = Some issuer_key /\ key_id sha1 issuer_key id).
      { intros _ E'. cbn [handle_aki] in E'. destruct k as [k|]; [|discriminate]. destruct a; [discriminate|]. destruct b; [discriminate|]. destruct parent as [key|]; [|discriminate].
        destruct (hash_cases key k) as [H|(x & H)]; rewrite H in E'; cbn [bind] in E'; [|discriminate]. injection E' as <-. split; [reflexivity|]. exists k.
        apply hash_iff in H. eauto 10. }
      destruct p; try (destruct (Y ltac:(discriminate) E) as (-> & id & -> & -> & -> & X); split; [exists id, false, false; split; [reflexivity|auto]|intros; apply same_refl]).
      clear Y. cbn [handle_aki_ta] in E. destruct k as [k|]; [|discriminate]. destruct (get_ext_d2i es (nid SKI)) as [w|] eqn:G; [|discriminate].
      destruct w; try discriminate. destruct (list_eqb Z.eqb k s) eqn:L; [|discriminate]. injection E as <-. apply (list_eqb_spec Z.eqb Z.eqb_eq) in L. subst s.
      split; [|intros; apply same_refl]. exists k, a, b. split; [reflexivity|]. apply get_in in G. exact G.
    - destruct TY as (s & -> & BS). cbn [handle_ku] in E.
      destruct (negb (length s =? 2)%nat && negb (length s =? 1)%nat) eqn:L; [discriminate|].
      destruct (negb _ || negb _) eqn:N in E; [discriminate|]. injection E as <-. apply Bool.orb_false_iff in N. destruct N as (N1 & N2).
      apply Bool.negb_false_iff in N1, N2. apply Z.eqb_eq in N1, N2.
      assert (L' : (1 <= length s <= 2)%nat).
      { apply Bool.andb_false_iff in L. rewrite !Bool.negb_false_iff, !Nat.eqb_eq in L. lia. }
      split; [|intros; apply same_refl]. exists s. split; [reflexivity|]. split; [exact L'|].
      destruct p; cbn [key_usage]; (apply (ku_iff s _ _ usage_6 BS L') || apply (ku_iff s _ _ usage_128 BS L')); auto.
    - destruct TY as (l & ->). cbn [handle_cdp] in E. destruct l as [|[nm re is] [|]]; try discriminate. cbn [dp_issuer dp_reasons dp_name] in E.
      destruct is; [discriminate|]. destruct re; [discriminate|]. destruct nm as [[names| |]|]; try discriminate. apply cdp_sound in E. destruct E as (text & F & ->).
      split; [exists names, text; auto|]. intros j Nj. destruct j; cbn; auto; congruence.
    - destruct TY as (l & ->). cbn [handle_aia] in E. apply handle_ad_sound in E; [|exact C|discriminate]. destruct E as ([u|] & U & -> & N); [|destruct (N eq_refl eq_refl)].
      split; [exists l, u; auto|]. intros j Nj. destruct j; cbn; auto; congruence.
    - destruct TY as (l & ->). cbn [same] in B. destruct B as (B1 & B2 & B3).
      assert (Y : p <> EE -> handle_sia_ca nid_caRepository nid_ad_notify nid_ad_mft J repository tal (V_access l) r = Ok r' ->
        (exists repo notif mft, uris_of repository tal nid_caRepository UT_RSYNC l repo /\ uris_of repository tal nid_ad_notify UT_HTTPS l notif /\
                 uris_of repository tal nid_ad_mft UT_RSYNC l (Some mft) /\
                 r_rpp r' = (match repo with Some u => [u] | None => [] end) ++ (match notif with Some u => [u] | None => [] end) /\
                 r_mft r' = Some mft) /\ forall j, j <> SIA -> same j r r').
      { intros _ E'. cbn [handle_sia_ca] in E'.
        destruct (handle_ad J repository tal nid_caRepository UT_RSYNC false l add_rpp r) as [r1| |] eqn:E1; cbn [bind] in E'; try discriminate.
        destruct (handle_ad J repository tal nid_ad_notify UT_HTTPS false l add_rpp r1) as [r2| |] eqn:E2; cbn [bind] in E'; try discriminate.
        apply handle_ad_sound in E1; [|exact C|discriminate]. apply handle_ad_sound in E2; [|exact C|discriminate]. apply handle_ad_sound in E'; [|exact C|discriminate].
        destruct E1 as (repo & U1 & -> & _), E2 as (notif & U2 & -> & _), E' as ([mft|] & U3 & -> & N); [|destruct (N eq_refl eq_refl)].
        split.
        - exists repo, notif, mft. repeat (split; [assumption|]). split; [|reflexivity]. cbn [handle_rpkiManifest r_rpp].
          destruct repo, notif; cbn [add_rpp r_rpp]; rewrite ?B2; reflexivity.
        - intros j Nj. destruct j; cbn [same]; auto; try congruence; destruct repo, notif; reflexivity. }
      destruct p; try (destruct (Y ltac:(discriminate) E) as (X & F); split; [exists l; split; [reflexivity|exact X]|auto]).
      clear Y. cbn [handle_sia_ee] in E. apply handle_ad_sound in E; [|exact C|discriminate]. destruct E as ([u|] & U & -> & N); [|destruct (N eq_refl eq_refl)].
      split; [exists l; split; [reflexivity|]; exists u; auto|]. intros j Nj. destruct j; cbn [same]; auto; congruence.
    - apply cp_iff in E. destruct E as (id & q & pol & -> & D & Q & ->). split; [exists id, q, pol; auto|]. intros j Nj. destruct j; cbn [same]; auto; congruence.
    - injection E as <-. split; [cbn; discriminate|]. intros; apply same_refl.
  Qed.

  (** A right value is accepted. *)
  Lemma cb_complete i cb e v rr r : cb_of i = Some cb -> In e es -> e_nid e = nid i -> e_value e = Some v -> short_value repository tal v ->
    (p = TrustAnchor -> one_ski) -> content i (Some v) rr -> exists r', cb v r = Ok r'.
  Proof.
    intros CB I M V Sh O K. rewrite Forall_forall in T. pose proof (T e I i v M V) as TY. destruct i; cbn [cb_of] in CB; try discriminate; injection CB as <-; cbn [content] in K.
    - injection K as ->. exists r. reflexivity.
    - destruct K as (id & Q & H & S). injection Q as ->. apply hash_iff in H. exists r.
      destruct p; cbn [handle_ski_ca handle_ski_ee]; rewrite H; cbn [bind]; try reflexivity. rewrite (S eq_refl), Nat.eqb_refl. cbn [negb orb].
      rewrite (proj2 (list_eqb_spec Z.eqb Z.eqb_eq sid sid) eq_refl). reflexivity.
    - destruct K as (id & a & b & Q & H). injection Q as ->. exists r.
      destruct p; try (destruct H as (-> & -> & key & -> & H); apply hash_iff in H; cbn [handle_aki]; rewrite H; reflexivity).
      destruct H as (e' & I' & M' & V'). cbn [handle_aki_ta]. rewrite (get_one e' (O eq_refl) I' M'), V'.
      rewrite (proj2 (list_eqb_spec Z.eqb Z.eqb_eq id id) eq_refl). reflexivity.
    - destruct K as (s & Q & L & X). injection Q as ->. destruct TY as (s' & Q & BS). injection Q as <-. exists r. cbn [handle_ku].
      assert (N : negb (length s =? 2)%nat && negb (length s =? 1)%nat = false).
      { apply Bool.andb_false_iff. rewrite !Bool.negb_false_iff, !Nat.eqb_eq. lia. }
      rewrite N. destruct p; cbn [key_usage] in X; ((apply (ku_iff s _ _ usage_6 BS L) in X) || (apply (ku_iff s _ _ usage_128 BS L) in X)); destruct X as (-> & ->);
        rewrite !Z.eqb_refl; reflexivity.
    - destruct K as (names & text & Q & F & _). injection Q as ->. cbn [handle_cdp dp_issuer dp_reasons dp_name]. eexists. apply cdp_complete. exact F.
    - destruct K as (l & u & Q & U & _). injection Q as ->. cbn [handle_aia]. eexists. apply handle_ad_complete; [exact C|discriminate|exact Sh|exact U|discriminate].
    - destruct K as (l & Q & K). injection Q as ->.
      assert (Y : (exists repo notif mft, uris_of repository tal nid_caRepository UT_RSYNC l repo /\ uris_of repository tal nid_ad_notify UT_HTTPS l notif /\
                 uris_of repository tal nid_ad_mft UT_RSYNC l (Some mft) /\
                 r_rpp rr = (match repo with Some u => [u] | None => [] end) ++ (match notif with Some u => [u] | None => [] end) /\
                 r_mft rr = Some mft) -> exists r', handle_sia_ca nid_caRepository nid_ad_notify nid_ad_mft J repository tal (V_access l) r = Ok r').
      { intros (repo & notif & mft & U1 & U2 & U3 & _). cbn [handle_sia_ca].
        rewrite (handle_ad_complete J repository tal nid_caRepository UT_RSYNC false l add_rpp r repo C ltac:(discriminate) Sh U1 ltac:(discriminate)). cbn [bind].
        rewrite (handle_ad_complete J repository tal nid_ad_notify UT_HTTPS false l add_rpp _ notif C ltac:(discriminate) Sh U2 ltac:(discriminate)). cbn [bind].
        eexists. apply (handle_ad_complete J repository tal nid_ad_mft UT_RSYNC true l handle_rpkiManifest _ (Some mft) C ltac:(discriminate) Sh U3). discriminate. }
      destruct p; try (apply Y; exact K). destruct K as (u & U & _). cbn [handle_sia_ee]. eexists. apply handle_ad_complete; [exact C|discriminate|exact Sh|exact U|discriminate].
    - destruct K as (id & q & pol & Q & D & X & _). injection Q as ->. eexists. apply cp_iff. exists id, q, pol. split; [reflexivity|]. split; [exact D|]. split; [exact X|reflexivity].
    - exists r. reflexivity.
  Qed.

  (** What a profile's callbacks leave alone. *)
  Lemma ad_frame n t b l cb r r' (f : record -> Prop) : t <> UT_CAGED -> (forall u r, f r -> f (cb u r)) -> f r ->
    handle_ad J repository tal n t b l cb r = Ok r' -> f r'.
  Proof. intros Ht H F E. apply handle_ad_sound in E; [|exact C|exact Ht]. destruct E as ([u|] & _ & -> & _); auto. Qed.
  Lemma cb_frame i cb v r r' : cb_of i = Some cb -> cb v r = Ok r' -> known p i -> nothing_else p r -> nothing_else p r'.
  Proof.
    intros CB E K. destruct i; cbn [cb_of] in CB; try discriminate; injection CB as <-.
    - destruct v as [b| | | | | | |]; try discriminate. cbn [handle_bc] in E. destruct b; [discriminate|]. injection E as <-. auto.
    - destruct v as [|id| | | | | |]; try (destruct p; discriminate).
      destruct (hash_cases spk id) as [H|(x & H)]; destruct p; cbn [handle_ski_ca handle_ski_ee] in E; rewrite H in E; cbn [bind] in E; try discriminate;
        try (injection E as <-; auto). destruct (_ || _) in E; [discriminate|]. injection E as <-. auto.
    - destruct v as [| |k a b| | | | |]; try (destruct p; discriminate).
      assert (Y : handle_aki sha1 parent (V_akid k a b) r = Ok r' -> r' = r).
      { cbn [handle_aki]. destruct k as [k|]; [|discriminate]. destruct a; [discriminate|]. destruct b; [discriminate|]. destruct parent as [key|]; [|discriminate].
        destruct (hash_cases key k) as [H|(x & H)]; rewrite H; cbn [bind]; [|discriminate]. intros Q. injection Q as <-. reflexivity. }
      destruct p; try (rewrite (Y E); auto; fail).
      cbn [handle_aki_ta] in E. destruct k as [k|]; [|discriminate]. destruct (get_ext_d2i es (nid SKI)) as [w|] eqn:G; [|discriminate].
      destruct w; try discriminate. destruct (list_eqb Z.eqb k s) eqn:L; [|discriminate]. injection E as <-. auto.
    - destruct v as [| | |s| | | |]; try discriminate. cbn [handle_ku] in E. destruct (_ && _) in E; [discriminate|]. destruct (_ || _) in E; [discriminate|]. injection E as <-. auto.
    - destruct v as [| | | |l| | |]; try discriminate. cbn [handle_cdp] in E. destruct l as [|[nm re is] [|]]; try discriminate. cbn [dp_issuer dp_reasons dp_name] in E.
      destruct is; [discriminate|]. destruct re; [discriminate|]. destruct nm as [[names| |]|]; try discriminate. apply cdp_sound in E. destruct E as (text & F & ->).
      unfold nothing_else, known in *. cbn [r_crldp r_caIssuers r_signedObject r_rpp r_mft r_policy]. destruct p; cbn in K; try congruence; intuition congruence.
    - destruct v as [| | | | |l| |]; try discriminate. cbn [handle_aia] in E. apply handle_ad_sound in E; [|exact C|discriminate]. destruct E as ([u|] & _ & -> & N); [|auto].
      unfold nothing_else, known in *. cbn [handle_caIssuers r_crldp r_caIssuers r_signedObject r_rpp r_mft r_policy]. destruct p; cbn in K; try congruence; intuition congruence.
    - destruct v as [| | | | |l| |]; try (destruct p; discriminate). intros F.
      assert (Y : p = TrustAnchor \/ p = CA -> handle_sia_ca nid_caRepository nid_ad_notify nid_ad_mft J repository tal (V_access l) r = Ok r' -> nothing_else p r').
      { intros P E'. cbn [handle_sia_ca] in E'.
        assert (X : forall u r, nothing_else p r -> nothing_else p (add_rpp u r)).
        { intros u r0 H. unfold nothing_else in *. cbn [add_rpp r_crldp r_caIssuers r_signedObject r_rpp r_mft r_policy]. destruct P as [-> | ->]; intuition congruence. }
        destruct (handle_ad J repository tal nid_caRepository UT_RSYNC false l add_rpp r) as [r1| |] eqn:E1; cbn [bind] in E'; try discriminate.
        destruct (handle_ad J repository tal nid_ad_notify UT_HTTPS false l add_rpp r1) as [r2| |] eqn:E2; cbn [bind] in E'; try discriminate.
        apply (ad_frame _ _ _ _ _ _ _ (nothing_else p) rsync_caged X F) in E1.
        apply (ad_frame _ _ _ _ _ _ _ (nothing_else p) https_caged X E1) in E2.
        refine (ad_frame _ _ _ _ _ _ _ (nothing_else p) rsync_caged _ E2 E').
        intros u r0 H. unfold nothing_else in *. cbn [handle_rpkiManifest r_crldp r_caIssuers r_signedObject r_rpp r_mft r_policy]. destruct P as [-> | ->]; intuition congruence. }
      destruct p; try (apply Y; auto; fail); [|unfold known in K; cbn in K; congruence].
      cbn [handle_sia_ee] in E. refine (ad_frame _ _ _ _ _ _ _ (nothing_else EE) rsync_caged _ F E).
      intros u r0 H. unfold nothing_else in *. cbn [handle_signedObject r_crldp r_caIssuers r_signedObject r_rpp r_mft r_policy]. intuition congruence.
    - apply cp_iff in E. destruct E as (id & q & pol & -> & D & Q & ->). unfold nothing_else, known in *.
      cbn [r_crldp r_caIssuers r_signedObject r_rpp r_mft r_policy]. destruct p; cbn in K; try congruence; intuition congruence.
    - injection E as <-. auto.
  Qed.

  (** No callback does anything undefined. *)
  Lemma ad_not_ub n t b l cb r : t <> UT_CAGED -> handle_ad J repository tal n t b l cb r <> UB.
  Proof.
    intros Ht. unfold handle_ad. assert (X : forall found r, ad_loop J repository tal n t l cb found r <> UB).
    { induction l as [|a l' IH]; intros found r1; [discriminate|]. destruct (Z.eq_dec (ad_method a) n) as [M|M].
      - destruct (uri_ad J repository tal a t C Ht) as [(u & U & _)|[(x & U & S & _)|(x & U & S & _)]].
        + cbn [ad_loop]. rewrite M, Z.eqb_refl, U. destruct found; [discriminate|apply IH].
        + rewrite (loop_skip J repository tal n t a l' cb found r1 x M U S). apply IH.
        + rewrite (loop_fail J repository tal n t a l' cb found r1 x M U S). discriminate.
      - cbn [ad_loop]. destruct (Z.eqb_spec (ad_method a) n); [contradiction|]. apply IH. }
    specialize (X false r). destruct (ad_loop J repository tal n t l cb false r) as [[? ?]| |]; cbn [bind]; [destruct (_ && _); discriminate|discriminate|congruence].
  Qed.
  Lemma cb_not_ub i cb e v r : cb_of i = Some cb -> In e es -> e_nid e = nid i -> e_value e = Some v -> cb v r <> UB.
  Proof.
    intros CB I M V. pose proof T as T'. rewrite Forall_forall in T'. pose proof (T' e I i v M V) as TY.
    assert (HK : forall k id (r : record), bind (validate_public_key_hash sha1 k id) (fun _ => Ok r) <> UB).
    { intros k id r0. destruct (hash_cases k id) as [H|(x & H)]; rewrite H; discriminate. }
    destruct i; cbn [cb_of] in CB; try discriminate; injection CB as <-.
    - destruct TY as (b & ->). destruct b; discriminate.
    - destruct TY as (id & ->). destruct p; cbn [handle_ski_ca handle_ski_ee]; try apply HK. destruct (hash_cases spk id) as [H|(x & H)]; rewrite H; cbn [bind]; [|discriminate].
      destruct (_ || _); discriminate.
    - destruct TY as (k & a & b & ->). assert (Y : handle_aki sha1 parent (V_akid k a b) r <> UB).
      { cbn [handle_aki]. destruct k; [|discriminate]. destruct a; [discriminate|]. destruct b; [discriminate|]. destruct parent; [apply HK|discriminate]. }
      destruct p; try exact Y. cbn [handle_aki_ta]. destruct k as [k|]; [|discriminate]. destruct (get_ext_d2i es (nid SKI)) as [w|] eqn:G; [|discriminate].
      apply get_in in G. destruct G as (e' & I' & M' & V'). destruct (T' e' I' SKI w M' V') as (s & ->). destruct (list_eqb Z.eqb k s); discriminate.
    - destruct TY as (s & -> & _). cbn [handle_ku]. destruct (_ && _); [discriminate|]. destruct (_ || _); discriminate.
    - destruct TY as (l & ->). cbn [handle_cdp]. destruct l as [|dp [|]]; try discriminate. destruct (dp_issuer dp); [discriminate|]. destruct (dp_reasons dp); [discriminate|].
      destruct (dp_name dp) as [[names| |]|]; try discriminate. induction names as [|[text b|] l IH]; cbn [cdp_names]; [discriminate| |exact IH].
      destruct (is_rsync text); [|exact IH]. destruct b; discriminate.
    - destruct TY as (l & ->). cbn [handle_aia]. apply ad_not_ub. discriminate.
    - destruct TY as (l & ->). destruct p; cbn [handle_sia_ca handle_sia_ee];
        try (apply ad_not_ub; discriminate);
        (pose proof (ad_not_ub nid_caRepository UT_RSYNC false l add_rpp r ltac:(discriminate)) as X1;
         destruct (handle_ad J repository tal nid_caRepository UT_RSYNC false l add_rpp r) as [r1| |]; cbn [bind]; [|discriminate|congruence];
         pose proof (ad_not_ub nid_ad_notify UT_HTTPS false l add_rpp r1 ltac:(discriminate)) as X2;
         destruct (handle_ad J repository tal nid_ad_notify UT_HTTPS false l add_rpp r1) as [r2| |]; cbn [bind]; [|discriminate|congruence];
         apply ad_not_ub; discriminate).
    - destruct TY as (l & ->). unfold handle_cp. destruct l as [|pi [|]]; try discriminate. destruct (pi_id pi =? nid_certPolicyRpki); cbn [bind];
        [|destruct (pi_id pi =? nid_certPolicyRpkiV2); cbn [bind]; [|discriminate]];
        (destruct (pi_qualifiers pi) as [[|q [|]]|]; try discriminate; destruct (q =? nid_qt_cps); discriminate).
    - discriminate.
  Qed.
End Callbacks.
