(** Proofs for C102: addresses, extensions, certificates, CRLs. *)
From Coq Require Import String Lia.
From Verif Require Import Base BaseLemmas CString Slurm Oid OidSpec OidProofs Ntop NtopSpec NtopProofs PduWireSpec Address AddressSpec AddressProofs BerSpec JsonEncSpec JsonEnc
  JsonEncProofs JsonEncProofs3 JsonEncProofs4 JsonEncProofs6 CertJsonTypes CertJson CertJsonSpec CertJsonProofs.
Notation length := List.length.
Open Scope list_scope.
Open Scope Z_scope.

(** ** Addresses *)

Lemma be_padded (W : nat) b : (length b <= W)%nat -> be (zero_padded W b) = be b * 2 ^ (8 * Z.of_nat W - 8 * Z.of_nat (length b)).
Proof.
  intros H. unfold zero_padded. rewrite be_app, be_repeat0, repeat_length, Z.add_0_r. f_equal.
  change 256 with (2 ^ 8). rewrite <- Z.pow_mul_r by lia. f_equal. lia.
Qed.
Lemma first4 b : (length b <= 4)%nat -> firstn 4 (zero_padded 16 b) = zero_padded 4 b.
Proof. intros H. destruct b as [|a [|b [|c [|d [|e f]]]]]; cbn in H; try lia; reflexivity. Qed.
Lemma udec_ascii n : is_u32 n -> Forall (fun c => 0 <= c < 128) (udec n).
Proof. intros H. destruct (udec_spec n H) as (_ & F & _). eapply Forall_impl; [|exact F]. cbn. lia. Qed.

Lemma prefix_outcome (v6 : bool) p : let W := if v6 then 128 else 32 in plain_item W (IpPrefix p) -> outcome (p2json p v6) (shows_ip_item W (IpPrefix p)).
Proof.
  intros W (Hb & addr & len & D). pose proof D as (L & U & El & Pl & Ea & _). destruct (denotes_bounds _ _ _ _ Hb D) as (_ & B & _).
  assert (Wb : W <= 128) by (destruct v6; unfold W; lia). unfold p2json. destruct (16 <? length (bs_buf p))%nat eqn:E16; [apply Nat.ltb_lt in E16; lia|]. apply Nat.ltb_ge in E16.
  unfold bs_size. rewrite <- El. assert (Ul : is_u32 len) by (unfold is_u32; lia). rewrite wrap32_id by assumption.
  set (a := if v6 then _ else _).
  assert (A : address_text W a addr /\ Forall (fun c => 0 <= c < 128) a).
  { unfold a, W, address_text. destruct v6; cbn [Z.eqb Pos.eqb] in *.
    - rewrite be_padded by assumption. change (8 * Z.of_nat 16) with 128. change (128 =? 32) with false. cbv iota. unfold W in Ea. rewrite <- Ea. split; [apply read6_ntop6; exact B|apply read_ascii6].
    - unfold W in *. rewrite first4, be_padded by lia. change (8 * Z.of_nat 4) with 32. change (32 =? 32) with true. cbv iota. rewrite <- Ea. split; [apply read4_ntop4; exact B|apply read_ascii4]. }
  destruct A as (A1 & A2). rewrite strn_ascii.
  2:{ apply Forall_app. split; [assumption|]. cbn [app]. constructor; [lia|]. apply udec_ascii. assumption. }
  cbn [outcome shows_ip_item]. exists addr, len, a, (udec len). split; [assumption|]. split; [assumption|]. split; [apply dec_udec; assumption|reflexivity].
Qed.
Lemma item_outcome (v6 : bool) i : let W := if v6 then 128 else 32 in plain_item W i -> outcome (iaor2json v6 i) (shows_ip_item W i).
Proof. intros W H. destruct i as [p|lo hi]; [apply prefix_outcome; exact H|]. exact (not_implemented_ok true). Qed.
Lemma inherit_ok : outcome (json_str_new (cstr "inherit")) (text "inherit").
Proof. unfold text, json_str_new. literal. Qed.
Lemma choice_outcome (v6 : bool) c : let W := if v6 then 128 else 32 in
  (forall l, c = IpItems l -> Forall (plain_item W) l) -> outcome (iac2json c v6) (shows_ip_choice W c).
Proof.
  intros W H. destruct c as [|l]; cbn [iac2json shows_ip_choice]; [apply inherit_ok|]. specialize (H l eq_refl). all_of H. apply item_outcome. assumption.
Qed.
Lemma family_outcome f : plain_family f -> outcome (iaf2json f) (shows_family f).
Proof.
  intros H. unfold iaf2json, shows_family, plain_family in *. destruct (if_family f) as [|a [|b [|c d]]] eqn:E;
    [cbn; intros j [(K & _)|(K & _)]; discriminate|cbn; intros j [(K & _)|(K & _)]; discriminate| |cbn; intros j [(K & _)|(K & _)]; discriminate].
  destruct ((a =? 0) && (b =? 1)) eqn:E1; [|destruct ((a =? 0) && (b =? 2)) eqn:E2].
  - assert (a = 0 /\ b = 1) as (-> & ->) by lia.
    apply outcome_conv with (P := fields [("addressFamily"%string, text "IPv4"); ("ipAddressChoice"%string, shows_ip_choice 32 (if_choice f))]);
      [|intros j; split; [intros K; left; split; [reflexivity|exact K]|intros [(_ & K)|(K & _)]; [exact K|discriminate]]].
    struct; [unfold text, json_str_new; literal|]. apply (choice_outcome false). intros l El. rewrite El in H. apply H. reflexivity.
  - assert (a = 0 /\ b = 2) as (-> & ->) by lia.
    apply outcome_conv with (P := fields [("addressFamily"%string, text "IPv6"); ("ipAddressChoice"%string, shows_ip_choice 128 (if_choice f))]);
      [|intros j; split; [intros K; right; split; [reflexivity|exact K]|intros [(K & _)|(_ & K)]; [discriminate|exact K]]].
    struct; [unfold text, json_str_new; literal|]. apply (choice_outcome true). intros l El. rewrite El in H. apply H. reflexivity.
  - cbn [outcome]. intros j [(K & _)|(K & _)]; injection K as -> ->; discriminate.
Qed.
Lemma as_item_outcome i : outcome (aor2json i) (shows_as_item i).
Proof. destruct i as [n|lo hi]; cbn [aor2json shows_as_item]; [apply int_outcome|]. struct; apply int_outcome. Qed.
Lemma as_choice_outcome c : outcome (asidc2json c) (shows_as_choice c).
Proof.
  destruct c as [|l]; cbn [asidc2json shows_as_choice]; [apply inherit_ok|]. apply outcome_arr. apply Forall_forall. intros x _. apply as_item_outcome.
Qed.

Section Library.
  Variable lib : libcrypto.
  Hypothesis HL : library lib.

  Lemma object_outcome o : short lib o -> outcome (oid2json lib o) (shows_object lib o).
  Proof.
    intros H. unfold short in H. unfold oid2json, OID_STR_MAXLEN, obj_buffer. destruct (64 <? length (obj2txt lib o))%nat eqn:E; [apply Nat.ltb_lt in E; lia|].
    change (OID_STR_MAXLEN - 1)%nat with 63%nat. rewrite firstn_all2 with (n := 63%nat) by assumption. rewrite firstn_app, Nat.sub_diag, firstn_all. cbn [firstn]. rewrite app_nil_r.
    apply text_outcome. destruct HL as (_ & _ & _ & B & _). apply B.
  Qed.
  Lemma time_outcome t : outcome (asn1time2json lib t) (shows_time lib t).
  Proof. apply written_outcome. intros s E. destruct HL as (_ & _ & _ & _ & _ & _ & B & _). eapply B. exact E. Qed.
  Lemma algorithm_outcome o : outcome (json_str_or_null (nid2sn lib (obj2nid lib o))) (shows_algorithm lib o).
  Proof. apply some_text_outcome. intros t E. destruct HL as (_ & _ & _ & _ & _ & B & _). eapply B. exact E. Qed.
  Lemma attribute_outcome o : outcome (json_str_or_null (nid2ln lib (obj2nid lib o))) (shows_attribute lib o).
  Proof. apply some_text_outcome. intros t E. destruct HL as (_ & _ & _ & _ & B & _). eapply B. exact E. Qed.
  Lemma name_outcome n : name_bytes n -> outcome (name2json lib n) (shows_name lib n).
  Proof.
    intros H. unfold name2json, shows_name. struct. all_of H. destruct x as (o & d). cbn [fst snd] in *. unfold entry2json. struct; [apply attribute_outcome|apply text_outcome; assumption].
  Qed.
  Lemma point_outcome n : plain_point lib n -> outcome (dpname2json lib n) (shows_point lib n).
  Proof.
    intros H. destruct n as [l|l]; cbn [dpname2json shows_point plain_point] in *; [apply gns_outcome; assumption|].
    unfold rdn2json. all_of H. destruct K as (K1 & K2). struct; [apply object_outcome; assumption|apply bytes_outcome; assumption].
  Qed.
  Lemma dist_point_outcome dp : plain_dist_point lib dp -> outcome (dp2json lib dp) (shows_dist_point lib dp).
  Proof.
    intros (H1 & H2). unfold dp2json, shows_dist_point. struct.
    - apply outcome_or_null. intros x E. rewrite E in H1. apply point_outcome. assumption.
    - apply not_implemented_ok.
    - apply outcome_or_null. intros x E. rewrite E in H2. apply gns_outcome. assumption.
  Qed.
  Lemma policy_outcome p : plain_policy lib p -> outcome (pi2json lib p) (shows_policy lib p).
  Proof.
    intros (H1 & H2). unfold pi2json, shows_policy. struct; [apply object_outcome; assumption|].
    apply outcome_or_null. intros l E. rewrite E in H2. subst l. apply outcome_arr. constructor.
  Qed.

  Definition to_json (k : kind) : ext_value -> res json :=
    match k with
    | KBasic => bc2json | KId => ski2json | KAuthority => aki2json | KUsage => ku2json | KPoints => cdp2json lib | KAccess => aia2json lib
    | KPolicies => cp2json lib | KIp => ir2json | KAs => ar2json | KInteger => cn2json | KExtUsage => eku2json lib
    end.
  Lemma value_outcome v : plain_value lib v -> outcome (to_json (kind_of v) v) (shows_value lib v).
  Proof.
    intros H. destruct v; cbn [kind_of to_json shows_value plain_value] in *.
    - apply outcome_conv with (P := fields [("cA"%string, is (JBool ca)); ("pathLenConstraint"%string, absent_or shows_int pathlen)]); [|reflexivity].
      unfold bc2json. struct; [reflexivity|apply maybe_int].
    - eapply outcome_conv; [apply bytes_outcome; exact H|reflexivity].
    - eapply outcome_conv; [|intros j; reflexivity]. unfold aki2json. struct; [apply maybe_bytes; exact H|apply not_implemented_ok|apply maybe_int].
    - eapply outcome_conv; [apply usage_outcome|reflexivity].
    - eapply outcome_conv; [|intros j; reflexivity]. unfold cdp2json. all_of H. apply dist_point_outcome. assumption.
    - eapply outcome_conv; [|intros j; reflexivity]. unfold aia2json. all_of H. destruct K as (K1 & K2). struct; [apply object_outcome; assumption|apply gn_outcome; assumption].
    - eapply outcome_conv; [|intros j; reflexivity]. unfold cp2json. all_of H. apply policy_outcome. assumption.
    - eapply outcome_conv; [|intros j; reflexivity]. unfold ir2json. all_of H. apply family_outcome. assumption.
    - eapply outcome_conv; [|intros j; reflexivity]. unfold ar2json. struct; apply outcome_or_null; intros x _; apply as_choice_outcome.
    - eapply outcome_conv; [apply int_outcome|reflexivity].
    - eapply outcome_conv; [|intros j; reflexivity]. unfold eku2json. all_of H. apply object_outcome. assumption.
  Qed.

  (** The table of the code is that of the specification. *)
  Lemma table : map (fun e => (snd (fst e), to_json (snd e))) (known lib) = ext_metadatas lib.
  Proof. reflexivity. Qed.
  Lemma find_map {A B} (f : A -> B) (p : B -> bool) l : find p (map f l) = option_map f (find (fun x => p (f x)) l).
  Proof. induction l as [|x l IH]; [reflexivity|]. cbn [map find]. destruct (p (f x)); [reflexivity|exact IH]. Qed.
  Lemma nodup_key {A B} (f : A -> B) l : NoDup (map f l) -> forall x y, In x l -> In y l -> f x = f y -> x = y.
  Proof.
    induction l as [|a l IH]; intros N x y Hx Hy E; [contradiction|]. cbn [map] in N. inversion N as [|? ? N1 N2]; subst.
    destruct Hx as [<-|Hx], Hy as [<-|Hy]; [reflexivity| | |apply IH; assumption].
    - exfalso. apply N1. rewrite E. apply in_map. assumption.
    - exfalso. apply N1. rewrite <- E. apply in_map. assumption.
  Qed.
  Lemma ext_value_outcome e : plain_ext lib e -> outcome (ext2json lib e) (shows_extension_value lib e).
  Proof.
    intros (_ & Hd & Hv). destruct HL as (ND & N1 & N2 & _ & _ & _ & _ & KD). unfold ext2json. rewrite <- table, find_map. cbn [fst].
    destruct (find _ (known lib)) as [((o & n) & k)|] eqn:F; cbn [option_map].
    - apply find_some in F. cbn [fst snd] in F. destruct F as (F & En). apply Z.eqb_eq in En.
      assert (Ik : exists k', In (e_object e, n, k') (known lib)).
      { apply N2; [|symmetry; exact En]. apply in_map_iff. exists (o, n, k). split; [reflexivity|assumption]. }
      destruct Ik as (k' & Ik).
      assert (KK : is_known lib (e_object e)) by (exists n, k'; exact Ik).
      cbn [fst snd]. unfold ext2json_known.
      apply outcome_conv with (P := fun j => exists v, ext_d2i lib (e_object e) (e_data e) = Some v /\ shows_value lib v j).
      2:{ intros j. split; [intros K; left; split; assumption|intros [(_ & K)|(K & _)]; [exact K|contradiction]]. }
      destruct (ext_d2i lib (e_object e) (e_data e)) as [v|] eqn:Ed; [|cbn; intros j (v & K & _); discriminate].
      apply outcome_conv with (P := shows_value lib v); [|intros j; split; [intros K; exists v; split; [reflexivity|assumption]|intros (v' & [= <-] & K); exact K]].
      assert (Ek : k = k') by (pose proof (nodup_key _ _ ND _ _ F Ik eq_refl) as X; injection X as _ X; exact X).
      rewrite Ek, <- (KD _ _ _ _ _ Ik Ed). apply value_outcome. apply Hv. reflexivity.
    - assert (NK : ~ is_known lib (e_object e)).
      { intros (n & k & K). pose proof (N1 _ _ _ K) as E. pose proof (find_none _ _ F _ K) as X. cbn [fst snd] in X. rewrite E in X. rewrite Z.eqb_refl in X. discriminate. }
      apply outcome_conv with (P := shows_bytes (e_data e)); [apply bytes_outcome; assumption|].
      intros j. split; [intros K; right; split; assumption|intros [(K & _)|(_ & K)]; [contradiction|exact K]].
  Qed.
  Lemma exts_outcome l : Forall (plain_ext lib) l -> outcome (exts2json lib l) (shows_extensions lib l).
  Proof.
    intros H. unfold exts2json, shows_extensions. destruct l as [|e l]; [reflexivity|]. all_of H.
    struct; [apply object_outcome; apply K|reflexivity|apply ext_value_outcome; assumption].
  Qed.
  Lemma certificate_outcome x : plain_certificate lib x -> outcome (x509_to_json lib x) (shows_certificate lib x).
  Proof.
    intros (E & H1 & H2 & H3 & H4 & H5 & H6 & H7 & H8 & H9). unfold x509_to_json, shows_certificate.
    struct; [|apply object_outcome; assumption|apply bytes_outcome; assumption]. unfold tbsCert2json. struct.
    - reflexivity.
    - apply int_outcome.
    - rewrite E. apply algorithm_outcome.
    - apply name_outcome. assumption.
    - unfold validity2json. struct; apply time_outcome.
    - apply name_outcome. assumption.
    - unfold pk2json. struct; [apply object_outcome; assumption|]. apply written_outcome. intros t Et. unfold some_bytes in H4. rewrite Et in H4. exact H4.
    - apply maybe_bytes. assumption.
    - apply maybe_bytes. assumption.
    - apply exts_outcome. assumption.
  Qed.
  Lemma crl_outcome c : plain_crl lib c -> outcome (crl2json lib c) (shows_list lib c).
  Proof.
    intros (E & H1 & H2 & H3 & H4 & H5). unfold crl2json, shows_list.
    struct; [|apply object_outcome; assumption|apply bytes_outcome; assumption]. unfold tbsCertList2json. struct.
    - reflexivity.
    - rewrite E. apply algorithm_outcome.
    - apply name_outcome. assumption.
    - apply time_outcome.
    - apply outcome_or_null. intros t _. apply time_outcome.
    - unfold revokedCerts2json. all_of H2. unfold shows_revoked. struct; [apply int_outcome|apply time_outcome|apply exts_outcome; assumption].
    - apply exts_outcome. assumption.
  Qed.
End Library.
