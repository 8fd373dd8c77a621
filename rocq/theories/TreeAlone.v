(** C77: two validations of the same certificate, below the same path, but with
    other things in memory, come to the same. *)
From Coq Require Import String Permutation.
From Verif Require Import Base BaseLemmas CString Types DbTable Vrps VrpsSpec PathBuilder PathSpec PathProps Manifest ManifestSpec ManifestProofs ManifestProps SArray Asn1
  Resources ResourcesSpec ResourcesProofs2 ResourcesProofs4 ResourcesProps ResourcesSim Roa Objects CertBytes CertBytesProps
  SignedData SignedDataSpec Extensions ExtensionsSpec ExtensionsProps CertProfile CertProfileProps Tree TreeSpec TreeProofs TreeTotal TreeCrash TreeAloneSpec.
From Verif Require CertStack.
Notation length := List.length.

Lemma sane_rnd W r : sane W -> sane (with_rnd W r).
Proof. intros [A B C D E F G H I J]. constructor; assumption. Qed.
Lemma still_rnd W r : still W -> still (with_rnd W r).
Proof. intros [A B C D E]. constructor; assumption. Qed.

(** The last step is the only one that reads resources. *)
Lemma signed_object_sim (dec_oid dec_octets : list Z -> option (list Z)) sha256 act (cert refs res1 res2 : Type) (d2i : list Z -> option (cert * nat)) vc vr ve va evp
    (gr1 : cert -> rpki_policy -> res res1) (gr2 : cert -> rpki_policy -> res res2) (R : res1 -> res2 -> Prop) oid frames mem size sd :
  (forall b c n p, d2i b = Some (c, n) -> both R (gr1 c p) (gr2 c p)) ->
  both (fun x y => @fst refs res1 x = @fst refs res2 y /\ R (snd x) (snd y))
    (signed_object_validate dec_oid dec_octets sha256 act d2i vc vr ve va evp gr1 oid frames mem size sd)
    (signed_object_validate dec_oid dec_octets sha256 act d2i vc vr ve va evp gr2 oid frames mem size sd).
Proof.
  intros H. unfold signed_object_validate.
  assert (B : forall X (x : res X) (f : X -> res (refs * res1)) (g : X -> res (refs * res2)), (forall a, both (fun x y => fst x = fst y /\ R (snd x) (snd y)) (f a) (g a)) -> both (fun x y => fst x = fst y /\ R (snd x) (snd y)) (bind x f) (bind x g)).
  { intros X x f g K. destruct x; cbn; auto. }
  apply B. intros _. apply B. intros _. unfold signed_data_validate.
  destruct (sd_signers sd) as [|si [|? ?]]; [exact I| |exact I]. destruct (asn_INTEGER2ulong (sd_version sd)); [|exact I]. destruct (negb _); [exact I|].
  destruct (sd_digests sd) as [|alg [|? ?]]; [exact I| |exact I]. apply B. intros _. destruct (has_some (sd_crls sd)); [exact I|].
  destruct (asn_INTEGER2ulong (si_version si)); [|exact I]. destruct (negb _); [exact I|].
  apply B. intros sid. apply B. intros _. apply B. intros _. apply B. intros _. destruct (has_some (si_unsigned si)); [exact I|].
  destruct (sd_certs sd) as [[|c [|? ?]]|]; try exact I. unfold handle_sdata_certificate.
  destruct (d2i c) as [[x used]|] eqn:E; [|exact I]. destruct (negb _); [exact I|].
  apply B. intros _. apply B. intros _. apply B. intros y. apply B. intros _. apply B. intros _.
  eapply both_bind; [eapply H; exact E|]. intros a b K. cbn. auto.
Qed.

Section Alone.
  Context (W : world) (S : sane W) (Q : still W) (rnd1 rnd2 : nat -> nat -> Z).
  Let W1 := with_rnd W rnd1.
  Let W2 := with_rnd W rnd2.

  (** The same path, in two heaps. *)
  Definition samem (h1 h2 : heap) (m1 m2 : meta) : Prop := me_uri m1 = me_uri m2 /\ me_cert m1 = me_cert m2 /\ same h1 (me_resources m1) h2 (me_resources m2).
  Definition stacks (h1 h2 : heap) := Forall2 (samem h1 h2).
  Lemma stacks_ext h1 h2 h1' h2' s1 s2 : ext_of h1 h1' -> ext_of h2 h2' -> Forall (res_ok h1) (map me_resources s1) -> Forall (res_ok h2) (map me_resources s2) ->
    stacks h1 h2 s1 s2 -> stacks h1' h2' s1 s2.
  Proof.
    intros X1 X2 F1 F2 L. induction L as [|m1 m2 s1 s2 (A & B & C) L IH]; [constructor|]. inversion F1; inversion F2; subst.
    constructor; [|apply IH; assumption]. split; [exact A|]. split; [exact B|]. eapply same_ext; eassumption.
  Qed.
  Lemma stacks_trusted h1 h2 s1 s2 : stacks h1 h2 s1 s2 -> trusted s1 = trusted s2.
  Proof. intros L. induction L as [|m1 m2 s1 s2 (A & B & C) L IH]; [reflexivity|]. unfold trusted in *. cbn. congruence. Qed.
  Lemma stacks_top h1 h2 s1 s2 : stacks h1 h2 s1 s2 -> top s1 = top s2.
  Proof. intros L. destruct L as [|m1 m2 s1 s2 (A & B & C) L]; [reflexivity|]. unfold top. cbn. rewrite B. reflexivity. Qed.
  Lemma stacks_resources h1 h2 s1 s2 : stacks h1 h2 s1 s2 -> same_top h1 (top_resources s1) h2 (top_resources s2).
  Proof. intros L. destruct L as [|m1 m2 s1 s2 (A & B & C) L]; [exact I|exact C]. Qed.
  Lemma stacks_length h1 h2 s1 s2 : stacks h1 h2 s1 s2 -> length s1 = length s2.
  Proof. intros L. induction L; cbn; congruence. Qed.
  Lemma reach_parent h s : reachable (h, map me_resources s) -> parent_ok h (top_resources s).
  Proof. intros R. destruct (reachable_ok _ R) as (_ & F & _). cbn in F. rewrite <- peek_map. apply parent_of. exact F. Qed.
  Lemma reach_ok h s : reachable (h, map me_resources s) -> Forall (res_ok h) (map me_resources s).
  Proof. intros R. destruct (reachable_ok _ R) as (_ & F & _). exact F. Qed.

  (** *** Nothing else changes *)
  Lemma load_eq n m u : certificate_load W1 n u = certificate_load W2 m u.
  Proof. unfold certificate_load, W1, W2. cbn [with_rnd w_read w_load_X509]. rewrite (st_read W Q n m). reflexivity. Qed.
  Lemma crl_eq n m s1 s2 slot : top s1 = top s2 -> crl_of W1 n s1 slot = crl_of W2 m s2 slot.
  Proof. intros E. unfold crl_of, load_crl. rewrite E. change (w_read W1 n) with (w_read W n). rewrite (st_read W Q n m). reflexivity. Qed.
  Lemma chain_eq n m s1 s2 crl : trusted s1 = trusted s2 -> certificate_validate_chain W1 n s1 crl = certificate_validate_chain W2 m s2 crl.
  Proof.
    intros E. unfold certificate_validate_chain. rewrite E. change (w_verify W1 n) with (w_verify W n). change (w_verify_stale W1 n) with (w_verify_stale W n).
    rewrite (st_verify W Q n m), (st_verify_stale W Q n m). reflexivity.
  Qed.
  Lemma decode_eq n m u : signed_object_decode W1 n u = signed_object_decode W2 m u.
  Proof. unfold signed_object_decode. change (w_read W1 n) with (w_read W n). rewrite (st_read W Q n m). reflexivity. Qed.
  Lemma hash_eq n m : hash_file W1 n = hash_file W2 m.
  Proof. unfold hash_file. change (w_read W1 n) with (w_read W n). rewrite (st_read W Q n m). reflexivity. Qed.
  Lemma download_eq n m l : download_rpp W1 n l = download_rpp W2 m l.
  Proof. unfold download_rpp. change (w_download W1 n) with (w_download W n). rewrite (st_download W Q n m). reflexivity. Qed.

  (** *** Signed objects *)
  Definition pair_same (x y : heap * resources) : Prop := same (fst x) (snd x) (fst y) (snd y).
  Lemma object_sim n m h1 h2 s1 s2 crl oid f o : reachable (h1, map me_resources s1) -> reachable (h2, map me_resources s2) -> stacks h1 h2 s1 s2 ->
    both (fun x y => fst x = fst y /\ pair_same (snd x) (snd y)) (validate_object W1 n s1 h1 crl oid f o) (validate_object W2 m s2 h2 crl oid f o).
  Proof.
    intros R1 R2 L. unfold validate_object. rewrite (chain_eq n m s1 s2 crl (stacks_trusted _ _ _ _ L)). unfold validate_rfc6487, validate_ee. rewrite (stacks_top _ _ _ _ L).
    apply (signed_object_sim _ _ _ _ cert record (heap * resources) (heap * resources)). intros b c k p _.
    eapply both_bind with (R := outcome2).
    - apply get_resources_sim; [apply reach_parent; assumption..|apply stacks_resources; exact L].
    - intros [[a r] e] [[a' r'] e'] (K & <-). destruct (e =? 0); cbn; auto.
  Qed.
  (** The heap grows. *)
  Lemma object_heap n h s crl oid f o refs h' r : reachable (h, map me_resources s) ->
    validate_object W n s h crl oid f o = Ok (refs, (h', r)) -> ext_of h h' /\ reachable (h', map me_resources s).
  Proof.
    intros R H. unfold validate_object in H.
    assert (K : exists c p, Forall extension_ok (read_resources W c) /\ ee_resources h (top_resources s) p f (read_resources W c) = Ok (h', r, 0)).
    { unfold signed_object_validate in H.
      assert (B : forall X Y (x : res X) (f : X -> res Y) y, bind x f = Ok y -> exists a, x = Ok a /\ f a = Ok y) by (intros X Y x f0 y E; destruct x; cbn in E; try discriminate; eauto).
      apply B in H. destruct H as (_ & _ & H). apply B in H. destruct H as (_ & _ & H). unfold signed_data_validate in H.
      destruct (sd_signers _) as [|si [|? ?]]; try discriminate H. destruct (asn_INTEGER2ulong _); [|discriminate H]. destruct (negb _); [discriminate H|].
      destruct (sd_digests _) as [|alg [|? ?]]; try discriminate H. apply B in H. destruct H as (_ & _ & H). destruct (has_some _); [discriminate H|].
      destruct (asn_INTEGER2ulong _); [|discriminate H]. destruct (negb _); [discriminate H|].
      apply B in H. destruct H as (sid & _ & H). apply B in H. destruct H as (_ & _ & H). apply B in H. destruct H as (_ & _ & H). apply B in H. destruct H as (_ & _ & H).
      destruct (has_some _); [discriminate H|]. destruct (sd_certs _) as [[|c [|? ?]]|]; try discriminate H. unfold handle_sdata_certificate in H.
      destruct (w_d2i_X509 W c) as [[x used]|] eqn:E; [|discriminate H]. destruct (negb _); [discriminate H|].
      apply B in H. destruct H as (_ & _ & H). apply B in H. destruct H as (_ & _ & H). apply B in H. destruct H as (y & _ & H). apply B in H. destruct H as (_ & _ & H). apply B in H. destruct H as (_ & _ & H).
      apply B in H. destruct H as ([h0 r0] & H & H'). injection H' as _ -> ->. apply B in H. destruct H as ([[h0 r0] e] & H & H').
      destruct (Z.eqb_spec e 0) as [Ez|]; [|discriminate H']. subst e. injection H' as -> ->.
      exists x, (policy_of (snd y)). split; [|exact H]. apply (read_exts W S). apply (sa_ee W S _ _ _ E). }
    destruct K as (c & p & Fc & K). split.
    - destruct (reachable_ok _ R) as (Hh & Hs & _). pose proof (cert_step h (top_resources s) p f Resources.CERTYPE_EE _ Hh (reach_parent _ _ R) Fc) as C.
      unfold ee_resources in K. rewrite K in C. apply C.
    - eapply (reach_step _ (OpEE p f (read_resources W c))); [exact R|exact Fc|]. cbn [stack_step]. rewrite peek_map, K. reflexivity.
  Qed.

  (** *** Publication points *)
  Definition pps (p1 p2 : pp) : Prop :=
    (exists cu, pp_crl (pp_files p1) = Some cu /\ pp_crl (pp_files p2) = Some cu) /\ Permutation (pp_certs (pp_files p1)) (pp_certs (pp_files p2)) /\
    Permutation (pp_roas (pp_files p1)) (pp_roas (pp_files p2)) /\ pp_slot p1 = pp_slot p2.

  Lemma cage_nul mft notif uri : printable (u_global mft) -> (forall nu, notif = Some nu -> printable (u_global nu)) -> cage W mft notif = Ok uri -> ~ In 0 (u_global uri).
  Proof.
    intros Pm Pn H. unfold cage in H. destruct notif as [nu|]; [|injection H as <-; apply printable_no_nul; exact Pm].
    assert (Cf : conf_ok (w_repository W) (w_tal W) (Some (u_global nu))).
    { destruct (sa_conf W S) as (C1 & C2 & _). split; [exact C1|]. split; [exact C2|]. cbn. apply printable_no_nul. apply Pn. reflexivity. }
    apply C27_contained in H; [|exact Cf]. destruct H as (-> & P & _). apply printable_no_nul; exact P.
  Qed.

  (** Whatever the shuffle. *)
  Lemma build_sim n m notif uri l : ~ In 0 (u_global uri) -> ~ In 0 (opt notif) -> Z.of_nat (length l) <= 2147483647 ->
    both (fun f1 f2 => (exists cu, pp_crl f1 = Some cu /\ pp_crl f2 = Some cu) /\ Permutation (pp_certs f1) (pp_certs f2) /\ Permutation (pp_roas f1) (pp_roas f2))
      (build_rpp (w_J W) (w_repository W) (w_tal W) notif (hash_file W1 n) (w_not_found W) (w_not_match W) (rnd1 n) uri l)
      (build_rpp (w_J W) (w_repository W) (w_tal W) notif (hash_file W2 m) (w_not_found W) (w_not_match W) (rnd2 m) uri l).
  Proof.
    intros N1 N2 Hl. rewrite (hash_eq n m). change (hash_file W2 m) with (hash_file W m).
    destruct l as [|x l0] eqn:El; [unfold build_rpp; rewrite !C40_empty_refuted; exact I|]. rewrite <- El in *. assert (Hne : l <> []) by (rewrite El; discriminate). clear El x l0.
    assert (Hz : forall p, hash_file W m p <> inl 0).
    { intros p K. unfold hash_file in K. destruct (w_read W m p) as [e|b] eqn:E; [injection K as ->; exact (sa_errno W S _ _ E)|]. destruct (w_sha256 W b); discriminate K. }
    assert (U : forall rnd, build_rpp (w_J W) (w_repository W) (w_tal W) notif (hash_file W m) (w_not_found W) (w_not_match W) rnd uri l <> UB).
    { intros rnd. unfold build_rpp. destruct (C40_permutation_partial rnd l Hne Hl) as (l' & -> & _). cbn [bind].
      pose proof (build_loop_nub (w_J W) (w_repository W) (w_tal W) notif (hash_file W m) (w_not_found W) (w_not_match W) uri l' rpp_create
        (fun f _ => mft_safe W S _ uri (f_file f) N1 N2)) as B.
      destruct (build_loop _ _ _ _ _ _ _ _ _ _) as [pp| |]; cbn [bind]; [|discriminate|congruence]. destruct (pp_crl pp); discriminate. }
    assert (K : forall r1 r2 f1, build_rpp (w_J W) (w_repository W) (w_tal W) notif (hash_file W m) (w_not_found W) (w_not_match W) r1 uri l = Ok f1 ->
      exists f2, build_rpp (w_J W) (w_repository W) (w_tal W) notif (hash_file W m) (w_not_found W) (w_not_match W) r2 uri l = Ok f2 /\
        (exists cu, pp_crl f1 = Some cu /\ pp_crl f2 = Some cu) /\ Permutation (pp_certs f1) (pp_certs f2) /\ Permutation (pp_roas f1) (pp_roas f2)).
    { intros r1 r2 f1 H. destruct (C41_shuffle _ _ _ _ _ _ _ _ r1 r2 l f1 Hz Hne Hl H) as (f2 & H2 & A & B & C & _). exists f2. split; [exact H2|].
      destruct (C41_sound _ _ _ _ _ _ _ _ r1 l f1 Hz Hne Hl H) as (us & c & _ & Hc & _). split; [exists c; split; [exact Hc|rewrite A; exact Hc]|].
      split; symmetry; assumption. }
    pose proof (U (rnd1 n)) as U1. pose proof (U (rnd2 m)) as U2. pose proof (K (rnd1 n) (rnd2 m)) as K1. pose proof (K (rnd2 m) (rnd1 n)) as K2.
    destruct (build_rpp _ _ _ _ _ _ _ (rnd1 n) _ _) as [f1| |]; [| |congruence].
    - destruct (K1 f1 eq_refl) as (f2 & -> & Hf). exact Hf.
    - destruct (build_rpp _ _ _ _ _ _ _ (rnd2 m) _ _) as [f2| |]; [|exact I|congruence]. destruct (K2 f2 eq_refl) as (f1 & Hf & _). discriminate Hf.
  Qed.

  Lemma manifest_sim n m h1 h2 s1 s2 mft notif : reachable (h1, map me_resources s1) -> reachable (h2, map me_resources s2) -> stacks h1 h2 s1 s2 ->
    printable (u_global mft) -> (forall nu, notif = Some nu -> printable (u_global nu)) ->
    both (fun x y => pps (snd x) (snd y)) (handle_manifest W1 n s1 h1 mft notif) (handle_manifest W2 m s2 h2 mft notif).
  Proof.
    intros R1 R2 L Pm Pn. unfold handle_manifest. change (cage W1 mft notif) with (cage W mft notif). change (cage W2 mft notif) with (cage W mft notif).
    destruct (cage W mft notif) as [uri| |] eqn:Ec; cbn [bind]; [|exact I..]. pose proof (cage_nul _ _ _ Pm Pn Ec) as N1.
    assert (N2 : ~ In 0 (opt (option_map u_global notif))) by (destruct notif as [nu|]; [apply printable_no_nul; apply Pn; reflexivity|intros []]).
    rewrite (decode_eq n m uri). change (signed_object_decode W2 m uri) with (signed_object_decode W m uri). destruct (signed_object_decode W m uri) as [o| |] eqn:Ho; cbn [bind]; [|exact I..].
    destruct (sd_econtent (snd o)) as [body|] eqn:Hbody; [|exact I]. change (w_nobuf W1) with (w_nobuf W). change (w_nobuf W2) with (w_nobuf W). change (w_turns W1) with (w_turns W). change (w_turns W2) with (w_turns W).
    destruct (decode_manifest (w_nobuf W) (w_turns W) body) as [mf|] eqn:Hm; [|exact I].
    destruct (body_facts W S m uri o body Ho Hbody) as (Bbody & Zbody). pose proof (manifest_length _ _ _ _ Bbody (sa_turns W S) Hm) as Hlen.
    eapply both_bind; [apply (build_sim (n + 1) (m + 1) (option_map u_global notif) uri (m_files mf)); [exact N1|exact N2|lia]|].
    intros f1 f2 ((cu & C1 & C2) & Pc & Pr). unfold crl_uri. rewrite C1, C2. cbn [option_map].
    rewrite (crl_eq (n + 2) (m + 2) s1 s2 _ (stacks_top _ _ _ _ L)). destruct (crl_of W2 (m + 2) s2 _) as [[slot crl]| |]; cbn [bind]; [|exact I..].
    destruct crl as [crl| |]; cbn [bind]; [|exact I..].
    eapply both_bind; [apply (object_sim (n + 3) (m + 3)); eassumption|]. intros [refs1 [h1' r1]] [refs2 [h2' r2]] (E & _). cbn [fst] in E. subst refs2.
    change (w_now W1 (n + 4)) with (w_now W (n + 4)). rewrite (st_now W Q (n + 4) (m + 4)). change (w_now W2 (m + 4)) with (w_now W (m + 4)).
    change (w_mft_stale W1) with (w_mft_stale W). change (w_mft_stale W2) with (w_mft_stale W).
    destruct (validate_manifest (w_now W (m + 4)) (w_mft_stale W) mf) as [e| |]; cbn [bind]; [|exact I..]. destruct (negb (e =? 0)); [exact I|].
    destruct (refs_validate_ee refs1 _ _) as [x| |]; cbn [bind]; [|exact I..]. destruct slot as [slot|]; [|exact I]. cbn. unfold pps. cbn. eauto 10.
  Qed.
  Lemma manifest_heap n h s mft notif h' p : reachable (h, map me_resources s) -> handle_manifest W1 n s h mft notif = Ok (h', p) -> ext_of h h' /\ reachable (h', map me_resources s).
  Proof.
    intros R H. unfold handle_manifest in H.
    assert (B : forall X Y (x : res X) (f : X -> res Y) y, bind x f = Ok y -> exists a, x = Ok a /\ f a = Ok y) by (intros X Y x f0 y E; destruct x; cbn in E; try discriminate; eauto).
    apply B in H. destruct H as (uri & _ & H). apply B in H. destruct H as (o & _ & H). destruct (sd_econtent (snd o)); [|discriminate H]. destruct (decode_manifest _ _ _) as [mf|]; [|discriminate H].
    apply B in H. destruct H as (files & _ & H). apply B in H. destruct H as ([slot crl] & _ & H). apply B in H. destruct H as (crl' & _ & H).
    apply B in H. destruct H as ([refs [h1 r]] & Hv & H). apply B in H. destruct H as (e & _ & H). destruct (negb (e =? 0)); [discriminate H|].
    apply B in H. destruct H as (_ & _ & H). destruct slot; [|discriminate H]. injection H as -> _. eapply (object_heap (n + 3)); [exact R|exact Hv].
  Qed.
End Alone.
