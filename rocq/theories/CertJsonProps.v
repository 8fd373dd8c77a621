(** C102: what print mode shows of certificates and CRLs. *)
From Coq Require Import String Lia.
From Verif Require Import Base BaseLemmas CString Slurm Oid Ntop NtopSpec PduWireSpec Address AddressSpec BerSpec JsonEncSpec JsonEnc
  JsonEncProofs6 CertJsonTypes CertJson CertJsonSpec CertJsonProofs CertJsonProofs2.
Notation length := List.length.
Open Scope list_scope.
Open Scope Z_scope.

(** Print mode shows a certificate exactly as it is, or doesn't show it because it has something that can't be
    shown (an undecodable extension, a text that isn't UTF-8, an empty string of bytes...); it doesn't crash.
    Missing: certificates that aren't [plain_certificate], see the _refuted theorems below. *)
Theorem C102_certificate_partial : forall lib x, library lib -> plain_certificate lib x -> outcome (x509_to_json lib x) (shows_certificate lib x).
Proof. intros lib x HL H. apply certificate_outcome; assumption. Qed.
Print Assumptions C102_certificate_partial.

(** The same of CRLs. *)
Theorem C102_crl_partial : forall lib c, library lib -> plain_crl lib c -> outcome (crl2json lib c) (shows_list lib c).
Proof. intros lib c HL H. apply crl_outcome; assumption. Qed.
Print Assumptions C102_crl_partial.

(** Serial numbers, AS numbers and CRL numbers, of any size: no two are shown alike. *)
Lemma fold_nonneg s : Forall (fun c => upper_digit c = true) s -> forall n, 0 <= n -> n <= fold_left (fun n c => 16 * n + upper_value c) s n.
Proof.
  induction 1 as [|c s Hc _ IH]; intros n Hn; [cbn; lia|]. cbn [fold_left].
  assert (0 <= upper_value c) by (unfold upper_digit, upper_value in *; destruct (c <? 58) eqn:E; lia).
  specialize (IH (16 * n + upper_value c) ltac:(lia)). lia.
Qed.
Lemma text_positive a b s n : integer_text (a :: b :: s) n -> a <> 45 ->
  n = fold_left (fun n c => 16 * n + upper_value c) (a :: b :: s) 0.
Proof.
  intros H N. remember (a :: b :: s) as t eqn:Et. destruct H as [|a' b' s' F Ev P|s' n' Hn H].
  - discriminate.
  - reflexivity.
  - cbn in Et. injection Et as E1 E2. exfalso. apply N. symmetry. exact E1.
Qed.
Lemma text_first s n : integer_text s n -> (0 < n -> exists a b t, s = a :: b :: t /\ a <> 45) /\ (n = 0 -> s = cstr "0") /\ (n < 0 -> exists t, s = 45 :: t /\ integer_text t (- n) ).
Proof.
  intros H. destruct H as [|a b s F Ev P|s n Hn H].
  - split; [lia|]. split; [reflexivity|lia].
  - assert (0 < fold_left (fun n c => 16 * n + upper_value c) (a :: b :: s) 0).
    { cbn [fold_left]. inversion F as [|? ? Fa F']; subst. inversion F' as [|? ? Fb F'']; subst. pose proof (fold_nonneg s F'' (16 * (16 * 0 + upper_value a) + upper_value b) ltac:(lia)). lia. }
    split; [intros _|split; lia]. exists a, b, s. split; [reflexivity|]. inversion F; subst. intros ->. discriminate.
  - split; [lia|]. split; [lia|]. intros _. exists s. split; [reflexivity|]. rewrite Z.opp_involutive. assumption.
Qed.
Theorem C102_integers : forall n m j, shows_int n j -> shows_int m j -> n = m.
Proof.
  intros n m j (s & Hs & ->) (t & Ht & [= <-]).
  assert (P : forall s n m, integer_text s n -> integer_text s m -> 0 < n -> n = m).
  { clear. intros s n m Hn Hm P. destruct (text_first _ _ Hn) as (A & _). destruct (A P) as (a & b & u & -> & N).
    rewrite (text_positive _ _ _ _ Hn N), (text_positive _ _ _ _ Hm N). reflexivity. }
  destruct (Z.lt_trichotomy n 0) as [Ln|[->|Ln]]; [|destruct (Z.lt_trichotomy m 0) as [Lm|[->|Lm]]; [|reflexivity|]|eapply P; eassumption].
  - destruct (Z.lt_trichotomy m 0) as [Lm|[->|Lm]]; [| |symmetry; eapply P; eassumption].
    + destruct (text_first _ _ Hs) as (_ & _ & A). destruct (A Ln) as (u & -> & Hu). destruct (text_first _ _ Ht) as (_ & _ & B). destruct (B Lm) as (v & [= <-] & Hv).
      assert (- n = - m) by (eapply P; [eassumption|eassumption|lia]). lia.
    + destruct (text_first _ _ Hs) as (_ & _ & A). destruct (A Ln) as (u & -> & _). destruct (text_first _ _ Ht) as (_ & B & _). specialize (B eq_refl). discriminate.
  - destruct (text_first _ _ Ht) as (_ & _ & A). destruct (A Lm) as (u & -> & _). destruct (text_first _ _ Hs) as (_ & B & _). specialize (B eq_refl). discriminate.
  - symmetry. eapply P; eassumption.
Qed.
Print Assumptions C102_integers.

(** ** A concrete library and certificate *)

Definition objects1 : list (object * Z * kind * ext_value) :=
  [([2; 5; 29; 19], 87, KBasic, XBasicConstraints true (Some 0)); ([2; 5; 29; 14], 82, KId, XKeyIdentifier [10; 11]);
   ([2; 5; 29; 35], 90, KAuthority, XAuthorityKey (Some [12]) false None); ([2; 5; 29; 15], 83, KUsage, XKeyUsage [6]);
   ([2; 5; 29; 31], 103, KPoints, XDistPoints [{| dp_point := Some (FullName [GenUri (cstr "rsync://a/b.crl")]); dp_reasons := false; dp_issuer := None |}]);
   ([1; 3; 6; 1; 5; 5; 7; 1; 1], 177, KAccess, XInfoAccess [([1; 3; 6; 1; 5; 5; 7; 48; 2], GenUri (cstr "rsync://a/b.cer"))]);
   ([1; 3; 6; 1; 5; 5; 7; 1; 11], 398, KAccess, XInfoAccess []);
   ([2; 5; 29; 32], 89, KPolicies, XPolicies [{| po_id := [1; 3; 6; 1; 5; 5; 7; 14; 2]; po_qualifiers := None |}]);
   ([1; 3; 6; 1; 5; 5; 7; 1; 7], 290, KIp, XIpBlocks [{| if_family := [0; 1]; if_choice := IpItems [IpPrefix {| bs_buf := [192; 0; 2]; bs_unused := 0 |}] |};
                                                   {| if_family := [0; 2]; if_choice := IpInherit |}]);
   ([1; 3; 6; 1; 5; 5; 7; 1; 8], 291, KAs, XAsIds (Some (AsItems [AsId 64496; AsRange 64500 64510])) None);
   ([1; 3; 6; 1; 5; 5; 7; 1; 28], 1300, KIp, XIpBlocks []); ([1; 3; 6; 1; 5; 5; 7; 1; 29], 1301, KAs, XAsIds None None);
   ([2; 5; 29; 20], 88, KInteger, XInteger 7); ([2; 5; 29; 37], 126, KExtUsage, XExtKeyUsage [[1; 3; 6; 1; 5; 5; 7; 3; 30]])].
Definition object_is (o : object) (e : object * Z * kind * ext_value) : bool := list_eqb Z.eqb (fst (fst (fst e))) o.
Fixpoint dots (o : object) : list Z := match o with [] => [] | [n] => udec (n mod 4294967296) | n :: o => udec (n mod 4294967296) ++ [46] ++ dots o end.
(** (The extensions of RFC 8360: libcrypto doesn't decode them.) *)
Definition with_values (special : object -> option ext_value) : libcrypto :=
  {| obj2nid := fun o => match find (object_is o) objects1 with Some (_, n, _, _) => n | None => 0 end;
     obj2txt := fun o => map (fun c => Z.land c 127) (dots o);
     nid2ln := fun n => Some (cstr "commonName"); nid2sn := fun n => if n =? 0 then Some (cstr "UNDEF") else Some (cstr "RSA");
     time_print := fun t => Some (cstr "2026-11-18");
     ext_d2i := fun o d =>
       match find (object_is o) objects1 with
       | Some (_, n, k, v) =>
           if (n =? 1300) || (n =? 1301) then None
           else match special o with
                | Some w => if (match k, kind_of w with KPolicies, KPolicies => true | KIp, KIp => true | _, _ => false end) then Some w else Some v
                | None => Some v
                end
       | None => None
       end;
     nid_ip2 := 1300; nid_as2 := 1301 |}.
Definition lib1 : libcrypto := with_values (fun _ => None).

Lemma object_is_spec o e : object_is o e = true <-> fst (fst (fst e)) = o.
Proof. unfold object_is. apply list_eqb_spec. exact Z.eqb_eq. Qed.
Lemma known1 special : known (with_values special) = map fst objects1.
Proof. reflexivity. Qed.
Lemma find_object e : In e objects1 -> find (object_is (fst (fst (fst e)))) objects1 = Some e.
Proof.
  intros H. repeat (destruct H as [<-|H]; [vm_compute; reflexivity|]). contradiction.
Qed.
Lemma udec_small n : 0 <= n < 4294967296 -> bytes (udec n).
Proof. intros H. assert (U : is_u32 n) by (unfold is_u32; lia). pose proof (udec_ascii n U) as F. eapply Forall_impl; [|exact F]. unfold is_byte. cbn. lia. Qed.
Lemma library1 special : library (with_values special).
Proof.
  unfold library. rewrite known1. split.
  { vm_compute. repeat (apply NoDup_cons; [intros K; repeat (destruct K as [K|K]; [discriminate|]); contradiction|]). apply NoDup_nil. }
  split.
  { intros o n k H. apply in_map_iff in H. destruct H as (e & E & H). pose proof (find_object e H) as F. destruct e as (((o' & n') & k') & v). cbn [fst] in *. injection E as -> -> ->.
    unfold with_values. cbn [obj2nid]. rewrite F. reflexivity. }
  split.
  { intros o n Hn E. unfold with_values in E. cbn [obj2nid] in E. destruct (find (object_is o) objects1) as [(((o' & n') & k) & v)|] eqn:F.
    - apply find_some in F. destruct F as (Hi & Eo). apply object_is_spec in Eo. cbn [fst] in Eo. subst. exists k. apply in_map_iff. exists (o, n, k, v). split; [reflexivity|assumption].
    - subst n. exfalso. vm_compute in Hn. repeat (destruct Hn as [Hn|Hn]; [discriminate|]). contradiction. }
  split.
  { intros o. unfold with_values. cbn [obj2txt]. apply Forall_forall. intros c Hc. apply in_map_iff in Hc. destruct Hc as (d & <- & _). unfold is_byte. change 127 with (Z.ones 7). rewrite Z.land_ones by lia. pose proof (Z.mod_pos_bound d (2 ^ 7) ltac:(lia)). lia. }
  split; [intros n t [= <-]; vm_compute; repeat (constructor; [split; [discriminate|reflexivity]|]); constructor|].
  split; [intros n t E; unfold with_values in E; cbn [nid2sn] in E; destruct (n =? 0); injection E as <-; vm_compute; repeat (constructor; [split; [discriminate|reflexivity]|]); constructor|].
  split; [intros n t [= <-]; vm_compute; repeat (constructor; [split; [discriminate|reflexivity]|]); constructor|].
  intros o n k d v H Ed. apply in_map_iff in H. destruct H as (e & E & H). pose proof (find_object e H) as F. destruct e as (((o' & n') & k') & v'). cbn [fst] in *. injection E as -> -> ->.
  unfold with_values in Ed. cbn [ext_d2i] in Ed. rewrite F in Ed. assert (Ek : kind_of v' = k).
  { repeat (destruct H as [[= <- <- <- <-]|H]; [reflexivity|]). contradiction. }
  destruct ((n =? 1300) || (n =? 1301)); [discriminate|]. destruct (special o) as [w|]; [|injection Ed as <-; exact Ek].
  destruct k, (kind_of w) eqn:Ew; injection Ed as <-; assumption.
Qed.

Definition ext1 (o : object) : x_ext := {| e_object := o; e_critical := true; e_data := [1; 2] |}.
Definition cert1 (exts : list object) : x_cert :=
  {| c_version := 2; c_serial := 123456789012345678901234567890; c_tbs_alg := [1; 2]; c_issuer := [([2; 5; 4; 3], cstr "TA")];
     c_not_before := [1]; c_not_after := [2]; c_subject := [([2; 5; 4; 3], cstr "CA")]; c_pk_alg := [1; 2; 840]; c_pk := Some (cstr "-----BEGIN PUBLIC KEY-----");
     c_iuid := None; c_suid := None; c_exts := map ext1 exts; c_alg := [1; 2]; c_sig := [9; 8; 7] |}.
Definition common : list object :=
  [[2; 5; 29; 19]; [2; 5; 29; 14]; [2; 5; 29; 35]; [2; 5; 29; 15]; [2; 5; 29; 31]; [1; 3; 6; 1; 5; 5; 7; 1; 1]; [1; 3; 6; 1; 5; 5; 7; 1; 11]; [2; 5; 29; 32];
   [1; 3; 6; 1; 5; 5; 7; 1; 7]; [1; 3; 6; 1; 5; 5; 7; 1; 8]; [2; 5; 29; 37]; [1; 2; 3; 4]].
Ltac ascii := vm_compute; repeat (apply Forall_cons; [split; [discriminate|reflexivity]|]); apply Forall_nil.
Ltac len := unfold short; apply Nat.leb_le; vm_compute; reflexivity.
Example C102_nonvacuous : plain_certificate lib1 (cert1 common) /\ (exists j, x509_to_json lib1 (cert1 common) = Ok j) /\
  outcome (x509_to_json lib1 (cert1 common)) (fun j => json_object_get j (cstr "signatureValue") = Some (JStr (cstr "090807"))).
Proof.
  split; [|split; [eexists; vm_compute; reflexivity|vm_compute; reflexivity]].
  unfold plain_certificate. split; [reflexivity|]. split; [apply Forall_cons; [ascii|apply Forall_nil]|]. split; [apply Forall_cons; [ascii|apply Forall_nil]|]. split; [len|]. split; [cbn [some_bytes c_pk cert1]; ascii|].
  split; [exact Logic.I|]. split; [exact Logic.I|]. split; [|split; [len|ascii]].
  cbn [c_exts cert1 map common].
  repeat (apply Forall_cons; [split; [len|split; [ascii|]]; intros v Ev; vm_compute in Ev; try discriminate Ev; injection Ev as <-; cbn [plain_value]|]); [..|apply Forall_nil].
  - exact Logic.I.
  - ascii.
  - cbn [some_bytes]. ascii.
  - ascii.
  - apply Forall_cons; [|apply Forall_nil]. split; [|exact Logic.I]. cbn [dp_point plain_point]. apply Forall_cons; [|apply Forall_nil]. cbn [gn_bytes]. ascii.
  - apply Forall_cons; [split; [len|cbn [snd gn_bytes]; ascii]|apply Forall_nil].
  - apply Forall_nil.
  - apply Forall_cons; [split; [len|exact Logic.I]|apply Forall_nil].
  - apply Forall_cons; [|apply Forall_cons; [exact Logic.I|apply Forall_nil]]. split; [intros _|intros K; discriminate].
    apply Forall_cons; [|apply Forall_nil]. split; [ascii|]. exists 3221225984, 24. unfold denotes. cbn [bs_buf bs_unused length]. change (Z.of_nat 3) with 3. change (32 - 8 * 3) with 8. split; [lia|]. split; [lia|]. split; [reflexivity|]. split; [lia|]. split; vm_compute; reflexivity.
  - exact Logic.I.
  - apply Forall_cons; [len|apply Forall_nil].
Qed.

(** ** What isn't shown *)

Lemma arr_ok {A} (f : A -> res json) l j x : arr f l = Ok j -> In x l -> exists jx, f x = Ok jx.
Proof.
  unfold arr. generalize (@nil json). induction l as [|y l IH]; intros acc H Hx; [contradiction|]. cbn [fold_left bind] in H.
  destruct (f y) as [jy|e|] eqn:E; cbn [json_array_add] in H.
  - destruct Hx as [<-|Hx]; [exists jy; assumption|]. eapply IH; eassumption.
  - rewrite fold_err in H. discriminate.
  - exfalso. assert (U : fold_left (fun m x => bind m (fun m => json_array_add m (f x))) l UB = UB) by (clear; induction l as [|z l IH]; [reflexivity|exact IH]).
    rewrite U in H. discriminate.
Qed.
Lemma obj_ok l j p : obj l = Ok j -> In p l -> exists jx, snd p = Ok jx.
Proof.
  unfold obj. generalize (@nil (list Z * json)). induction l as [|y l IH]; intros acc H Hx; [contradiction|]. cbn [fold_left bind] in H.
  destruct (snd y) as [jy|e|] eqn:E; cbn [json_object_add] in H.
  - destruct Hx as [<-|Hx]; [exists jy; assumption|]. eapply IH; eassumption.
  - rewrite fold_obj_err in H. discriminate.
  - exfalso. assert (U : fold_left (fun m p => bind m (fun m => json_object_add m (cstr (fst p)) (snd p))) l UB = UB) by (clear; induction l as [|z l IH]; [reflexivity|exact IH]).
    rewrite U in H. discriminate.
Qed.
Lemma exts_ok lib l j e : exts2json lib l = Ok j -> In e l -> exists je, ext2json lib e = Ok je.
Proof.
  intros H He. destruct l as [|e0 l]; [contradiction|]. cbn [exts2json] in H. eapply arr_ok in H; [|exact He]. destruct H as (je & H). cbv beta in H.
  eapply obj_ok in H; [|right; right; left; reflexivity]. exact H.
Qed.
Lemma cert_ok lib x j e : x509_to_json lib x = Ok j -> In e (c_exts x) -> exists je, ext2json lib e = Ok je.
Proof.
  intros H He. unfold x509_to_json in H. eapply obj_ok in H; [|left; reflexivity]. destruct H as (jt & H). cbn [snd] in H. unfold tbsCert2json in H.
  destruct (obj_ok _ _ ("extensions"%string, exts2json lib (c_exts x)) H) as (je & E); [do 9 right; left; reflexivity|]. cbn [snd] in E.
  eapply exts_ok; eassumption.
Qed.
Lemma crl_ok lib c j e : crl2json lib c = Ok j -> In e (l_exts c) -> exists je, ext2json lib e = Ok je.
Proof.
  intros H He. unfold crl2json in H. eapply obj_ok in H; [|left; reflexivity]. destruct H as (jt & H). cbn [snd] in H. unfold tbsCertList2json in H.
  destruct (obj_ok _ _ ("crlExtensions"%string, exts2json lib (l_exts c)) H) as (je & E); [do 6 right; left; reflexivity|]. cbn [snd] in E.
  eapply exts_ok; eassumption.
Qed.
Lemma ext_known lib e n k : library lib -> In (e_object e, n, k) (known lib) -> ext2json lib e = ext2json_known lib (to_json lib k) e.
Proof.
  intros (ND & N1 & N2 & _) H. unfold ext2json. rewrite <- table, find_map. cbn [fst]. rewrite (N1 _ _ _ H).
  destruct (find _ (known lib)) as [((o & n') & k')|] eqn:F.
  - apply find_some in F. cbn [fst snd] in F. destruct F as (F & E). apply Z.eqb_eq in E. subst n'.
    pose proof (nodup_key _ _ ND _ _ F H eq_refl) as X. injection X as _ ->. reflexivity.
  - pose proof (find_none _ _ F _ H) as X. cbn [fst snd] in X. rewrite Z.eqb_refl in X. discriminate.
Qed.

(** A certificate that has a policy with a qualifier, which the RPKI's certificates may have (RFC 7318), is never shown:
    src/extension.c [pq2json] returns NULL even if all went well. *)
Theorem C102_qualifier_refuted : forall lib x e ps p q qs, library lib -> In e (c_exts x) -> e_object e = [2; 5; 29; 32] ->
  ext_d2i lib (e_object e) (e_data e) = Some (XPolicies ps) -> In p ps -> po_qualifiers p = Some (q :: qs) ->
  forall j, x509_to_json lib x <> Ok j.
Proof.
  intros lib x e ps p q qs HL He Eo Ed Hp Hq j H. destruct (cert_ok lib x j e H He) as (je & E).
  rewrite (ext_known lib e 89 KPolicies HL) in E by (rewrite Eo; do 7 right; left; reflexivity). unfold ext2json_known in E. rewrite Ed in E. cbn [to_json cp2json] in E.
  destruct (arr_ok _ _ _ _ E Hp) as (jp & Ep). unfold pi2json in Ep. eapply obj_ok in Ep; [|right; left; reflexivity]. destruct Ep as (jq & Eq). cbn [snd] in Eq. rewrite Hq in Eq. cbn [or_null] in Eq.
  destruct (arr_ok _ _ _ q Eq) as (jx & Ex); [left; reflexivity|]. unfold pq2json in Ex. destruct (obj _); discriminate.
Qed.
Print Assumptions C102_qualifier_refuted.

(** Neither is one with an extension libcrypto can't decode; it doesn't know those of RFC 8360 (nid_init() gives
    them a number, not a decoder). *)
Theorem C102_amended_refuted : forall lib x e, library lib -> In e (c_exts x) ->
  e_object e = [1; 3; 6; 1; 5; 5; 7; 1; 28] \/ e_object e = [1; 3; 6; 1; 5; 5; 7; 1; 29] ->
  ext_d2i lib (e_object e) (e_data e) = None ->
  forall j, x509_to_json lib x <> Ok j.
Proof.
  intros lib x e HL He Eo Ed j H. destruct (cert_ok lib x j e H He) as (je & E).
  destruct Eo as [Eo|Eo].
  - rewrite (ext_known lib e (nid_ip2 lib) KIp HL) in E by (rewrite Eo; do 10 right; left; reflexivity). unfold ext2json_known in E. rewrite Ed in E. discriminate.
  - rewrite (ext_known lib e (nid_as2 lib) KAs HL) in E by (rewrite Eo; do 11 right; left; reflexivity). unfold ext2json_known in E. rewrite Ed in E. discriminate.
Qed.
Print Assumptions C102_amended_refuted.

(** Nor one, or a CRL, with an extension which isn't known and is empty (its OCTET STRING has no bytes). *)
Theorem C102_empty_refuted : forall lib e, library lib -> ~ is_known lib (e_object e) -> e_data e = [] ->
  (forall x j, In e (c_exts x) -> x509_to_json lib x <> Ok j) /\ (forall c j, In e (l_exts c) -> crl2json lib c <> Ok j).
Proof.
  intros lib e HL NK Ed.
  assert (N : forall je, ext2json lib e <> Ok je).
  { intros je. destruct HL as (_ & N1 & N2 & _). unfold ext2json. rewrite <- table, find_map. cbn [fst]. destruct (find _ (known lib)) as [((o & n) & k)|] eqn:F; cbn [option_map].
    - exfalso. apply find_some in F. cbn [fst snd] in F. destruct F as (F & E). apply Z.eqb_eq in E.
      destruct (N2 (e_object e) n) as (k' & K); [apply in_map_iff; exists (o, n, k); split; [reflexivity|assumption]|symmetry; assumption|]. apply NK. exists n, k'. assumption.
    - unfold ext2json_unknown. rewrite Ed. discriminate. }
  split; intros x j He H; [destruct (cert_ok lib x j e H He) as (je & E)|destruct (crl_ok lib x j e H He) as (je & E)]; apply (N je E).
Qed.
Print Assumptions C102_empty_refuted.

(** A certificate with an address longer than 16 bytes overflows a buffer of the stack; so (a read) one with an
    object identifier whose text is longer than 64 characters. *)
Definition ip_lib (p : bit_string) : libcrypto :=
  with_values (fun o => if list_eqb Z.eqb o [1; 3; 6; 1; 5; 5; 7; 1; 7] then Some (XIpBlocks [{| if_family := [0; 1]; if_choice := IpItems [IpPrefix p] |}]) else None).
Definition ip_oid : object := [1; 3; 6; 1; 5; 5; 7; 1; 7].
Theorem C102_overflow_refuted :
  (exists lib x, library lib /\ x509_to_json lib x = UB /\ Forall (fun e => short lib (e_object e)) (c_exts x)) /\
  (exists lib x, library lib /\ x509_to_json lib x = UB /\ forall e, In e (c_exts x) -> e_object e = [1; 2] ++ repeat 100 20).
Proof.
  split.
  - exists (ip_lib {| bs_buf := repeat 1 17; bs_unused := 0 |}), (cert1 [ip_oid]). split; [apply library1|]. split; [vm_compute; reflexivity|].
    cbn [c_exts cert1 map]. repeat (apply Forall_cons; [len|]). apply Forall_nil.
  - exists lib1, (cert1 [[1; 2] ++ repeat 100 20]). split; [apply library1|]. split; [vm_compute; reflexivity|]. intros e [<-|[]]. reflexivity.
Qed.
Print Assumptions C102_overflow_refuted.

(** Addresses that aren't: an IPv4 address of five bytes is shown without the last one, with a length of 40; the empty
    bit string that says it leaves out five bits, with a length of 4294967291. *)
Theorem C102_address_refuted :
  (exists a, p2json {| bs_buf := [192; 0; 2; 1; 5]; bs_unused := 0 |} false = Ok (JStr a) /\ a = cstr "192.0.2.1/40") /\
  (exists a, p2json {| bs_buf := []; bs_unused := 5 |} false = Ok (JStr a) /\ a = cstr "0.0.0.0/4294967291") /\
  forall p, p = {| bs_buf := [192; 0; 2; 1; 5]; bs_unused := 0 |} \/ p = {| bs_buf := []; bs_unused := 5 |} ->
    library (ip_lib p) /\ exists j, x509_to_json (ip_lib p) (cert1 [ip_oid]) = Ok j.
Proof.
  split; [eexists; split; vm_compute; reflexivity|]. split; [eexists; split; vm_compute; reflexivity|].
  intros p [-> | ->]; (split; [apply library1|eexists; vm_compute; reflexivity]).
Qed.
Print Assumptions C102_address_refuted.

(** What's shown as the tbsCertificate's signature algorithm is the one outside of it: if they differ, which print mode
    doesn't check, that isn't what the certificate says. *)
Theorem C102_algorithm_refuted : exists lib x j, library lib /\ x509_to_json lib x = Ok j /\ ~ shows_certificate lib x j /\ c_alg x <> c_tbs_alg x.
Proof.
  pose (x := {| c_version := 2; c_serial := 1; c_tbs_alg := [2; 5; 29; 19]; c_issuer := []; c_not_before := [1]; c_not_after := [2]; c_subject := []; c_pk_alg := [1; 2];
     c_pk := Some (cstr "PEM"); c_iuid := None; c_suid := None; c_exts := []; c_alg := [1; 2]; c_sig := [9] |}).
  exists lib1, x. destruct (x509_to_json lib1 x) as [j|e|] eqn:E; [|vm_compute in E; discriminate|vm_compute in E; discriminate]. exists j. split; [apply library1|]. split; [reflexivity|].
  split; [|discriminate]. vm_compute in E. injection E as <-. intros (js & Ej & F). inversion F as [|p t ps ts Ft F']; subst. cbn [map combine fst] in Ej. injection Ej as Et _.
  destruct Ft as (us & -> & G). inversion G as [|? u1 ? us1 _ G1]; subst. inversion G1 as [|? u2 ? us2 _ G2]; subst. inversion G2 as [|? u3 ? us3 K G3]; subst.
  cbn [map combine fst] in Et. injection Et as _ _ E3. destruct K as (s & Es & _ & K). cbn in Es. injection Es as <-. rewrite K in E3. discriminate.
Qed.
Print Assumptions C102_algorithm_refuted.

(** The hypotheses of the theorems about what isn't shown are met by certificates. *)
Definition cps : list policy := [{| po_id := [1; 3; 6; 1; 5; 5; 7; 14; 2]; po_qualifiers := Some [[1; 3; 6; 1; 5; 5; 7; 2; 1]] |}].
Example C102_refuted_nonvacuous :
  (let lib := with_values (fun o => if list_eqb Z.eqb o [2; 5; 29; 32] then Some (XPolicies cps) else None) in
   library lib /\ exists e, In e (c_exts (cert1 common)) /\ e_object e = [2; 5; 29; 32] /\ ext_d2i lib (e_object e) (e_data e) = Some (XPolicies cps)) /\
  (exists e, In e (c_exts (cert1 [[1; 3; 6; 1; 5; 5; 7; 1; 28]])) /\ ext_d2i lib1 (e_object e) (e_data e) = None) /\
  ~ is_known lib1 [1; 2; 3; 4].
Proof.
  split; [|split].
  - split; [apply library1|]. exists (ext1 [2; 5; 29; 32]). split; [do 7 right; left; reflexivity|]. split; vm_compute; reflexivity.
  - exists (ext1 [1; 3; 6; 1; 5; 5; 7; 1; 28]). split; [left; reflexivity|vm_compute; reflexivity].
  - intros (n & k & H). repeat (destruct H as [H|H]; [discriminate|]). contradiction.
Qed.
