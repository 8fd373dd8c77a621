(** C99: what print mode shows of a signed object. *)
From Coq Require Import String Lia.
From Verif Require Import Base BaseLemmas PduWireSpec CString Slurm Oid Ntop NtopSpec NtopProofs Address AddressSpec AddressProofs ResourcesSpec Roa Manifest ManifestSpec ManifestProofs SignedData.
From Verif Require Import BerSpec BerProofs Asn1Dec Asn1Types Asn1DecSpec Asn1DecProofs6 Asn1DecProofs9 Asn1DecProps Asn1CheckSpec Asn1CheckProofs ObjectsSpec ObjectsProofs ObjectsProofs2 ObjectsProofs3 ObjectsProofs4 ObjectsProofs5.
From Verif Require Import JsonEnc JsonEncSpec JsonEncProofs JsonEncProofs2 JsonEncProofs3 JsonEncProofs4 JsonEncProofs5.
Notation length := List.length.
Open Scope list_scope.
Open Scope Z_scope.

(** ** Pieces *)

(** Integers are shown as their value, if it has 64 bits; otherwise they can't be shown. *)
Theorem C99_integer b : bytes b -> outcome (INTEGER_encode_json (Some (VBytes b))) (shows_integer b).
Proof. exact (integer_outcome b). Qed.

(** Octet strings (and the bytes of bit strings) in hexadecimal. *)
Theorem C99_hex b : bytes b -> exists s, OCTET_STRING_encode_json (Some (VBytes b)) = Ok (JStr s) /\ hex_text s b
  /\ forall b', hex_text s b' -> b' = b.
Proof. intros H. destruct (hex_json b H) as (s & E & T). exists s. split; [assumption|]. split; [assumption|]. exact (hex_text_fun s b T). Qed.

(** Text as it is, if (and only if) it's UTF-8. *)
Theorem C99_text s : bytes s -> outcome (OCTET_STRING_encode_json_utf8 (Some (VBytes s))) (fun j => utf8 s /\ j = JStr s).
Proof.
  intros H. cbn [OCTET_STRING_encode_json_utf8]. pose proof (strn_spec s H) as S. destruct (json_strn_new s) as [j|e|]; cbn [outcome]; [| |contradiction].
  - destruct S as (-> & U). split; [assumption|reflexivity].
  - intros j (U & _). contradiction.
Qed.

(** GeneralizedTimes as their fields. *)
Theorem C99_time st : outcome (GeneralizedTime_encode_json (Some (VBytes st))) (shows_time st).
Proof. exact (time_spec st). Qed.

(** UTCTimes with their year in full, unless it is 50 to 59. *)
Lemma time_length st j : shows_time st j -> (15 <= length st)%nat.
Proof.
  intros [s (sy & smo & sd & sh & smi & sse & fr & rest & y & mo & d & h & mi & se & -> & (Ly & _) & (Lmo & _) & (Ld & _) & (Lh & _) & (Lmi & _) & (Lse & _) & _)].
  rewrite !app_length. cbn [length]. lia.
Qed.
Theorem C99_utctime_partial st : match st with a :: _ => a <> 53 | [] => True end ->
  outcome (UTCTime_encode_json (Some (VBytes st))) (shows_utctime st).
Proof.
  intros H. cbn [UTCTime_encode_json]. unfold asn_UT2time, shows_utctime.
  destruct (Nat.ltb_spec (length st) 11) as [L|L]; cbn [orb].
  - cbn. intros j (_ & T). apply time_length in T. destruct st as [|a st]; [cbn in T; lia|]. unfold in_century in T. destruct (53 <=? a); rewrite app_length in T; cbn [length] in *; lia.
  - destruct (Nat.leb_spec 22 (length st)) as [L2|L2].
    + cbn. intros j (K & _). lia.
    + destruct st as [|a st]; [cbn in L; lia|]. unfold in_century.
      replace (53 <? a) with (53 <=? a) by (destruct (Z.leb_spec 53 a), (Z.ltb_spec 53 a); lia).
      pose proof (time_spec ((if 53 <=? a then [49; 57] else [50; 48]) ++ a :: st)) as O.
      destruct (time_json (asn_GT2time ((if 53 <=? a then [49; 57] else [50; 48]) ++ a :: st))) as [j|e|]; cbn [outcome] in *; [| |contradiction].
      * split; [lia|assumption].
      * intros j (_ & T). eapply O; eassumption.
Qed.
(** December 1st, 1955 is shown as of 2055. *)
Definition t1955 : list Z := cstr "551201000000Z".
Theorem C99_utctime_refuted : UTCTime_encode_json (Some (VBytes t1955)) = Ok (JStr (cstr "2055-12-01 00:00:00Z")) /\ ~ shows_utctime t1955 (JStr (cstr "2055-12-01 00:00:00Z")).
Proof.
  split; [vm_compute; reflexivity|]. intros (_ & T).
  pose proof (time_spec (in_century t1955)) as O.
  inversion T as [s (sy & smo & sd & sh & smi & sse & fr & rest & y & mo & d & h & mi & se & E & Ny & _ & _ & _ & _ & _ & _ & _ & _ & _ & _ & E')]. subst s.
  destruct Ny as (Ly & _). destruct sy as [|a [|b [|c [|e [|]]]]]; try discriminate Ly. cbn [app] in E, E'. injection E as <- _. discriminate E'.
Qed.

(** The object identifiers that libcrypto doesn't know are all shown alike (OBJ_nid2sn(NID_undef) is "UNDEF"). *)
Theorem C99_unknown_oid_refuted nid sn : sn 0 = Some (cstr "UNDEF") -> forall oid, nid oid = 0 ->
  OBJECT_IDENTIFIER_encode_json nid sn (Some (VBytes oid)) = Ok (JStr (cstr "UNDEF")).
Proof. intros H oid E. cbn [OBJECT_IDENTIFIER_encode_json]. rewrite E, H. reflexivity. Qed.

(** ** ROAs: shown as they are, or not at all. *)
Theorem C99_roa turns v asid blocks rest : (2 <= turns)%nat -> bytes rest -> roa_fine v asid blocks -> reasonable (der_roa v asid blocks) ->
  outcome (ber2json turns t_RouteOriginAttestation jt_RouteOriginAttestation (der_roa v asid blocks ++ rest)) (shows_roa v asid blocks).
Proof. intros Ht Hb Hf Hr. rewrite roa_bytes_spec by assumption. apply roa_spec. assumption. Qed.

Definition ex_roa : list (list Z * list roa_addr) :=
  [([0; 1], [{| ra_address := {| bs_buf := [10]; bs_unused := 0 |}; ra_max := Some [24] |}]);
   ([0; 2], [{| ra_address := {| bs_buf := [32; 1; 13; 184]; bs_unused := 0 |}; ra_max := Some [48] |}])].
Example ex_roa_fine : roa_fine None [1; 0; 0] ex_roa /\ reasonable (der_roa None [1; 0; 0] ex_roa).
Proof.
  split; [|vm_compute; reflexivity]. split; [exact I|]. split; [repeat constructor; unfold is_byte; lia|].
  repeat (constructor; cbn [fst snd ra_address ra_max bs_buf bs_unused rev app]); unfold is_byte; try lia; try reflexivity.
Qed.
Example C99_roa_example :
  ber2json 2 t_RouteOriginAttestation jt_RouteOriginAttestation (der_roa None [1; 0; 0] ex_roa) =
  Ok (JObj [(cstr "asId", JInt 65536);
            (cstr "ipAddrBlocks", JArr [
              JObj [(cstr "addressFamily", JStr (cstr "IPv4"));
                    (cstr "addresses", JArr [JObj [(cstr "prefix", JStr (cstr "10.0.0.0")); (cstr "length", JInt 8); (cstr "maxLength", JInt 24)]])];
              JObj [(cstr "addressFamily", JStr (cstr "IPv6"));
                    (cstr "addresses", JArr [JObj [(cstr "prefix", JStr (cstr "2001:db8::")); (cstr "length", JInt 32); (cstr "maxLength", JInt 48)]])]])]).
Proof. vm_compute. reflexivity. Qed.

(** A ROA one of whose addresses has no maxLength (it's optional) isn't shown. *)
Theorem C99_roa_maxlength_refuted turns v asid blocks rest f addrs a : (2 <= turns)%nat -> bytes rest -> roa_fine v asid blocks -> reasonable (der_roa v asid blocks) ->
  In (f, addrs) blocks -> In a addrs -> f = [0; 1] \/ f = [0; 2] -> ra_max a = None ->
  forall j, ber2json turns t_RouteOriginAttestation jt_RouteOriginAttestation (der_roa v asid blocks ++ rest) <> Ok j.
Proof.
  intros Ht Hb Hf Hr Hin Ha Hfam Hm j E. pose proof (C99_roa turns v asid blocks rest Ht Hb Hf Hr) as O. rewrite E in O. cbn [outcome] in O.
  destruct O as [v' a' js _ _ F].
  assert (G : forall l js, Forall2 shows_block l js -> In (f, addrs) l -> exists j, shows_block (f, addrs) j).
  { clear. intros l js F. induction F as [|x j l js S F IH]; intros Hin; [contradiction|]. destruct Hin as [->|Hin]; [exists j; assumption|auto]. }
  destruct (G _ _ F Hin) as (b & S).
  assert (K : forall W l js, Forall2 (shows_address W) l js -> In a l -> False).
  { clear - Hm. intros W l js F. induction F as [|x j l js S F IH]; intros Hin; [contradiction|]. destruct Hin as [->|Hin]; [|auto]. destruct S as [? ? ? ? ? _ _ E _]. congruence. }
  inversion S as [l js' F'|l js' F'|f' s l js' N4 N6 Hs F']; subst; [eapply K; eassumption|eapply K; eassumption|]. destruct Hfam; congruence.
Qed.
Example C99_roa_maxlength_example :
  let blocks := [([0; 1], [{| ra_address := {| bs_buf := [10]; bs_unused := 0 |}; ra_max := None |}])] in
  roa_fine None [1] blocks /\ reasonable (der_roa None [1] blocks)
  /\ ber2json 2 t_RouteOriginAttestation jt_RouteOriginAttestation (der_roa None [1] blocks) = Err EINVAL.
Proof.
  cbv zeta. split; [|split; vm_compute; reflexivity]. split; [exact I|]. split; [repeat constructor; unfold is_byte; lia|].
  repeat (constructor; cbn [fst snd ra_address ra_max bs_buf bs_unused rev app]); unfold is_byte; try lia; try reflexivity.
Qed.

(** ** Manifests *)
Definition oid_name (nid : list Z -> Z) (sn : Z -> option (list Z)) (oid : list Z) : option (list Z) :=
  match sn (nid oid) with Some s => Some s | None => OBJECT_IDENTIFIER_to_literal oid end.
Theorem C99_manifest nid sn turns v number this next alg files rest : (forall n s, sn n = Some s -> bytes s) -> (2 <= turns)%nat -> bytes rest ->
  manifest_fine v number this next alg files -> reasonable (der_manifest v number this next alg files) ->
  outcome (ber2json turns t_Manifest (jt_Manifest nid sn) (der_manifest v number this next alg files ++ rest))
          (shows_manifest (oid_name nid sn) v number this next alg files).
Proof. intros Hsn Ht Hb Hf Hr. rewrite manifest_bytes_spec by assumption. apply manifest_spec; assumption. Qed.

Definition sha256_oid : list Z := [96; 134; 72; 1; 101; 3; 4; 2; 1].
Definition ex_files : list fah := [{| f_file := cstr "a.roa"; f_hash := [1; 35; 69]; f_unused := 0 |}].
Example ex_manifest_fine : manifest_fine None [7] (cstr "20240102030405Z") (cstr "20240103030405Z") sha256_oid ex_files
  /\ reasonable (der_manifest None [7] (cstr "20240102030405Z") (cstr "20240103030405Z") sha256_oid ex_files).
Proof.
  split; [|vm_compute; reflexivity]. split; [exact I|].
  assert (B : forall l, forallb (fun b => (0 <=? b) && (b <? 256)) l = true -> bytes l).
  { intros l H. apply Forall_forall. intros x Hx. rewrite forallb_forall in H. specialize (H x Hx). apply andb_prop in H. rewrite Z.leb_le, Z.ltb_lt in H. exact H. }
  repeat (split; [apply B; vm_compute; reflexivity|]). constructor; [|constructor]. split; [apply B; vm_compute; reflexivity|].
  split; [apply B; vm_compute; reflexivity|]. split; [cbn; lia|vm_compute; reflexivity].
Qed.
Example C99_manifest_example :
  ber2json 2 t_Manifest (jt_Manifest (fun _ => 672) (fun n => if n =? 672 then Some (cstr "SHA256") else None))
    (der_manifest None [7] (cstr "20240102030405Z") (cstr "20240103030405Z") sha256_oid ex_files) =
  Ok (JObj [(cstr "manifestNumber", JInt 7); (cstr "thisUpdate", JStr (cstr "2024-01-02 03:04:05Z")); (cstr "nextUpdate", JStr (cstr "2024-01-03 03:04:05Z"));
            (cstr "fileHashAlg", JStr (cstr "SHA256")); (cstr "fileList", JArr [JObj [(cstr "file", JStr (cstr "a.roa")); (cstr "hash", JStr (cstr "012345"))]])]).
Proof. vm_compute. reflexivity. Qed.

(** RFC 9286: manifest numbers have up to 20 octets; those of 2^63 and above aren't shown. *)
Theorem C99_manifest_number_refuted nid sn turns v number this next alg files rest : (forall n s, sn n = Some s -> bytes s) -> (2 <= turns)%nat -> bytes rest ->
  manifest_fine v number this next alg files -> reasonable (der_manifest v number this next alg files) -> 2 ^ 63 <= integer_value number ->
  forall j, ber2json turns t_Manifest (jt_Manifest nid sn) (der_manifest v number this next alg files ++ rest) <> Ok j.
Proof.
  intros Hsn Ht Hb Hf Hr Hn j E. pose proof (C99_manifest nid sn turns v number this next alg files rest Hsn Ht Hb Hf Hr) as O. rewrite E in O. cbn [outcome] in O.
  destruct O as [v' n t t' s js _ S _ _ _ _ _]. destruct S as [S]. unfold int64 in S. change (2 ^ 63) with 9223372036854775808 in Hn. lia.
Qed.
Example C99_manifest_number_example : integer_value [0; 128; 0; 0; 0; 0; 0; 0; 0] = 2 ^ 63 /\ bytes [0; 128; 0; 0; 0; 0; 0; 0; 0].
Proof. split; [vm_compute; reflexivity|]. repeat constructor; unfold is_byte; lia. Qed.

(** ** Signed objects *)
Section Object.
  Variable nid : list Z -> Z.
  Variable sn : Z -> option (list Z).
  Variable certificate : list Z -> res json.
  Variable turns : nat.
  Variables NID_pkcs7_signed NID_pkcs9_contentType NID_pkcs9_messageDigest NID_pkcs9_signingTime nid_ct_mft nid_ct_roa nid_ct_gbr : Z.

  Lemma sd_path sd signers c j :
    encode_json (jt_SignedData nid sn certificate turns NID_pkcs9_contentType NID_pkcs9_messageDigest NID_pkcs9_signingTime nid_ct_mft nid_ct_roa nid_ct_gbr)
      (Some (val_signed_data sd signers)) = Ok j -> sd_econtent sd = Some c ->
    exists e, EncapsulatedContentInfo_encode_json nid sn turns nid_ct_mft nid_ct_roa nid_ct_gbr (Some (VSeq [Some (VBytes (sd_ectype sd)); Some (VBytes c)])) = Ok e
      /\ json_object_get j (cstr "encapContentInfo") = Some e.
  Proof.
    intros E Hc. unfold jt_SignedData, val_signed_data in E. rewrite encode_seq in E. rewrite Hc in E. cbn [option_map] in E. unfold mandatory, pointer in E.
    cbn [members] in E.
    destruct (encode_json jt_INTEGER _) as [v|?|]; cbn [json_object_add json_object_set] in E; try discriminate E.
    destruct (encode_json (JtOf (jt_AlgorithmIdentifier nid sn)) _) as [d|?|]; cbn [json_object_add] in E; try discriminate E.
    change (encode_json (JtOp (EncapsulatedContentInfo_encode_json nid sn turns nid_ct_mft nid_ct_roa nid_ct_gbr)) (Some (VSeq [Some (VBytes (sd_ectype sd)); Some (VBytes c)])))
      with (EncapsulatedContentInfo_encode_json nid sn turns nid_ct_mft nid_ct_roa nid_ct_gbr (Some (VSeq [Some (VBytes (sd_ectype sd)); Some (VBytes c)]))) in E.
    destruct (EncapsulatedContentInfo_encode_json _ _ _ _ _ _ _) as [e|?|]; cbn [json_object_add] in E; try discriminate E.
    exists e. split; [reflexivity|].
    destruct (sd_certs sd) as [l|]; cbn [option_map] in E.
    - destruct (encode_json (JtOp (CertificateSet_encode_json certificate)) _) as [ce|?|]; cbn [json_object_add] in E; try discriminate E.
      destruct (encode_json (JtOf _) _) as [si|?|]; cbn [json_object_add finish] in E; try discriminate E. injection E as <-. reflexivity.
    - destruct (encode_json (JtOf _) _) as [si|?|]; cbn [json_object_add finish] in E; try discriminate E. injection E as <-. reflexivity.
  Qed.

  (** What is shown of a signed object (whose ContentInfo was decoded: C67_content_info, C97), if something is: the text of the
      content's type, and the content according to its type. *)
  Theorem C99_object type sd signers c j : (2 <= turns)%nat -> nid type = NID_pkcs7_signed -> signed_data_fine sd signers -> reasonable (der_signed_data sd signers) ->
    sd_econtent sd = Some c ->
    json_encode nid sn certificate turns NID_pkcs7_signed NID_pkcs9_contentType NID_pkcs9_messageDigest NID_pkcs9_signingTime nid_ct_mft nid_ct_roa nid_ct_gbr
      (Some (VSeq [Some (VBytes type); Some (VBytes (der_signed_data sd signers))])) = Ok j ->
    (exists s, at_path ["contentType"%string] j = Some (JStr s) /\ oid_name nid sn type = Some s)
    /\ (exists s, at_path ["content"; "encapContentInfo"; "eContentType"]%string j = Some (JStr s) /\ oid_name nid sn (sd_ectype sd) = Some s)
    /\ exists r, at_path ["content"; "encapContentInfo"; "eContent"]%string j = Some r
      /\ (nid (sd_ectype sd) = nid_ct_mft -> ber2json turns t_Manifest (jt_Manifest nid sn) c = Ok r)
      /\ (nid (sd_ectype sd) = nid_ct_roa -> nid_ct_roa <> nid_ct_mft -> ber2json turns t_RouteOriginAttestation jt_RouteOriginAttestation c = Ok r)
      /\ (nid (sd_ectype sd) = nid_ct_gbr -> nid_ct_gbr <> nid_ct_mft -> nid_ct_gbr <> nid_ct_roa -> r = JStr c /\ utf8 c)
      /\ (nid (sd_ectype sd) <> nid_ct_mft -> nid (sd_ectype sd) <> nid_ct_roa -> nid (sd_ectype sd) <> nid_ct_gbr -> exists s, r = JStr s /\ hex_text s c).
  Proof.
    intros Ht Et Hf Hr Hc E. unfold json_encode, ContentInfo_encode_json in E. rewrite Et, Z.eqb_refl in E.
    assert (O : forall oid r, OBJECT_IDENTIFIER_encode_json nid sn (Some (VBytes oid)) = Ok r -> exists s, r = JStr s /\ oid_name nid sn oid = Some s).
    { intros oid r Er. cbn [OBJECT_IDENTIFIER_encode_json] in Er. fold (oid_name nid sn oid) in Er. destruct (oid_name nid sn oid) as [s|]; [|discriminate].
      unfold json_str_new, json_strn_new in Er. destruct (utf8_check_string s); [|discriminate]. injection Er as <-. exists s. split; reflexivity. }
    destruct (OBJECT_IDENTIFIER_encode_json nid sn (Some (VBytes type))) as [ct|?|] eqn:Ect; cbn [json_object_add bind json_object_set finish] in E; try discriminate E.
    assert (Hb : bytes (der_signed_data sd signers)) by (apply signed_data_bytes; assumption).
    assert (D : ber_decode turns t_SignedData (der_signed_data sd signers) = Done (length (der_signed_data sd signers)) (val_signed_data sd signers)).
    { rewrite <- (app_nil_r (der_signed_data sd signers)) at 1. apply C64_trailing_ignored; [unfold decoded_types; cbn; tauto|rewrite app_nil_r; assumption|assumption|apply enc_signed_data; assumption]. }
    unfold ber2json in E at 1. rewrite D in E.
    match type of E with context [json_object_add _ (cstr "content") ?x] => destruct x as [sdj|?|] eqn:Es end; cbn [json_object_add finish] in E; try discriminate E.
    injection E as <-. destruct (sd_path sd signers c sdj Es Hc) as (e & Ee & Ge).
    destruct (O _ _ Ect) as (s & -> & Os). split; [exists s; split; [reflexivity|assumption]|].
    unfold EncapsulatedContentInfo_encode_json in Ee.
    destruct (OBJECT_IDENTIFIER_encode_json nid sn (Some (VBytes (sd_ectype sd)))) as [et|?|] eqn:Eet; cbn [json_object_add bind json_object_set finish] in Ee; try discriminate Ee.
    cbv zeta in Ee. match type of Ee with context [json_object_add _ (cstr "eContent") ?x] => destruct x as [r|?|] eqn:Er end; cbn [json_object_add finish] in Ee; try discriminate Ee.
    injection Ee as <-. destruct (O _ _ Eet) as (s' & -> & Os').
    assert (P : forall k, at_path ["content"; "encapContentInfo"; k]%string (JObj [(cstr "contentType", JStr s); (cstr "content", sdj)])
      = json_object_get (JObj [(cstr "eContentType", JStr s'); (cstr "eContent", r)]) (cstr k)).
    { intros k. cbn [at_path]. change (json_object_get (JObj [(cstr "contentType", JStr s); (cstr "content", sdj)]) (cstr "content")) with (Some sdj). cbv iota.
      rewrite Ge. destruct (json_object_get _ (cstr k)); reflexivity. }
    change (json_object_set [(cstr "contentType", JStr s)] (cstr "content") sdj) with [(cstr "contentType", JStr s); (cstr "content", sdj)].
    split; [exists s'; rewrite P; split; [reflexivity|assumption]|]. exists r. rewrite P. split; [reflexivity|].
    destruct (Z.eqb_spec (nid (sd_ectype sd)) nid_ct_mft) as [M|M].
    { split; [intros _; exact Er|]. split; [intros R N; congruence|]. split; [intros R N; congruence|]. intros N; congruence. }
    split; [contradiction|]. destruct (Z.eqb_spec (nid (sd_ectype sd)) nid_ct_roa) as [R|R].
    { split; [intros _ _; exact Er|]. split; [intros R' N N'; congruence|]. intros _ N; congruence. }
    split; [contradiction|]. destruct Hf as (_ & _ & _ & Hfc & _). rewrite Hc in Hfc.
    destruct (Z.eqb_spec (nid (sd_ectype sd)) nid_ct_gbr) as [G|G].
    { split; [intros _ _ _|intros _ _ N; congruence]. cbn [OCTET_STRING_encode_json_utf8] in Er. pose proof (strn_spec c Hfc) as S. rewrite Er in S. exact S. }
    split; [contradiction|]. intros _ _ _. destruct (hex_json c Hfc) as (h & Eh & Th). rewrite Eh in Er. injection Er as <-. exists h. split; [reflexivity|assumption].
  Qed.

  (** Whatever the bytes: the program doesn't crash, unless the signed data has no content. *)
  Theorem C99_no_crash bs n v : (forall b, bytes b -> certificate b <> UB) -> bytes bs -> ber_decode turns t_ContentInfo bs = Done n v ->
    json_encode nid sn certificate turns NID_pkcs7_signed NID_pkcs9_contentType NID_pkcs9_messageDigest NID_pkcs9_signingTime nid_ct_mft nid_ct_roa nid_ct_gbr (Some v) = UB ->
    exists type content m a b ty c d e, v = VSeq [Some (VBytes type); Some (VBytes content)] /\ nid type = NID_pkcs7_signed
      /\ ber_decode turns t_SignedData content = Done m (VSeq [a; b; Some (VSeq [ty; None]); c; d; e]).
  Proof.
    intros Hcert Hb D U. destruct (decoded_ok t_ContentInfo) as (Hwf & Hu); [unfold decoded_types; cbn; tauto|].
    destruct (decode_sound turns t_ContentInfo 0 Hwf Hu bs n v Hb D) as (Hn & He).
    assert (Hs : shaped t_ContentInfo v).
    { eapply enc_shaped; [exact He|]. rewrite <- (firstn_skipn n bs) in Hb. apply Forall_app in Hb. apply Hb. }
    destruct (json_safe nid sn certificate Hcert turns _ _ _ _ _ _ _ v Hs U) as (type & content & m & sd & -> & Et & Dsd & (a & b & ty & c & d & e & ->)).
    exists type, content, m, a, b, ty, c, d, e. split; [reflexivity|]. split; [assumption|]. exact Dsd.
  Qed.
End Object.

(** So a ROA's object, when it's shown, shows the ROA; the same with manifests. *)
Theorem C99_roa_object nid sn certificate turns n1 n2 n3 n4 mft roa gbr type sd signers j v asid blocks : (2 <= turns)%nat -> nid type = n1 -> roa <> mft ->
  signed_data_fine sd signers -> reasonable (der_signed_data sd signers) -> nid (sd_ectype sd) = roa -> sd_econtent sd = Some (der_roa v asid blocks) ->
  roa_fine v asid blocks -> reasonable (der_roa v asid blocks) ->
  json_encode nid sn certificate turns n1 n2 n3 n4 mft roa gbr (Some (VSeq [Some (VBytes type); Some (VBytes (der_signed_data sd signers))])) = Ok j ->
  exists r, at_path ["content"; "encapContentInfo"; "eContent"]%string j = Some r /\ shows_roa v asid blocks r.
Proof.
  intros Ht Et Hne Hf Hr Ee Hc Hrf Hrr E. destruct (C99_object nid sn certificate turns n1 n2 n3 n4 mft roa gbr type sd signers _ j Ht Et Hf Hr Hc E) as (_ & _ & r & P & _ & R & _).
  exists r. split; [assumption|]. pose proof (C99_roa turns v asid blocks [] Ht (Forall_nil _) Hrf Hrr) as O. rewrite app_nil_r, (R Ee Hne) in O. exact O.
Qed.
Theorem C99_manifest_object nid sn certificate turns n1 n2 n3 n4 mft roa gbr type sd signers j v number this next alg files :
  (forall n s, sn n = Some s -> bytes s) -> (2 <= turns)%nat -> nid type = n1 ->
  signed_data_fine sd signers -> reasonable (der_signed_data sd signers) -> nid (sd_ectype sd) = mft -> sd_econtent sd = Some (der_manifest v number this next alg files) ->
  manifest_fine v number this next alg files -> reasonable (der_manifest v number this next alg files) ->
  json_encode nid sn certificate turns n1 n2 n3 n4 mft roa gbr (Some (VSeq [Some (VBytes type); Some (VBytes (der_signed_data sd signers))])) = Ok j ->
  exists r, at_path ["content"; "encapContentInfo"; "eContent"]%string j = Some r /\ shows_manifest (oid_name nid sn) v number this next alg files r.
Proof.
  intros Hsn Ht Et Hf Hr Ee Hc Hrf Hrr E. destruct (C99_object nid sn certificate turns n1 n2 n3 n4 mft roa gbr type sd signers _ j Ht Et Hf Hr Hc E) as (_ & _ & r & P & R & _).
  exists r. split; [assumption|]. pose proof (C99_manifest nid sn turns v number this next alg files [] Hsn Ht (Forall_nil _) Hrf Hrr) as O. rewrite app_nil_r, (R Ee) in O. exact O.
Qed.

(** A concrete object; and one without content, which crashes. *)
Definition oid_signed : list Z := [42; 134; 72; 134; 247; 13; 1; 7; 2].
Definition oid_ct_roa : list Z := [42; 134; 72; 134; 247; 13; 1; 9; 16; 1; 24].
Definition oid_ctype : list Z := [42; 134; 72; 134; 247; 13; 1; 9; 3].
Definition ex_nid (oid : list Z) : Z :=
  if list_eqb Z.eqb oid oid_signed then 22 else if list_eqb Z.eqb oid oid_ct_roa then 1001 else if list_eqb Z.eqb oid oid_ctype then 50 else if list_eqb Z.eqb oid sha256_oid then 672 else 0.
Definition ex_sn (n : Z) : option (list Z) :=
  if n =? 22 then Some (cstr "pkcs7-signedData") else if n =? 1001 then Some (cstr "id-ct-routeOriginAuthz") else if n =? 50 then Some (cstr "contentType")
  else if n =? 672 then Some (cstr "SHA256") else if n =? 0 then Some (cstr "UNDEF") else None.
Definition ex_signer : signer_info :=
  {| si_version := [3]; si_sid := SidSKI [170; 187]; si_digest := {| al_oid := sha256_oid; al_params := None |};
     si_attrs := Some [{| at_type := oid_ctype; at_values := [6 :: 11 :: oid_ct_roa] |}];
     si_sigalg := {| al_oid := sha256_oid; al_params := None |}; si_signature := [1; 2; 3]; si_unsigned := None |}.
Definition ex_sd (c : option (list Z)) : signed_data :=
  {| sd_version := [3]; sd_digests := [{| al_oid := sha256_oid; al_params := None |}]; sd_ectype := oid_ct_roa; sd_econtent := c;
     sd_certs := None; sd_crls := None; sd_signers := [ex_signer] |}.
Example ex_sd_fine : let c := der_roa None [1] [([0; 1], [{| ra_address := {| bs_buf := [10]; bs_unused := 0 |}; ra_max := Some [24] |}])] in
  signed_data_fine (ex_sd (Some c)) [(ex_signer, [170; 187])] /\ reasonable (der_signed_data (ex_sd (Some c)) [(ex_signer, [170; 187])]).
Proof.
  cbv zeta. split; [|vm_compute; reflexivity].
  assert (B : forall l, forallb (fun b => (0 <=? b) && (b <? 256)) l = true -> bytes l).
  { intros l H. apply Forall_forall. intros x Hx. rewrite forallb_forall in H. specialize (H x Hx). apply andb_prop in H. rewrite Z.leb_le, Z.ltb_lt in H. exact H. }
  assert (A : any_der (6 :: 11 :: oid_ct_roa)) by (apply (any_primitive 0 6 oid_ct_roa); [lia|lia|apply B; reflexivity]).
  assert (Al : alg_fine {| al_oid := sha256_oid; al_params := None |}) by (split; [apply B; reflexivity|exact I]).
  split; [apply B; reflexivity|]. split; [constructor; [exact Al|constructor]|]. split; [apply B; reflexivity|]. split; [apply B; vm_compute; reflexivity|].
  split; [exact I|]. split; [reflexivity|]. split; [reflexivity|]. constructor; [|constructor].
  split; [apply B; reflexivity|]. split; [reflexivity|]. split; [apply B; reflexivity|]. split; [exact Al|].
  split; [constructor; [split; [apply B; reflexivity|constructor; [exact A|constructor]]|constructor]|]. split; [exact Al|]. split; [apply B; reflexivity|exact I].
Qed.
Definition ex_json (c : option (list Z)) : res json :=
  match ber_decode 2 t_ContentInfo (der_content_info oid_signed (der_signed_data (ex_sd c) [(ex_signer, [170; 187])])) with
  | Done _ v => json_encode ex_nid ex_sn (fun _ => Err EINVAL) 2 22 50 51 52 1000 1001 1002 (Some v)
  | _ => Err EINVAL
  end.
Definition ex_alg_json : json := JObj [(cstr "algorithm", JStr (cstr "SHA256"))].
Example C99_object_example :
  ex_json (Some (der_roa None [1] [([0; 1], [{| ra_address := {| bs_buf := [10]; bs_unused := 0 |}; ra_max := Some [24] |}])])) =
  Ok (JObj [(cstr "contentType", JStr (cstr "pkcs7-signedData"));
            (cstr "content", JObj [(cstr "version", JInt 3); (cstr "digestAlgorithms", JArr [ex_alg_json]);
              (cstr "encapContentInfo", JObj [(cstr "eContentType", JStr (cstr "id-ct-routeOriginAuthz"));
                (cstr "eContent", JObj [(cstr "asId", JInt 1);
                  (cstr "ipAddrBlocks", JArr [JObj [(cstr "addressFamily", JStr (cstr "IPv4"));
                    (cstr "addresses", JArr [JObj [(cstr "prefix", JStr (cstr "10.0.0.0")); (cstr "length", JInt 8); (cstr "maxLength", JInt 24)]])]])])]);
              (cstr "signerInfos", JArr [JObj [(cstr "version", JInt 3); (cstr "sid", JStr (cstr "aabb")); (cstr "digestAlgorithm", ex_alg_json);
                (cstr "signedAttrs", JArr [JObj [(cstr "attrType", JStr (cstr "contentType")); (cstr "attrValues", JArr [JStr (cstr "id-ct-routeOriginAuthz")])]]);
                (cstr "signatureAlgorithm", ex_alg_json); (cstr "signature", JStr (cstr "010203"))]])])]).
Proof. vm_compute. reflexivity. Qed.
Theorem C99_no_content_refuted : ex_json None = UB.
Proof. vm_compute. reflexivity. Qed.

Print Assumptions C99_integer.
Print Assumptions C99_hex.
Print Assumptions C99_text.
Print Assumptions C99_time.
Print Assumptions C99_utctime_partial.
Print Assumptions C99_utctime_refuted.
Print Assumptions C99_unknown_oid_refuted.
Print Assumptions C99_roa.
Print Assumptions C99_roa_maxlength_refuted.
Print Assumptions C99_manifest.
Print Assumptions C99_manifest_number_refuted.
Print Assumptions C99_object.
Print Assumptions C99_no_crash.
Print Assumptions C99_roa_object.
Print Assumptions C99_manifest_object.
Print Assumptions C99_no_content_refuted.
