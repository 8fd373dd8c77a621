(** Manifests of JsonEnc.v, and the bytes of ROAs and manifests. *)
From Coq Require Import String Lia.
From Verif Require Import Base BaseLemmas PduWireSpec CString Slurm Oid Ntop NtopSpec NtopProofs Address AddressSpec AddressProofs ResourcesSpec Roa Manifest ManifestSpec.
From Verif Require Import BerSpec BerProofs Asn1Dec Asn1Types Asn1DecProps ObjectsSpec ObjectsProofs ObjectsProofs2 ObjectsProofs4.
From Verif Require Import JsonEnc JsonEncSpec JsonEncProofs JsonEncProofs2 JsonEncProofs3.
Notation length := List.length.
Open Scope list_scope.
Open Scope Z_scope.

Lemma strn_spec s : bytes s -> match json_strn_new s with Ok j => j = JStr s /\ utf8 s | Err _ => ~ utf8 s | UB => False end.
Proof.
  intros H. unfold json_strn_new. pose proof (utf8_spec s H) as U. destruct (utf8_check_string s).
  - split; [reflexivity|]. apply U. reflexivity.
  - intros K. apply U in K. discriminate.
Qed.

Lemma udec_bytes n : bytes (udec n).
Proof.
  unfold udec. assert (G : forall fuel n acc, bytes acc -> bytes (udec_loop fuel n acc)); [|apply G; constructor].
  clear n. induction fuel as [|fuel IH]; intros n acc H; [assumption|]. cbn [udec_loop]. pose proof (Z.mod_pos_bound n 10 ltac:(lia)).
  assert (H' : bytes ((48 + n mod 10) :: acc)) by (constructor; [unfold is_byte; lia|assumption]).
  destruct (n / 10 =? 0); [assumption|]. apply IH. assumption.
Qed.
Lemma bytes2str_bytes buf a s : bytes buf -> bytes a -> bytes2str buf a = Some s -> bytes s.
Proof. unfold bytes2str. intros H1 H2. destruct (_ <? _)%nat; [discriminate|]. intros E. injection E as <-. apply Forall_app. split; assumption. Qed.
Lemma dump_bytes fuel : forall b buf s, bytes buf -> dump_loop fuel b buf = Some s -> bytes s.
Proof.
  induction fuel as [|fuel IH]; intros b buf s H E; cbn [dump_loop] in E; [injection E as <-; assumption|].
  destruct (OBJECT_IDENTIFIER_get_single_arc b) as [[(arc & rd)|]| |]; [|injection E as <-; assumption|discriminate..].
  destruct (bytes2str buf (46 :: udec arc)) as [buf'|] eqn:E'; [|discriminate]. eapply IH; [|exact E].
  eapply bytes2str_bytes; [exact H| |exact E']. constructor; [unfold is_byte; lia|apply udec_bytes].
Qed.
Lemma literal_bytes oid s : OBJECT_IDENTIFIER_to_literal oid = Some s -> bytes s.
Proof.
  unfold OBJECT_IDENTIFIER_to_literal. destruct (OBJECT_IDENTIFIER_get_first_arcs oid) as [[((arc0 & arc1) & rd)|]| |]; try discriminate.
  destruct (bytes2str [] _) as [buf|] eqn:E; [|discriminate]. apply dump_bytes. eapply bytes2str_bytes; [constructor| |exact E].
  apply Forall_app. split; [apply udec_bytes|]. constructor; [unfold is_byte; lia|apply udec_bytes].
Qed.

Section Manifest.
  Variable nid : list Z -> Z.
  Variable sn : Z -> option (list Z).
  Hypothesis sn_bytes : forall n s, sn n = Some s -> bytes s.
  Let oid_name (alg : list Z) : option (list Z) := match sn (nid alg) with Some s => Some s | None => OBJECT_IDENTIFIER_to_literal alg end.

  Lemma oid_spec alg :
    match OBJECT_IDENTIFIER_encode_json nid sn (Some (VBytes alg)) with
    | Ok j => exists s, j = JStr s /\ oid_name alg = Some s /\ utf8 s
    | Err _ => forall s, oid_name alg = Some s -> ~ utf8 s
    | UB => False
    end.
  Proof.
    unfold OBJECT_IDENTIFIER_encode_json. fold (oid_name alg). destruct (oid_name alg) as [s|] eqn:E.
    - assert (B : bytes s). { unfold oid_name in E. destruct (sn (nid alg)) as [s'|] eqn:E'; [injection E as <-; eapply sn_bytes; eassumption|eapply literal_bytes; eassumption]. }
      unfold json_str_new. pose proof (strn_spec s B) as S. destruct (json_strn_new s) as [j|e|]; [| |contradiction].
      + destruct S as (-> & U). exists s. repeat split. assumption.
      + intros s' E'. injection E' as <-. assumption.
    - intros s E'. discriminate.
  Qed.

  Lemma file_spec f : file_fine f -> outcome (encode_json jt_FileAndHash (Some (val_file f))) (shows_file f).
  Proof.
    intros (Hb & Hh & _). cbn [bs_buf] in Hh. unfold jt_FileAndHash, val_file. rewrite encode_seq. unfold mandatory. cbn [members].
    unfold jt_IA5String. change (encode_json (JtOp OCTET_STRING_encode_json_utf8) (Some (VBytes (f_file f)))) with (json_strn_new (f_file f)).
    pose proof (strn_spec (f_file f) Hb) as S. destruct (json_strn_new (f_file f)) as [j|e|]; cbn [json_object_add]; [| |contradiction].
    - destruct S as (-> & U). unfold jt_BIT_STRING. change (encode_json (JtOp OCTET_STRING_encode_json) (Some (VBits (f_hash f) (f_unused f)))) with (OCTET_STRING_encode_json (Some (VBits (f_hash f) (f_unused f)))).
      destruct (hex_json_bits (f_hash f) (f_unused f) Hh) as (s & -> & T). cbn [json_object_add finish outcome].
      exact (sf f s U T).
    - cbn [finish outcome]. intros j K. destruct K. contradiction.
  Qed.

  Lemma manifest_spec v number this next alg files : manifest_fine v number this next alg files ->
    outcome (encode_json (jt_Manifest nid sn) (Some (val_manifest v number this next alg files))) (shows_manifest oid_name v number this next alg files).
  Proof.
    intros (Hv & Hn & Ht & Hx & Ha & Hf). unfold jt_Manifest, val_manifest. rewrite encode_seq. unfold mandatory, pointer.
    pose proof (integer_outcome number Hn) as On. pose proof (time_spec this) as Ot. pose proof (time_spec next) as Ox. pose proof (oid_spec alg) as Oa.
    pose proof (of_outcome val_file shows_file jt_FileAndHash files) as Of.
    assert (Hf' : forall x, In x files -> outcome (encode_json jt_FileAndHash (Some (val_file x))) (shows_file x)).
    { intros x Hx'. apply file_spec. rewrite Forall_forall in Hf. auto. }
    specialize (Of Hf'). clear Hf'.
    assert (Rest : forall m, (m = [] \/ exists j, m = [(cstr "version", j)]) ->
      match members [(cstr "manifestNumber", false, None, jt_INTEGER); (cstr "thisUpdate", false, None, jt_GeneralizedTime);
                     (cstr "nextUpdate", false, None, jt_GeneralizedTime); (cstr "fileHashAlg", false, None, jt_OBJECT_IDENTIFIER nid sn);
                     (cstr "fileList", false, None, JtOf jt_FileAndHash)]
              [Some (VBytes number); Some (VBytes this); Some (VBytes next); Some (VBytes alg); Some (VOf (map val_file files))] m with
      | Ok r => exists n t t' s js, r = m ++ [(cstr "manifestNumber", n); (cstr "thisUpdate", t); (cstr "nextUpdate", t'); (cstr "fileHashAlg", JStr s); (cstr "fileList", JArr js)]
          /\ shows_integer number n /\ shows_time this t /\ shows_time next t' /\ oid_name alg = Some s /\ utf8 s /\ Forall2 shows_file files js
      | Err _ => forall n t t' s js, shows_integer number n -> shows_time this t -> shows_time next t' -> oid_name alg = Some s -> utf8 s -> Forall2 shows_file files js -> False
      | UB => False
      end).
    { intros m Hm. cbn [members]. unfold jt_INTEGER, jt_GeneralizedTime, jt_OBJECT_IDENTIFIER.
      change (encode_json (JtOp INTEGER_encode_json) (Some (VBytes number))) with (INTEGER_encode_json (Some (VBytes number))).
      change (encode_json (JtOp GeneralizedTime_encode_json) (Some (VBytes this))) with (time_json (asn_GT2time this)).
      change (encode_json (JtOp GeneralizedTime_encode_json) (Some (VBytes next))) with (time_json (asn_GT2time next)).
      change (encode_json (JtOp (OBJECT_IDENTIFIER_encode_json nid sn)) (Some (VBytes alg))) with (OBJECT_IDENTIFIER_encode_json nid sn (Some (VBytes alg))).
      destruct (INTEGER_encode_json (Some (VBytes number))) as [n|e|]; cbn [outcome] in On; [| |contradiction]; cbn [json_object_add];
        [|intros; eapply On; eassumption].
      destruct (time_json (asn_GT2time this)) as [t|e|]; cbn [outcome] in Ot; [| |contradiction]; cbn [json_object_add]; [|intros; eapply Ot; eassumption].
      destruct (time_json (asn_GT2time next)) as [t'|e|]; cbn [outcome] in Ox; [| |contradiction]; cbn [json_object_add]; [|intros; eapply Ox; eassumption].
      destruct (OBJECT_IDENTIFIER_encode_json nid sn (Some (VBytes alg))) as [a|e|]; [| |contradiction]; cbn [json_object_add];
        [|intros ? ? ? ? ? ? ? ? E U ?; eapply Oa; eassumption].
      destruct Oa as (s & -> & Ea & Us).
      destruct (encode_json (JtOf jt_FileAndHash) (Some (VOf (map val_file files)))) as [j|e|]; [| |contradiction]; cbn [json_object_add];
        [|intros; eapply Of; eassumption].
      destruct Of as (js & -> & F). exists n, t, t', s, js. split; [|repeat split; assumption]. destruct Hm as [->|(j & ->)]; reflexivity. }
    cbn [members] in Rest |- *. destruct v as [v|]; cbn [option_map].
    - unfold jt_INTEGER at 1. change (encode_json (JtOp INTEGER_encode_json) (Some (VBytes v))) with (INTEGER_encode_json (Some (VBytes v))).
      pose proof (integer_outcome v Hv) as Ov. destruct (INTEGER_encode_json (Some (VBytes v))) as [j|e|]; cbn [outcome] in Ov; [| |contradiction]; cbn [json_object_add json_object_set].
      + specialize (Rest _ (or_intror (ex_intro _ j eq_refl))). match type of Rest with match ?x with _ => _ end => destruct x as [r|e|] end; [| |contradiction]; cbn [finish outcome].
        * destruct Rest as (n & t & t' & s & js & -> & S1 & S2 & S3 & S4 & S5 & S6). constructor; [|assumption..]. exists j. split; [assumption|reflexivity].
        * intros j' S. destruct S. eapply Rest; eassumption.
      + cbn [finish outcome]. intros j' S. destruct S as [v' ? ? ? ? ? (j & Sv & _)]. eapply Ov; eassumption.
    - specialize (Rest _ (or_introl eq_refl)). match type of Rest with match ?x with _ => _ end => destruct x as [r|e|] end; [| |contradiction]; cbn [finish outcome].
      + destruct Rest as (n & t & t' & s & js & -> & S1 & S2 & S3 & S4 & S5 & S6). constructor; [reflexivity|assumption..].
      + intros j' S. destruct S. eapply Rest; eassumption.
  Qed.
End Manifest.

(** From the bytes. *)
Lemma roa_bytes_spec turns v asid blocks rest : (2 <= turns)%nat -> roa_fine v asid blocks -> reasonable (der_roa v asid blocks) -> bytes rest ->
  ber2json turns t_RouteOriginAttestation jt_RouteOriginAttestation (der_roa v asid blocks ++ rest)
  = encode_json jt_RouteOriginAttestation (Some (val_roa v asid blocks)).
Proof.
  intros Ht Hf Hr Hb. unfold ber2json.
  rewrite (C64_trailing_ignored t_RouteOriginAttestation turns (der_roa v asid blocks) (val_roa v asid blocks) rest); [reflexivity| | |assumption|].
  - unfold decoded_types. cbn. tauto.
  - apply Forall_app. split; [apply roa_bytes; assumption|assumption].
  - apply enc_roa; assumption.
Qed.
Lemma manifest_bytes_spec nid sn turns v number this next alg files rest : (2 <= turns)%nat -> manifest_fine v number this next alg files ->
  reasonable (der_manifest v number this next alg files) -> bytes rest ->
  ber2json turns t_Manifest (jt_Manifest nid sn) (der_manifest v number this next alg files ++ rest)
  = encode_json (jt_Manifest nid sn) (Some (val_manifest v number this next alg files)).
Proof.
  intros Ht Hf Hr Hb. unfold ber2json. destruct Hf as (Hv & Hn & Hth & Hx & Ha & Hfi).
  rewrite (C64_trailing_ignored t_Manifest turns (der_manifest v number this next alg files) (val_manifest v number this next alg files) rest); [reflexivity| | |assumption|].
  - unfold decoded_types. cbn. tauto.
  - apply Forall_app. split; [apply manifest_bytes; assumption|assumption].
  - apply enc_manifest; assumption.
Qed.
