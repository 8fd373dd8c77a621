(** ROAs and manifests of JsonEnc.v. *)
From Coq Require Import String Lia.
From Verif Require Import Base BaseLemmas PduWireSpec CString Slurm Oid Ntop NtopSpec NtopProofs Address AddressSpec AddressProofs ResourcesSpec Roa Manifest ManifestSpec.
From Verif Require Import BerSpec BerProofs Asn1Dec Asn1Types Asn1DecProps ObjectsSpec ObjectsProofs ObjectsProofs2 ObjectsProofs4.
From Verif Require Import JsonEnc JsonEncSpec JsonEncProofs JsonEncProofs2.
Notation length := List.length.
Open Scope list_scope.
Open Scope Z_scope.

Definition elements (t : jty) := fix elements (vs : list value) (acc : list json) : res (list json) :=
  match vs with
  | [] => Ok acc
  | v :: vs => match json_array_add acc (encode_json t (Some v)) with Ok acc => elements vs acc | Err e => Err e | UB => UB end
  end.
Lemma encode_of t vs : encode_json (JtOf t) (Some (VOf vs)) = finish_array (elements t vs []).
Proof. reflexivity. Qed.

Fixpoint members (ms : list (list Z * bool * option value * jty)) (vs : list (option value)) (acc : list (list Z * json)) : res (list (list Z * json)) :=
  match ms, vs with
  | [], [] => Ok acc
  | (name, optional, zero, t) :: ms, v :: vs =>
      let v := match v with Some v => Some v | None => zero end in
      match v, optional with
      | None, true => members ms vs acc
      | _, _ => match json_object_add acc name (encode_json t v) with Ok acc => members ms vs acc | Err e => Err e | UB => UB end
      end
  | _, _ => UB
  end.
Lemma encode_seq ms vs : encode_json (JtSeq ms) (Some (VSeq vs)) = finish (members ms vs []).
Proof. reflexivity. Qed.

Lemma elements_outcome {A} (g : A -> value) (P : A -> json -> Prop) t l : (forall x, In x l -> outcome (encode_json t (Some (g x))) (P x)) ->
  forall acc, match elements t (map g l) acc with
              | Ok r => exists js, r = acc ++ js /\ Forall2 P l js
              | Err _ => forall js, ~ Forall2 P l js
              | UB => False
              end.
Proof.
  induction l as [|x l IH]; intros H acc; cbn [map elements].
  - exists []. rewrite app_nil_r. split; [reflexivity|constructor].
  - pose proof (H x (or_introl eq_refl)) as Hx. destruct (encode_json t (Some (g x))) as [j|e|]; cbn [json_array_add outcome] in *.
    + specialize (IH (fun y Hy => H y (or_intror Hy)) (acc ++ [j])). destruct (elements t (map g l) (acc ++ [j])) as [r|e|]; [| |contradiction].
      * destruct IH as (js & -> & F). exists (j :: js). rewrite <- app_assoc. split; [reflexivity|constructor; assumption].
      * intros js F. inversion F; subst. eapply IH; eassumption.
    + intros js F. inversion F; subst. eapply Hx; eassumption.
    + contradiction.
Qed.
Lemma of_outcome {A} (g : A -> value) (P : A -> json -> Prop) t l : (forall x, In x l -> outcome (encode_json t (Some (g x))) (P x)) ->
  match encode_json (JtOf t) (Some (VOf (map g l))) with
  | Ok r => exists js, r = JArr js /\ Forall2 P l js
  | Err _ => forall js, ~ Forall2 P l js
  | UB => False
  end.
Proof.
  intros H. rewrite encode_of. pose proof (elements_outcome g P t l H []) as E. destruct (elements t (map g l) []) as [r|e|]; cbn [finish_array]; [|exact E..].
  destruct E as (js & -> & F). exists js. split; [reflexivity|assumption].
Qed.

(** ** Addresses *)
Lemma be_number b : addr6_number b = be b.
Proof.
  unfold addr6_number, be. generalize 0. induction b as [|x b IH]; intros n; [reflexivity|]. cbn [fold_left]. rewrite IH. f_equal. lia.
Qed.
Lemma read_ascii4 a : Forall (fun c => 0 <= c < 128) (ntop4 a).
Proof. eapply Forall_impl; [|apply ntop4_chars]. cbn. lia. Qed.
Lemma read_ascii6 a : Forall (fun c => 0 <= c < 128) (ntop6 a).
Proof. eapply Forall_impl; [|apply ntop6_chars]. unfold addrchar, hexchar. cbn. lia. Qed.

Lemma pfx4_spec s : bit_string_ok s ->
  match prefix4_to_json s with
  | Ok m => exists t addr len, m = [(cstr "prefix", JStr t); (cstr "length", JInt len)] /\ denotes 32 s addr len /\ address_text 32 t addr
  | Err _ => forall addr len, ~ denotes 32 s addr len
  | UB => False
  end.
Proof.
  intros H. unfold prefix4_to_json. pose proof (prefix4_decode_spec s H) as D. destruct (prefix4_decode s) as [(addr & len)|e|]; cbn [bind]; [| |exact D].
  - unfold prefix2json, json_str_new. rewrite strn_ascii by apply read_ascii4. cbn [json_object_add json_object_set bind json_int_new].
    exists (ntop4 addr), addr, len. split; [reflexivity|]. split; [assumption|]. unfold address_text. change (32 =? 32) with true. cbv iota.
    destruct (denotes_bounds _ _ _ _ H D) as (_ & B & _). apply read4_ntop4. unfold is_u32. exact B.
  - destruct D as (_ & D). exact D.
Qed.
Lemma pfx6_spec s : bit_string_ok s ->
  match prefix6_to_json s with
  | Ok m => exists t addr len, m = [(cstr "prefix", JStr t); (cstr "length", JInt len)] /\ denotes 128 s addr len /\ address_text 128 t addr
  | Err _ => forall addr len, ~ denotes 128 s addr len
  | UB => False
  end.
Proof.
  intros H. unfold prefix6_to_json. pose proof (prefix6_decode_spec s H) as D. destruct (prefix6_decode s) as [(addr & len)|e|]; cbn [bind]; [| |exact D].
  - destruct D as (D & L & F). rewrite be_number. unfold prefix2json, json_str_new. rewrite strn_ascii by apply read_ascii6. cbn [json_object_add json_object_set bind json_int_new].
    exists (ntop6 (be addr)), (be addr), len. split; [reflexivity|]. split; [assumption|]. unfold address_text. change (128 =? 32) with false. cbv iota.
    destruct (denotes_bounds _ _ _ _ H D) as (_ & B & _). apply read6_ntop6. exact B.
  - destruct D as (_ & D). exact D.
Qed.

Section Block.
  Variables (W : Z) (pref2json : bit_string -> res (list (list Z * json))).
  Hypothesis spec : forall s, bit_string_ok s ->
    match pref2json s with
    | Ok m => exists t addr len, m = [(cstr "prefix", JStr t); (cstr "length", JInt len)] /\ denotes W s addr len /\ address_text W t addr
    | Err _ => forall addr len, ~ denotes W s addr len
    | UB => False
    end.

  Lemma addresses_spec l : Forall roa_addr_fine l -> forall acc,
    match addresses2json pref2json (map val_roa_addr l) acc with
    | Ok r => exists js, r = acc ++ js /\ Forall2 (shows_address W) l js
    | Err _ => forall js, ~ Forall2 (shows_address W) l js
    | UB => False
    end.
  Proof.
    intros Hl. induction Hl as [|a l (Ha & Hm) Hl IH]; intros acc; cbn [map addresses2json].
    - exists []. rewrite app_nil_r. split; [reflexivity|constructor].
    - unfold val_roa_addr at 1. destruct a as [[buf unused] max]. cbn [ra_address ra_max bs_buf bs_unused] in *.
      assert (Hb : bit_string_ok {| bs_buf := buf; bs_unused := unused |}) by exact (proj1 Ha).
      pose proof (spec _ Hb) as D. destruct (pref2json {| bs_buf := buf; bs_unused := unused |}) as [m|e|]; cbn [bind]; [| |contradiction].
      + destruct D as (t & addr & len & -> & D & T). destruct max as [max|]; cbn [option_map].
        * pose proof (integer_outcome max Hm) as O. destruct (INTEGER_encode_json (Some (VBytes max))) as [j|e|]; cbn [outcome] in O; [| |contradiction].
          -- cbn [json_object_add bind].
             replace (json_object_set [(cstr "prefix", JStr t); (cstr "length", JInt len)] (cstr "maxLength") j)
               with [(cstr "prefix", JStr t); (cstr "length", JInt len); (cstr "maxLength", j)] by reflexivity.
             match goal with |- match addresses2json _ _ ?a with _ => _ end => specialize (IH a); destruct (addresses2json pref2json (map val_roa_addr l) a) as [r|e|] end; [| |contradiction].
             ++ destruct IH as (js & -> & F). eexists (_ :: js). rewrite <- app_assoc. split; [reflexivity|]. constructor; [|assumption]. econstructor; [eassumption..|reflexivity|assumption].
             ++ intros js F. inversion F; subst. eapply IH; eassumption.
          -- cbn [json_object_add bind]. intros js F. inversion F as [|x j l' js' S F']; subst. destruct S as [s' a' l'' m mj _ _ E S]. cbn [ra_max] in E. injection E as <-. eapply O; eassumption.
        * cbn [INTEGER_encode_json json_object_add bind]. intros js F. inversion F as [|x j l' js' S F']; subst. destruct S as [s' a' l'' m mj _ _ E _]. discriminate E.
      + intros js F. inversion F as [|x j l' js' S F']; subst. destruct S as [s' a' l'' m mj D' _ _ _]. eapply D; exact D'.
  Qed.

  Lemma block_spec name l : Forall (fun c => 0 <= c < 128) (cstr name) -> Forall roa_addr_fine l ->
    match AddrBlock2json (cstr name) pref2json (map val_roa_addr l) with
    | Ok j => exists js, j = JObj [(cstr "addressFamily", JStr (cstr name)); (cstr "addresses", JArr js)] /\ Forall2 (shows_address W) l js
    | Err _ => forall js, ~ Forall2 (shows_address W) l js
    | UB => False
    end.
  Proof.
    intros Hn Hl. unfold AddrBlock2json, json_str_new. rewrite strn_ascii by assumption. cbn [json_object_add bind json_object_set].
    pose proof (addresses_spec l Hl []) as A. destruct (addresses2json pref2json (map val_roa_addr l) []) as [r|e|]; cbn [bind json_object_add finish]; [|exact A..].
    destruct A as (js & -> & F). exists js. split; [reflexivity|assumption].
  Qed.
End Block.

Lemma hex_json b : bytes b -> exists s, OCTET_STRING_encode_json (Some (VBytes b)) = Ok (JStr s) /\ hex_text s b.
Proof. intros H. apply hex_outcome. assumption. Qed.
Lemma hex_json_bits b u : bytes b -> exists s, OCTET_STRING_encode_json (Some (VBits b u)) = Ok (JStr s) /\ hex_text s b.
Proof. intros H. apply hex_outcome. assumption. Qed.

Lemma unknown_spec a : roa_addr_fine a -> outcome (encode_json jt_ROAIPAddress (Some (val_roa_addr a))) (shows_unknown_address a).
Proof.
  intros (Ha & Hm). destruct a as [[buf unused] max]. cbn [ra_address ra_max bs_buf bs_unused] in *. unfold val_roa_addr, jt_ROAIPAddress. cbn [ra_address ra_max bs_buf bs_unused].
  rewrite encode_seq. unfold mandatory, pointer. cbn [members]. unfold jt_BIT_STRING at 1. cbn [encode_json].
  destruct (hex_json_bits buf unused (proj1 Ha)) as (s & -> & Hs). cbn [json_object_add json_object_set].
  destruct max as [max|]; cbn [option_map members].
  - unfold jt_INTEGER. cbn [encode_json]. pose proof (integer_outcome max Hm) as O.
    destruct (INTEGER_encode_json (Some (VBytes max))) as [j|e|]; cbn [outcome] in O; [| |contradiction]; cbn [json_object_add finish outcome].
    + replace (json_object_set [(cstr "address", JStr s)] (cstr "maxLength") j) with ((cstr "address", JStr s) :: [(cstr "maxLength", j)]) by reflexivity.
      constructor; [exact Hs|]. exists j. split; [assumption|reflexivity].
    + intros j S. destruct S as [s' m _ (j & S & _)]. eapply O; eassumption.
  - cbn [finish outcome]. constructor; [exact Hs|]. reflexivity.
Qed.

Lemma ascii4 : Forall (fun c => 0 <= c < 128) (cstr "IPv4"). Proof. repeat constructor; cbn; lia. Qed.
Lemma ascii6 : Forall (fun c => 0 <= c < 128) (cstr "IPv6"). Proof. repeat constructor; cbn; lia. Qed.

Lemma family_spec b : bytes (fst b) -> Forall roa_addr_fine (snd b) -> outcome (ROAIPAddressFamily_encode_json (Some (val_roa_block b))) (shows_block b).
Proof.
  intros Hf Hl. destruct b as [f addrs]. cbn [fst snd] in *. unfold val_roa_block, ROAIPAddressFamily_encode_json. cbn [fst snd].
  destruct (list_eqb Z.eqb f [0; 1]) eqn:E4.
  { apply list_eqb_spec in E4; [|intros; apply Z.eqb_eq]. subst f. pose proof (block_spec 32 prefix4_to_json pfx4_spec "IPv4" addrs ascii4 Hl) as B.
    destruct (AddrBlock2json _ _ _) as [j|e|]; cbn [outcome]; [| |contradiction].
    - destruct B as (js & -> & F). constructor. assumption.
    - intros j S. inversion S as [a' js F|a' js F|f' s a' js N4 N6 Hs F]; subst; [eapply B; eassumption|congruence]. }
  destruct (list_eqb Z.eqb f [0; 2]) eqn:E6.
  { apply list_eqb_spec in E6; [|intros; apply Z.eqb_eq]. subst f. pose proof (block_spec 128 prefix6_to_json pfx6_spec "IPv6" addrs ascii6 Hl) as B.
    destruct (AddrBlock2json _ _ _) as [j|e|]; cbn [outcome]; [| |contradiction].
    - destruct B as (js & -> & F). constructor. assumption.
    - intros j S. inversion S as [a' js F|a' js F|f' s a' js N4 N6 Hs F]; subst; [eapply B; eassumption|congruence]. }
  assert (N4 : f <> [0; 1]) by (intros ->; discriminate E4). assert (N6 : f <> [0; 2]) by (intros ->; discriminate E6).
  unfold jt_ROAIPAddressFamily_sequence. rewrite encode_seq. unfold mandatory. cbn [members]. unfold jt_OCTET_STRING.
  change (encode_json (JtOp OCTET_STRING_encode_json) (Some (VBytes f))) with (OCTET_STRING_encode_json (Some (VBytes f))).
  destruct (hex_json f Hf) as (s & -> & Hs). cbn [json_object_add json_object_set].
  pose proof (of_outcome val_roa_addr shows_unknown_address jt_ROAIPAddress addrs) as O.
  destruct (encode_json (JtOf jt_ROAIPAddress) (Some (VOf (map val_roa_addr addrs)))) as [j|e|]; cbn [json_object_add finish outcome].
  - destruct O as (js & -> & F); [intros x Hx; apply unknown_spec; rewrite Forall_forall in Hl; auto|].
    replace (json_object_set [(cstr "addressFamily", JStr s)] (cstr "addresses") (JArr js)) with [(cstr "addressFamily", JStr s); (cstr "addresses", JArr js)] by reflexivity.
    constructor; assumption.
  - intros j S. inversion S as [a' js F|a' js F|f' s' a' js N4' N6' Hs' F]; subst; [congruence|congruence|]. eapply O; [|eassumption]. intros x Hx; apply unknown_spec; rewrite Forall_forall in Hl; auto.
  - apply O. intros x Hx; apply unknown_spec; rewrite Forall_forall in Hl; auto.
Qed.

Lemma roa_spec v asid blocks : roa_fine v asid blocks -> outcome (encode_json jt_RouteOriginAttestation (Some (val_roa v asid blocks))) (shows_roa v asid blocks).
Proof.
  intros (Hv & Ha & Hb). unfold jt_RouteOriginAttestation, val_roa. rewrite encode_seq. unfold mandatory, pointer.
  pose proof (integer_outcome asid Ha) as Oa.
  pose proof (of_outcome val_roa_block shows_block (JtOp ROAIPAddressFamily_encode_json) blocks) as Ob.
  assert (Hb' : forall x, In x blocks -> outcome (encode_json (JtOp ROAIPAddressFamily_encode_json) (Some (val_roa_block x))) (shows_block x)).
  { intros x Hx. rewrite Forall_forall in Hb. destruct (Hb x Hx) as (H1 & H2). exact (family_spec x H1 H2). }
  specialize (Ob Hb'). clear Hb'.
  assert (Rest : forall m, (m = [] \/ exists j, m = [(cstr "version", j)]) -> 
    match members [(cstr "asId", false, None, jt_INTEGER); (cstr "ipAddrBlocks", false, None, JtOf (JtOp ROAIPAddressFamily_encode_json))]
            [Some (VBytes asid); Some (VOf (map val_roa_block blocks))] m with
    | Ok r => exists a js, r = m ++ [(cstr "asId", a); (cstr "ipAddrBlocks", JArr js)] /\ shows_integer asid a /\ Forall2 shows_block blocks js
    | Err _ => forall a js, shows_integer asid a -> Forall2 shows_block blocks js -> False
    | UB => False
    end).
  { intros m Hm. cbn [members]. unfold jt_INTEGER at 1. change (encode_json (JtOp INTEGER_encode_json) (Some (VBytes asid))) with (INTEGER_encode_json (Some (VBytes asid))).
    destruct (INTEGER_encode_json (Some (VBytes asid))) as [a|e|]; cbn [outcome] in Oa; [| |contradiction]; cbn [json_object_add].
    - destruct (encode_json (JtOf (JtOp ROAIPAddressFamily_encode_json)) (Some (VOf (map val_roa_block blocks)))) as [j|e|]; [| |contradiction]; cbn [json_object_add].
      + destruct Ob as (js & -> & F). exists a, js. split; [|split; assumption]. destruct Hm as [->|(j & ->)]; reflexivity.
      + intros a' js _ F. eapply Ob; eassumption.
    - intros a js S _. eapply Oa; eassumption. }
  cbn [members] in Rest |- *. destruct v as [v|]; cbn [option_map].
  - unfold jt_INTEGER at 1. change (encode_json (JtOp INTEGER_encode_json) (Some (VBytes v))) with (INTEGER_encode_json (Some (VBytes v))).
    pose proof (integer_outcome v Hv) as Ov. destruct (INTEGER_encode_json (Some (VBytes v))) as [j|e|]; cbn [outcome] in Ov; [| |contradiction]; cbn [json_object_add json_object_set].
    + specialize (Rest _ (or_intror (ex_intro _ j eq_refl))). match type of Rest with match ?x with _ => _ end => destruct x as [r|e|] end; [| |contradiction]; cbn [finish outcome].
      * destruct Rest as (a & js & -> & S & F). constructor; [|assumption..]. exists j. split; [assumption|reflexivity].
      * intros j' S. destruct S as [v' a js _ S F]. eapply Rest; eassumption.
    + cbn [finish outcome]. intros j' S. destruct S as [v' a js (j & Sv & _) S F]. eapply Ov; eassumption.
  - specialize (Rest _ (or_introl eq_refl)). match type of Rest with match ?x with _ => _ end => destruct x as [r|e|] end; [| |contradiction]; cbn [finish outcome].
    + destruct Rest as (a & js & -> & S & F). constructor; [reflexivity|assumption..].
    + intros j' S. destruct S as [v' a js _ S F]. eapply Rest; eassumption.
Qed.
