From Verif Require Import Base BaseLemmas Types PduWire PduWireSpec.

Lemma u8_mod x : u8 x = x mod 256. Proof. reflexivity. Qed.
Lemma be_u16 v : is_u16 v -> be [u8 (Z.shiftr v 8); u8 v] = v.
Proof.
  unfold is_u16, be, u8; cbn [fold_left]. rewrite Z.shiftr_div_pow2 by lia.
  change (2 ^ 8) with 256. intros. lia.
Qed.
Lemma be_u32 v : is_u32 v ->
  be [u8 (Z.shiftr v 24); u8 (Z.shiftr v 16); u8 (Z.shiftr v 8); u8 v] = v.
Proof.
  unfold is_u32, be, u8; cbn [fold_left]. rewrite !Z.shiftr_div_pow2 by lia.
  change (2 ^ 8) with 256. change (2 ^ 16) with 65536. change (2 ^ 24) with 16777216.
  intros. lia.
Qed.

(** Big-endian bytes of a number, generically. *)
Fixpoint be_bytes (n : nat) (x : Z) : list Z :=
  match n with
  | O => []
  | S k => (Z.shiftr x (8 * Z.of_nat k)) mod 256 :: be_bytes k x
  end.
Lemma be_app_acc l a : fold_left (fun a b => 256 * a + b) l a
  = a * 256 ^ Z.of_nat (length l) + be l.
Proof.
  unfold be. revert a. induction l as [|b l IH]; intros a; cbn [fold_left length].
  - rewrite Z.pow_0_r. lia.
  - rewrite (IH (256 * a + b)), (IH (256 * 0 + b)).
    rewrite Nat2Z.inj_succ, Z.pow_succ_r by lia. ring.
Qed.
Lemma be_bytes_length n x : length (be_bytes n x) = n.
Proof. induction n; cbn; auto. Qed.
Lemma be_be_bytes n x : be (be_bytes n x) = x mod 256 ^ Z.of_nat n.
Proof.
  induction n as [|n IH].
  - cbn. rewrite Z.mod_1_r. reflexivity.
  - cbn [be_bytes]. unfold be. cbn [fold_left]. rewrite be_app_acc, be_bytes_length, IH.
    rewrite Nat2Z.inj_succ, Z.pow_succ_r by lia.
    rewrite Z.shiftr_div_pow2 by lia.
    replace (2 ^ (8 * Z.of_nat n)) with (256 ^ Z.of_nat n)
      by (rewrite Z.pow_mul_r by lia; reflexivity).
    rewrite (Z.mul_comm 256 (256 ^ Z.of_nat n)).
    rewrite Z.rem_mul_r by lia. ring.
Qed.

Lemma s6_addr_be_bytes a : s6_addr a = be_bytes 16 a.
Proof. reflexivity. Qed.
Lemma u8_u8 x : u8 (u8 x) = u8 x.
Proof. unfold u8. apply Z.mod_mod. lia. Qed.
Lemma write_in6_is a : write_in6_addr a = be_bytes 16 a.
Proof.
  unfold write_in6_addr, s6_addr, write_uint8. cbn [map flat_map app be_bytes].
  rewrite !u8_u8. reflexivity.
Qed.
Lemma be_in6 a : 0 <= a < 2 ^ 128 -> be (write_in6_addr a) = a.
Proof. intros H. rewrite write_in6_is, be_be_bytes. apply Z.mod_small. exact H. Qed.
Lemma write_in6_length a : length (write_in6_addr a) = 16%nat.
Proof. reflexivity. Qed.

Lemma u8_id x : is_byte x -> u8 x = x.
Proof. unfold u8, is_byte. intros. apply Z.mod_small. lia. Qed.

(** Header lemma: a serialised header followed by a body of the announced
    length is read back by the RFC decoder. *)
Lemma rfc_next_hdr version type m body len rest p :
  is_byte version -> is_byte type -> is_u16 m ->
  len = 8 + Z.of_nat (length body) -> len < 4294967296 ->
  rfc_pdu version type (u8 (Z.shiftr m 8)) (u8 m) body = Some p ->
  rfc_next (serialize_hdr version type m len ++ body ++ rest) = Some (version, p, rest).
Proof.
  intros Hv Ht Hm Hl Hs Hp. unfold serialize_hdr, write_uint8, write_uint16, write_uint32.
  rewrite (u8_id version Hv), (u8_id type Ht). cbn [app]. unfold rfc_next.
  rewrite be_u32 by (unfold is_u32; lia).
  assert (E1 : (len <? 8) = false) by lia.
  assert (E2 : (Z.of_nat (length (body ++ rest)) <? len - 8) = false)
    by (rewrite app_length; lia).
  rewrite E1, E2. cbn [orb].
  replace (Z.to_nat (len - 8)) with (length body) by lia.
  rewrite firstn_app, Nat.sub_diag, firstn_all. cbn [firstn]. rewrite app_nil_r, Hp.
  rewrite skipn_app, Nat.sub_diag, skipn_all. reflexivity.
Qed.

Lemma rfc_flag_byte f : rfc_flag (flag_byte f) = Some f.
Proof. destruct f; reflexivity. Qed.
Lemma flag_byte_is_byte f : is_byte (flag_byte f).
Proof. destruct f; unfold is_byte; cbn; lia. Qed.
Lemma hdr_len version type m len : length (serialize_hdr version type m len) = 8%nat.
Proof. reflexivity. Qed.

Definition next_ok (bytes : list Z) (v : Z) (p : rtr_pdu) : Prop :=
  forall rest, rfc_next (bytes ++ rest) = Some (v, p, rest).

Lemma next_ok_intro version type m body len p :
  is_byte version -> is_byte type -> is_u16 m ->
  len = 8 + Z.of_nat (length body) -> len < 4294967296 ->
  rfc_pdu version type (u8 (Z.shiftr m 8)) (u8 m) body = Some p ->
  next_ok (serialize_hdr version type m len ++ body) version p.
Proof.
  intros. intros rest. rewrite <- app_assoc. apply rfc_next_hdr; auto.
Qed.

Ltac byte_solve :=
  cbv [is_byte is_u16 PDU_TYPE_SERIAL_NOTIFY PDU_TYPE_SERIAL_QUERY PDU_TYPE_RESET_QUERY
       PDU_TYPE_CACHE_RESPONSE PDU_TYPE_IPV4_PREFIX PDU_TYPE_IPV6_PREFIX
       PDU_TYPE_END_OF_DATA PDU_TYPE_CACHE_RESET PDU_TYPE_ROUTER_KEY
       PDU_TYPE_ERROR_REPORT RTRPDU_SERIAL_NOTIFY_LEN RTRPDU_CACHE_RESPONSE_LEN
       RTRPDU_IPV4_PREFIX_LEN RTRPDU_IPV6_PREFIX_LEN RTRPDU_END_OF_DATA_V0_LEN
       RTRPDU_END_OF_DATA_V1_LEN RTRPDU_CACHE_RESET_LEN RTRPDU_ROUTER_KEY_LEN];
  cbn; lia.

Lemma serial_notify_ok version session serial :
  is_byte version -> is_u16 session -> is_u32 serial ->
  next_ok (ser_serial_notify version session serial) version (PSerialNotify session serial).
Proof.
  intros Hv Hs Hn. apply next_ok_intro; auto; try byte_solve.
  unfold rfc_pdu; cbv zeta. rewrite be_u16 by auto.
  change (PDU_TYPE_SERIAL_NOTIFY =? 0) with true. cbn iota.
  unfold write_uint32. cbn [length Nat.eqb]. rewrite be_u32 by auto. reflexivity.
Qed.

Lemma cache_reset_ok version : is_byte version ->
  next_ok (ser_cache_reset version) version PCacheReset.
Proof.
  intros Hv. unfold ser_cache_reset.
  rewrite <- (app_nil_r (serialize_hdr _ _ _ _)).
  apply next_ok_intro; auto; byte_solve.
Qed.

Lemma cache_response_ok version session : is_byte version -> is_u16 session ->
  next_ok (ser_cache_response version session) version (PCacheResponse session).
Proof.
  intros Hv Hs. unfold ser_cache_response.
  rewrite <- (app_nil_r (serialize_hdr _ _ _ _)).
  apply next_ok_intro; auto; try byte_solve.
  unfold rfc_pdu; cbv zeta. rewrite be_u16 by auto. reflexivity.
Qed.

Lemma prefix_ok version v f : is_byte version -> vrp_in_range v ->
  next_ok (ser_prefix version v (flag_byte f)) version (PPrefix f v).
Proof.
  intros Hv (Ha & Hl & Hm & Haddr). unfold ser_prefix.
  destruct v as [asn addr len mx fam]. cbn [v_asn v_addr v_len v_max v_fam] in *.
  destruct fam.
  - apply next_ok_intro; auto; try byte_solve.
    unfold rfc_pdu; cbv zeta. cbn [v_asn v_addr v_len v_max].
    change (PDU_TYPE_IPV4_PREFIX =? 0) with false. change (PDU_TYPE_IPV4_PREFIX =? 1) with false.
    change (PDU_TYPE_IPV4_PREFIX =? 2) with false. change (PDU_TYPE_IPV4_PREFIX =? 3) with false.
    change (PDU_TYPE_IPV4_PREFIX =? 4) with true. cbn iota.
    change (be [u8 (Z.shiftr 0 8); u8 0] =? 0) with true. cbn iota.
    unfold rfc_prefix, write_uint8, write_in_addr, write_uint32. cbn [app length Nat.eqb Nat.add].
    rewrite (u8_id (flag_byte f)) by apply flag_byte_is_byte.
    rewrite (u8_id len), (u8_id mx) by auto. change (u8 0 =? 0) with true. cbn [andb].
    rewrite rfc_flag_byte. cbn [firstn skipn]. rewrite !be_u32; auto.
  - apply next_ok_intro; auto; try byte_solve.
    unfold rfc_pdu; cbv zeta. cbn [v_asn v_addr v_len v_max].
    change (PDU_TYPE_IPV6_PREFIX =? 0) with false. change (PDU_TYPE_IPV6_PREFIX =? 1) with false.
    change (PDU_TYPE_IPV6_PREFIX =? 2) with false. change (PDU_TYPE_IPV6_PREFIX =? 3) with false.
    change (PDU_TYPE_IPV6_PREFIX =? 4) with false. change (PDU_TYPE_IPV6_PREFIX =? 6) with true.
    cbn iota. change (be [u8 (Z.shiftr 0 8); u8 0] =? 0) with true. cbn iota.
    unfold rfc_prefix, write_uint8. cbn [app].
    rewrite (u8_id (flag_byte f)) by apply flag_byte_is_byte.
    rewrite (u8_id len), (u8_id mx) by auto. change (u8 0 =? 0) with true.
    rewrite app_length, write_in6_length. cbn [write_uint32 length Nat.eqb Nat.add andb].
    rewrite rfc_flag_byte.
    pose proof (write_in6_length addr) as L.
    rewrite firstn_app, skipn_app, L, Nat.sub_diag.
    rewrite <- L, firstn_all, skipn_all. cbn [firstn skipn app].
    rewrite app_nil_r, be_in6 by auto. unfold write_uint32. rewrite be_u32; auto.
Qed.

Lemma router_key_ok k f b : rk_in_range k ->
  ser_router_key 1 k (flag_byte f) = Some b ->
  next_ok b 1 (PRouterKey f k).
Proof.
  intros (Ha & Hs & Hp) E. unfold ser_router_key in E.
  change (1 =? 0) with false in E. cbn iota in E.
  apply (f_equal (fun o => match o with Some x => x | None => [] end)) in E.
  cbn iota in E. subst b.
  destruct k as [ski asn spk]. cbn [rk_ski rk_asn rk_spk] in *.
  apply (next_ok_intro 1 PDU_TYPE_ROUTER_KEY (u16 (Z.shiftl (flag_byte f) 8))
           (ski ++ write_uint32 asn ++ spk)); try byte_solve.
  - destruct f; byte_solve.
  - rewrite !app_length, Hs, Hp. reflexivity.
  - assert (L : (length (ski ++ write_uint32 asn ++ spk) = 20 + 4 + 91)%nat)
      by (rewrite !app_length, Hs, Hp; reflexivity).
    unfold rfc_pdu; cbv zeta. rewrite L, Nat.eqb_refl.
    change (PDU_TYPE_ROUTER_KEY =? 0) with false. change (PDU_TYPE_ROUTER_KEY =? 1) with false.
    change (PDU_TYPE_ROUTER_KEY =? 2) with false. change (PDU_TYPE_ROUTER_KEY =? 3) with false.
    change (PDU_TYPE_ROUTER_KEY =? 4) with false. change (PDU_TYPE_ROUTER_KEY =? 6) with false.
    change (PDU_TYPE_ROUTER_KEY =? 7) with false. change (PDU_TYPE_ROUTER_KEY =? 8) with false.
    change (PDU_TYPE_ROUTER_KEY =? 9) with true. cbn iota.
    replace (u8 (u16 (Z.shiftl (flag_byte f) 8)) =? 0) with true by (destruct f; reflexivity).
    replace (rfc_flag (u8 (Z.shiftr (u16 (Z.shiftl (flag_byte f) 8)) 8))) with (Some f)
      by (destruct f; reflexivity).
    cbn [andb Z.eqb Pos.eqb].
    rewrite firstn_app, Hs, Nat.sub_diag. rewrite <- Hs at 1. rewrite firstn_all.
    cbn [firstn]. rewrite app_nil_r.
    rewrite !skipn_app, Hs. rewrite <- Hs at 1. rewrite skipn_all.
    replace (skipn 24 ski) with (@nil Z) by (symmetry; apply skipn_all2; lia).
    cbn [Nat.sub skipn app write_uint32 firstn].
    rewrite be_u32 by auto. reflexivity.
Qed.

Lemma end_of_data_ok version session serial iv :
  version = 0 \/ version = 1 -> is_u16 session -> is_u32 serial ->
  is_u32 (i_refresh iv) -> is_u32 (i_retry iv) -> is_u32 (i_expire iv) ->
  next_ok (ser_end_of_data version session serial iv) version
    (PEndOfData session serial
       (if version =? 1 then Some (i_refresh iv, i_retry iv, i_expire iv) else None)).
Proof.
  intros Hv Hs Hn H1 H2 H3. unfold ser_end_of_data.
  apply next_ok_intro; auto; try byte_solve.
  - destruct Hv as [-> | ->]; byte_solve.
  - destruct Hv as [-> | ->]; reflexivity.
  - unfold rfc_pdu; cbv zeta. rewrite be_u16 by auto.
    change (PDU_TYPE_END_OF_DATA =? 0) with false. change (PDU_TYPE_END_OF_DATA =? 1) with false.
    change (PDU_TYPE_END_OF_DATA =? 2) with false. change (PDU_TYPE_END_OF_DATA =? 3) with false.
    change (PDU_TYPE_END_OF_DATA =? 4) with false. change (PDU_TYPE_END_OF_DATA =? 6) with false.
    change (PDU_TYPE_END_OF_DATA =? 7) with true. cbn iota.
    destruct Hv as [-> | ->]; cbn [Z.eqb Pos.eqb]; unfold write_uint32;
      cbn [app length Nat.eqb firstn skipn]; rewrite !be_u32; auto.
Qed.


Lemma lor_shift_add a b n : 0 <= n -> 0 <= b < 2 ^ n ->
  Z.lor (Z.shiftl a n) b = a * 2 ^ n + b.
Proof.
  intros Hn Hb. rewrite <- Z.shiftl_mul_pow2 by lia.
  rewrite <- Z.lxor_lor, Z.add_nocarry_lxor; [reflexivity| |].
  - apply Z.bits_inj'. intros i Hi. rewrite Z.land_spec, Z.bits_0.
    destruct (Z_lt_le_dec i n) as [L|L].
    + rewrite Z.shiftl_spec_low by lia. reflexivity.
    + rewrite andb_comm. replace b with (b mod 2 ^ n) by (apply Z.mod_small; lia).
      rewrite Z.mod_pow2_bits_high by lia. reflexivity.
  - apply Z.bits_inj'. intros i Hi. rewrite Z.land_spec, Z.bits_0.
    destruct (Z_lt_le_dec i n) as [L|L].
    + rewrite Z.shiftl_spec_low by lia. reflexivity.
    + rewrite andb_comm. replace b with (b mod 2 ^ n) by (apply Z.mod_small; lia).
      rewrite Z.mod_pow2_bits_high by lia. reflexivity.
Qed.

Lemma lor_be4 b4 b5 b6 b7 : is_byte b5 -> is_byte b6 -> is_byte b7 ->
  Z.lor (Z.shiftl b4 24) (Z.lor (Z.shiftl b5 16) (Z.lor (Z.shiftl b6 8) b7))
  = be [b4; b5; b6; b7].
Proof.
  unfold is_byte, be. intros. cbn [fold_left].
  rewrite (lor_shift_add b6 b7 8) by lia. change (2 ^ 8) with 256.
  rewrite (lor_shift_add b5 _ 16) by lia. change (2 ^ 16) with 65536.
  rewrite (lor_shift_add b4 _ 24) by lia. change (2 ^ 24) with 16777216. lia.
Qed.

(** ** Error reports *)
Definition bytes_ok (l : list Z) : Prop := Forall is_byte l.


Lemma compute_error_pdu_len_spec req :
  match req with None => True | Some b => bytes_ok b end ->
  exists n, compute_error_pdu_len req = Ok n /\ 0 <= n <= 123 /\
    match req with
    | None => n = 0
    | Some b => n <= Z.of_nat (length b)
    end.
Proof.
  intros Hb.
  destruct req as [b|]; [|exists 0; cbn; split; [reflexivity|lia]].
  unfold compute_error_pdu_len. cbv zeta.
  destruct (Z.of_nat (length b) <? RTR_HDR_LEN) eqn:E.
  - exists 0. split; [reflexivity|]. lia.
  - unfold RTR_HDR_LEN in E.
    destruct b as [|b0 [|b1 [|b2 [|b3 [|b4 [|b5 [|b6 [|b7 t]]]]]]]];
      cbn [length] in E; try lia.
    cbn [nth_error]. unfold bytes_ok in Hb.
    assert (H4 : is_byte b4) by (rewrite Forall_forall in Hb; apply Hb; cbn; tauto).
    assert (H5 : is_byte b5) by (rewrite Forall_forall in Hb; apply Hb; cbn; tauto).
    assert (H6 : is_byte b6) by (rewrite Forall_forall in Hb; apply Hb; cbn; tauto).
    assert (H7 : is_byte b7) by (rewrite Forall_forall in Hb; apply Hb; cbn; tauto).
    rewrite lor_be4 by auto.
    assert (0 <= be [b4; b5; b6; b7]) by (unfold be, is_byte in *; cbn [fold_left]; lia).
    unfold RTRPDU_MAX_LEN, RTRPDU_ROUTER_KEY_LEN.
    destruct (be [b4; b5; b6; b7] <=? _) eqn:L1.
    + eexists. split; [reflexivity|].
      destruct (be [b4; b5; b6; b7] <=? 123) eqn:L2; lia.
    + eexists. split; [reflexivity|].
      destruct (Z.of_nat (length (b0 :: b1 :: b2 :: b3 :: b4 :: b5 :: b6 :: b7 :: t)) <=? 123) eqn:L2; lia.
Qed.

Lemma firstn_w32 n l : firstn 4 (write_uint32 n ++ l) = write_uint32 n.
Proof. reflexivity. Qed.
Lemma skipn_w32 n l : skipn 4 (write_uint32 n ++ l) = l.
Proof. reflexivity. Qed.
Lemma be_w32 n : is_u32 n -> be (write_uint32 n) = n.
Proof. exact (be_u32 n). Qed.
Lemma w32_len n : length (write_uint32 n) = 4%nat.
Proof. reflexivity. Qed.
Lemma rfc_error_ok code n q msg :
  Z.of_nat (length q) = n -> n < 4294967296 -> Z.of_nat (length msg) < 4294967296 ->
  rfc_error code (write_uint32 n ++ q ++ write_uint32 (Z.of_nat (length msg)) ++ msg)
  = Some (PErrorReport code q msg).
Proof.
  intros Lq Hn Hm. unfold rfc_error.
  destruct (Nat.ltb_spec (length (write_uint32 n ++ q ++ write_uint32 (Z.of_nat (length msg)) ++ msg)) 8) as [E8|_].
  { exfalso. rewrite !app_length, !w32_len in E8. lia. }
  rewrite firstn_w32, skipn_w32, be_w32 by (unfold is_u32; lia). cbv zeta.
  destruct (Z.ltb_spec (Z.of_nat (length (q ++ write_uint32 (Z.of_nat (length msg)) ++ msg))) (n + 4)) as [E9|_].
  { exfalso. rewrite !app_length, !w32_len in E9. lia. }
  replace (Z.to_nat n) with (length q) by lia.
  rewrite skipn_app, Nat.sub_diag, skipn_all. cbn [app]. change (skipn 0 ?x) with x.
  rewrite (firstn_app (length q) q), Nat.sub_diag, firstn_all. change (firstn 0 ?x) with (@nil Z).
  rewrite app_nil_r, firstn_w32, skipn_w32, be_w32 by (unfold is_u32; lia).
  rewrite Z.eqb_refl. reflexivity.
Qed.

Lemma error_report_ok version code req msg :
  is_byte version -> is_u16 code ->
  match req with None => True | Some b => bytes_ok b end ->
  Z.of_nat (length msg) < 4294967000 ->
  exists q bytes,
    ser_error_report version code req msg = Ok bytes /\
    (length q <= 123)%nat /\
    match req with None => q = [] | Some b => exists r, b = q ++ r end /\
    Z.of_nat (length bytes) = 16 + Z.of_nat (length q) + Z.of_nat (length msg) /\
    next_ok bytes version (PErrorReport code q msg).
Proof.
  intros Hv Hc Hb Hm.
  destruct (compute_error_pdu_len_spec req Hb) as (n & En & Hn & Hr).
  unfold ser_error_report. rewrite En. cbn [bind].
  assert (Q : exists q, (if 0 <? n then match req with
               | Some b => memcpy_bytes b n | None => UB end else Ok []) = Ok q /\
             Z.of_nat (length q) = n /\
             match req with None => q = [] | Some b => exists r, b = q ++ r end).
  { destruct req as [b|].
    - destruct (0 <? n) eqn:E0.
      + unfold memcpy_bytes. destruct (n <=? Z.of_nat (length b)) eqn:E1; [|lia].
        exists (firstn (Z.to_nat n) b). split; [reflexivity|]. split.
        * rewrite firstn_length. lia.
        * exists (skipn (Z.to_nat n) b). symmetry. apply firstn_skipn.
      + exists []. cbn. split; [reflexivity|]. split; [lia|]. exists b. reflexivity.
    - subst n. exists []. cbn. auto. }
  destruct Q as (q & Eq & Lq & Hq). rewrite Eq. cbn [bind].
  exists q. eexists. split; [reflexivity|]. split; [lia|]. split; [exact Hq|].
  rewrite (wrap32_id n) by (unfold is_u32; lia).
  rewrite (wrap32_id (Z.of_nat (length msg))) by (unfold is_u32; lia).
  unfold rtrpdu_error_report_len, RTR_HDR_LEN.
  rewrite (wrap32_id (8 + 4 + n + 4 + _)) by (unfold is_u32; lia).
  rewrite (wrap32_id (8 + 4 + n + 4 + _)) by (unfold is_u32; lia).
  split.
  - rewrite !app_length, hdr_len. unfold write_uint32. cbn [length]. lia.
  - apply next_ok_intro; auto; try byte_solve.
    + rewrite !app_length. unfold write_uint32. cbn [length]. lia.
    + lia.
    + unfold rfc_pdu; cbv zeta. rewrite be_u16 by auto.
      change (PDU_TYPE_ERROR_REPORT =? 0) with false. change (PDU_TYPE_ERROR_REPORT =? 1) with false.
      change (PDU_TYPE_ERROR_REPORT =? 2) with false. change (PDU_TYPE_ERROR_REPORT =? 3) with false.
      change (PDU_TYPE_ERROR_REPORT =? 4) with false. change (PDU_TYPE_ERROR_REPORT =? 6) with false.
      change (PDU_TYPE_ERROR_REPORT =? 7) with false. change (PDU_TYPE_ERROR_REPORT =? 8) with false.
      change (PDU_TYPE_ERROR_REPORT =? 9) with false. change (PDU_TYPE_ERROR_REPORT =? 10) with true.
      cbn iota. apply rfc_error_ok; lia.
Qed.

Lemma next_ok_decode b v p : next_ok b v p -> rfc_decode b v p.
Proof. intros H. specialize (H []). rewrite app_nil_r in H. exact H. Qed.

Lemma next_ok_stream v ps l : Forall2 (fun b p => next_ok b v p) l ps ->
  rfc_stream v (concat l) ps.
Proof.
  induction 1 as [|b p l ps H H2 IH]; cbn [concat]; [constructor|].
  econstructor; [apply H|exact IH].
Qed.

Lemma decode_next_ok b v p : rfc_decode b v p -> next_ok b v p.
Proof.
  unfold rfc_decode, next_ok. intros H rest. unfold rfc_next in *.
  destruct b as [|v0 [|t [|m1 [|m2 [|l1 [|l2 [|l3 [|l4 body]]]]]]]]; try discriminate.
  cbn [app]. set (len := be [l1; l2; l3; l4]) in *. clearbody len. revert H.
  destruct (Z.ltb_spec len 8); cbn [orb]; [discriminate|].
  destruct (Z.ltb_spec (Z.of_nat (length body)) (len - 8)); [discriminate|].
  destruct (Z.ltb_spec (Z.of_nat (length (body ++ rest))) (len - 8)) as [X|X];
    [rewrite app_length in X; lia|].
  destruct (rfc_pdu v0 t m1 m2 (firstn (Z.to_nat (len - 8)) body)) as [p'|] eqn:E; [|discriminate].
  intros H'. assert (v0 = v /\ p' = p /\ skipn (Z.to_nat (len - 8)) body = []) as (-> & -> & S)
    by (repeat split; congruence).
  assert (L : (length body <= Z.to_nat (len - 8))%nat).
  { pose proof (skipn_length (Z.to_nat (len - 8)) body) as SL. rewrite S in SL. cbn in SL. lia. }
  assert (Z.to_nat (len - 8) = length body) as En by lia. rewrite En in *.
  rewrite firstn_app, Nat.sub_diag, firstn_all in *. cbn [firstn]. rewrite app_nil_r.
  rewrite E. rewrite skipn_app, Nat.sub_diag, skipn_all. reflexivity.
Qed.

Lemma whole_len b0 b1 b2 b3 b4 b5 b6 b7 t :
  Forall is_byte (b0 :: b1 :: b2 :: b3 :: b4 :: b5 :: b6 :: b7 :: t) ->
  be [b4; b5; b6; b7] = Z.of_nat (length (b0 :: b1 :: b2 :: b3 :: b4 :: b5 :: b6 :: b7 :: t)) ->
  (length (b0 :: b1 :: b2 :: b3 :: b4 :: b5 :: b6 :: b7 :: t) <= 123)%nat ->
  compute_error_pdu_len (Some (b0 :: b1 :: b2 :: b3 :: b4 :: b5 :: b6 :: b7 :: t))
  = Ok (Z.of_nat (length (b0 :: b1 :: b2 :: b3 :: b4 :: b5 :: b6 :: b7 :: t))).
Proof.
  intros Hb Hl Hm. unfold compute_error_pdu_len. cbv zeta.
  destruct (Z.of_nat (length (b0 :: b1 :: b2 :: b3 :: b4 :: b5 :: b6 :: b7 :: t)) <? RTR_HDR_LEN) eqn:E.
  { cbn [length] in E. unfold RTR_HDR_LEN in E. lia. }
  cbn [nth_error].
  assert (H5 : is_byte b5) by (rewrite Forall_forall in Hb; apply Hb; cbn; tauto).
  assert (H6 : is_byte b6) by (rewrite Forall_forall in Hb; apply Hb; cbn; tauto).
  assert (H7 : is_byte b7) by (rewrite Forall_forall in Hb; apply Hb; cbn; tauto).
  rewrite lor_be4 by auto. rewrite Hl, Z.leb_refl.
  unfold RTRPDU_MAX_LEN, RTRPDU_ROUTER_KEY_LEN.
  match goal with |- context [?x <=? 123] => destruct (Z.leb_spec x 123) as [|X] end; [reflexivity|lia].
Qed.
Lemma whole_quote version code msg bytes req q r b0 b1 b2 b3 b4 b5 b6 b7 t :
  ser_error_report version code (Some req) msg = Ok bytes ->
  Z.of_nat (length bytes) = 16 + Z.of_nat (length q) + Z.of_nat (length msg) ->
  Forall is_byte req -> Z.of_nat (length msg) < 4294967000 ->
  req = b0 :: b1 :: b2 :: b3 :: b4 :: b5 :: b6 :: b7 :: t ->
  be [b4; b5; b6; b7] = Z.of_nat (length req) -> (length req <= 123)%nat ->
  req = q ++ r -> req = q.
Proof.
  intros A D Hb Hmsg Hreq Hl Hm E.
  unfold ser_error_report in A.
  assert (C : compute_error_pdu_len (Some req) = Ok (Z.of_nat (length req))).
  { clear A D E. subst req. apply whole_len; auto. }
  rewrite C in A. cbn [bind] in A.
  destruct (Z.ltb_spec 0 (Z.of_nat (length req))) as [_|X]; [|rewrite Hreq in X; cbn [length] in X; lia].
  unfold memcpy_bytes in A. rewrite Z.leb_refl in A. cbn [bind] in A.
  apply (f_equal (fun x => match x with Ok y => length y | _ => O end)) in A.
  cbv beta iota in A. rewrite !app_length, hdr_len, !w32_len, firstn_length in A.
  assert (length req = length q + length r)%nat by (rewrite E at 1; apply app_length).
  destruct r as [|x r]; [rewrite app_nil_r in E; exact E|]. cbn [length] in *. lia.
Qed.
