From Coq Require Import String.
From Verif Require Import Base BaseLemmas CString Types PduWire PduWireSpec PduWireProofs
  PduHandler PduHandlerSpec PduHandlerProofs PduStream PduStreamSpec.

Notation length := List.length.

(** ** Reading numbers *)
Lemma lor_be2 a b : is_byte b -> Z.lor (Z.shiftl a 8) b = be [a; b].
Proof.
  unfold is_byte, be. intros. cbn [fold_left]. rewrite lor_shift_add by lia.
  change (2 ^ 8) with 256. lia.
Qed.

Lemma rd_nth s i b : nth_error (ps_buf s) i = Some b -> rd s i = Ok b.
Proof. unfold rd. intros ->. reflexivity. Qed.

Lemma read32_at s i a b c d :
  nth_error (ps_buf s) i = Some a -> nth_error (ps_buf s) (i + 1) = Some b ->
  nth_error (ps_buf s) (i + 2) = Some c -> nth_error (ps_buf s) (i + 3) = Some d ->
  is_byte b -> is_byte c -> is_byte d ->
  read_uint32 s i = Ok (be [a; b; c; d]).
Proof.
  intros Ha Hb Hc Hd B C D. unfold read_uint32, rd. rewrite Ha, Hb, Hc, Hd. cbn [bind].
  rewrite lor_be4 by auto. reflexivity.
Qed.

Lemma be4_bound a b c d : is_byte a -> is_byte b -> is_byte c -> is_byte d ->
  0 <= be [a; b; c; d] < 4294967296.
Proof. unfold is_byte, be. cbn [fold_left]. lia. Qed.
Lemma be2_bound a b : is_byte a -> is_byte b -> 0 <= be [a; b] < 65536.
Proof. unfold is_byte, be. cbn [fold_left]. lia. Qed.

Lemma ge4_destruct (l : list Z) : (4 <= length l)%nat ->
  exists a b c d t, l = a :: b :: c :: d :: t.
Proof.
  destruct l as [|a [|b [|c [|d t]]]]; cbn; try lia. intros _. eauto 6.
Qed.

Lemma read32_ge4 s : Forall is_byte (ps_buf s) -> (4 <= length (ps_buf s))%nat ->
  exists n, read_uint32 s 0 = Ok n /\ 0 <= n < 4294967296 /\ n = be (firstn 4 (ps_buf s)).
Proof.
  intros F L. destruct (ge4_destruct _ L) as (a & b & c & d & t & E).
  assert (Fb : is_byte a /\ is_byte b /\ is_byte c /\ is_byte d).
  { rewrite Forall_forall in F. rewrite E in F. repeat split; apply F; cbn; tauto. }
  destruct Fb as (Fa & Fb & Fc & Fd).
  exists (be [a; b; c; d]). split; [|split].
  - apply read32_at; rewrite ?E; cbn; auto.
  - apply be4_bound; auto.
  - rewrite E. reflexivity.
Qed.

Lemma Forall_skipn {A} (P : A -> Prop) n l : Forall P l -> Forall P (skipn n l).
Proof.
  intros H. rewrite <- (firstn_skipn n l) in H. apply Forall_app in H. tauto.
Qed.
Lemma Forall_firstn {A} (P : A -> Prop) n l : Forall P l -> Forall P (firstn n l).
Proof.
  intros H. rewrite <- (firstn_skipn n l) in H. apply Forall_app in H. tauto.
Qed.

Lemma get_length_advance s n : 0 <= n <= get_length s ->
  get_length (advance s n) = get_length s - n.
Proof. unfold get_length, advance. cbn. rewrite skipn_length. lia. Qed.

(** ** err_pdu_send *)
Lemma err_send_ok sk version code raw msg :
  Forall is_byte raw -> (2 <= length raw)%nat ->
  exists sk', err_pdu_send sk version code (Some raw) msg = Ok (sk', -22) /\
    (nth_error raw 1 = Some 10 -> sk' = sk) /\
    (nth_error raw 1 <> Some 10 -> exists b,
       ser_error_report version code (Some raw) msg = Ok b /\ sk' = fst (send_response sk b)).
Proof.
  intros F L. unfold err_pdu_send. destruct raw as [|r0 [|r1 raw]]; cbn [length] in L; try lia.
  cbn [nth_error]. unfold PDU_TYPE_ERROR_REPORT. destruct (Z.eqb_spec r1 10) as [-> |N].
  - exists sk. split; [reflexivity|]. split; [auto|congruence].
  - destruct (compute_error_pdu_len_spec (Some (r0 :: r1 :: raw)) F) as (n & En & Hn & Hr).
    assert (exists b, ser_error_report version code (Some (r0 :: r1 :: raw)) msg = Ok b) as [b Eb].
    { unfold ser_error_report. rewrite En. cbn [bind].
      destruct (0 <? n); [|eexists; reflexivity]. unfold memcpy_bytes.
      destruct (Z.leb_spec n (Z.of_nat (length (r0 :: r1 :: raw)))); [|lia]. eexists. reflexivity. }
    rewrite Eb. cbn [bind]. eexists. split; [reflexivity|]. split; [congruence|]. intros _.
    exists b. auto.
Qed.

Lemma send_response_log sk b : exists o, sk_log (fst (send_response sk b)) = sk_log sk ++ [(b, o)].
Proof.
  unfold send_response. destruct (next_outcome (sk_oracle sk)) as [o r].
  exists o. destruct o; reflexivity.
Qed.

Lemma err_send_answered sk version code v t raw rest msg :
  is_byte version -> is_u16 code -> Forall is_byte raw -> (2 <= length raw)%nat ->
  Z.of_nat (length msg) < 4294967000 -> v :: t :: rest = raw ->
  exists sk', err_pdu_send sk version code (Some raw) msg = Ok (sk', -22) /\
    answered sk sk' t code raw.
Proof.
  intros Hv Hc F L Hm E. destruct (err_send_ok sk version code raw msg F L) as (sk' & E1 & E2 & E3).
  exists sk'. split; [exact E1|]. subst raw. cbn [nth_error] in E2, E3.
  destruct (Z.eq_dec t 10) as [-> |N]; [left; auto|]. right. split; [exact N|].
  destruct E3 as (b & Eb & Esk); [congruence|].
  destruct (error_report_ok version code (Some (v :: t :: rest)) msg Hv Hc F Hm)
    as (q & bytes & Es & _ & (r & Hr) & _ & Nx).
  rewrite Eb in Es. injection Es as <-.
  destruct (send_response_log sk b) as (o & Ho).
  exists b, version, q, msg, o, r. repeat split; auto.
  - unfold rfc_decode. specialize (Nx []). rewrite app_nil_r in Nx. exact Nx.
  - rewrite Esk. exact Ho.
Qed.

(** ** One PDU: a total case analysis *)
Inductive pdu_case (s : pstream) (sk : socket) : res (pstream * socket * load_ret) -> Prop :=
| pc_short : (length (ps_buf s) < 8)%nat -> pdu_case s sk (Ok (s, sk, LAgain))
| pc_again v t m1 m2 l1 l2 l3 l4 rest s1 :
    ps_buf s = v :: t :: m1 :: m2 :: l1 :: l2 :: l3 :: l4 :: rest ->
    version_fits (ps_version s) v ->
    s1 = {| ps_version := v; ps_off := ps_off s; ps_buf := ps_buf s |} ->
    fragment v (ps_buf s) ->
    pdu_case s sk (Ok (s1, sk, LAgain))
| pc_query b q rest s1 :
    is_query b q -> ps_buf s = b ++ rest ->
    ps_version s = -1 \/ ps_version s = rq_version q ->
    s1 = {| ps_version := rq_version q; ps_off := ps_off s + Z.of_nat (length b); ps_buf := rest |} ->
    pdu_case s sk (Ok (s1, sk, LOk q))
| pc_reply v t m1 m2 l1 l2 l3 l4 rest code s1 sk1 :
    ps_buf s = v :: t :: m1 :: m2 :: l1 :: l2 :: l3 :: l4 :: rest ->
    offence (ps_version s) v t (be [l1; l2; l3; l4]) code ->
    (exists raw r, ps_buf s = raw ++ r /\ answered sk sk1 t code raw) ->
    ps_buf s1 = ps_buf s -> ps_off s1 = ps_off s ->
    (ps_version s1 = ps_version s \/ (ps_version s = -1 /\ ps_version s1 = v /\ (v = 0 \/ v = 1))) ->
    pdu_case s sk (Ok (s1, sk1, LFail))
| pc_error v m1 m2 l1 l2 l3 l4 rest s1 :
    ps_buf s = v :: 10 :: m1 :: m2 :: l1 :: l2 :: l3 :: l4 :: rest ->
    version_fits (ps_version s) v -> ps_version s1 = v ->
    0 <= ps_off s1 /\ ps_off s1 + Z.of_nat (length (ps_buf s1))
       = ps_off s + Z.of_nat (length (ps_buf s)) /\ Forall is_byte (ps_buf s1) ->
    pdu_case s sk (Ok (s1, sk, LFail))
| pc_ub : bad_header (ps_version s) (ps_buf s) -> pdu_case s sk UB.

Lemma read_hdr_ok s v t m1 m2 l1 l2 l3 l4 rest :
  ps_buf s = v :: t :: m1 :: m2 :: l1 :: l2 :: l3 :: l4 :: rest ->
  Forall is_byte (ps_buf s) ->
  read_hdr s = Ok {| h_version := v; h_type := t; h_m := be [m1; m2]; h_len := be [l1; l2; l3; l4] |}.
Proof.
  intros E F. rewrite E in F. rewrite Forall_forall in F.
  unfold read_hdr, read_uint16, rd. rewrite E. cbn [nth_error bind Nat.add].
  rewrite (read32_at s 4 l1 l2 l3 l4); try (rewrite E; reflexivity);
    try (apply F; cbn; tauto).
  cbn [bind]. rewrite lor_be2 by (apply F; cbn; tauto). reflexivity.
Qed.

Definition err_ret_ok (s s1 : pstream) : Prop :=
  ps_version s1 = ps_version s /\ 0 <= ps_off s1 /\
  ps_off s1 + Z.of_nat (length (ps_buf s1)) = ps_off s + Z.of_nat (length (ps_buf s)) /\
  Forall is_byte (ps_buf s1).

Lemma err_ret_refl s : pstream_ok s -> err_ret_ok s s.
Proof. intros (_ & A & B & C). unfold err_ret_ok. auto. Qed.

(** load_error_report: no access outside the received bytes unless the PDU is
    longer than what was received. *)
Lemma load_error_report_cases s h :
  pstream_ok s -> (8 <= length (ps_buf s))%nat -> 0 <= h_len h ->
  (load_error_report s h = UB /\ 16 <= h_len h <= 1024 /\
     Z.of_nat (length (ps_buf s)) < h_len h) \/
  (exists s1 msg, load_error_report s h = Ok (s1, LFail, msg) /\ err_ret_ok s s1) \/
  (load_error_report s h = Ok (s, LAgain, None) /\ Z.of_nat (length (ps_buf s)) < 8 + 4 + 123 + 4).
Proof.
  intros OK L Hl. unfold load_error_report, RTRPDU_MAX_LEN2, RTR_HDR_LEN, RTRPDU_MAX_LEN, RTRPDU_ROUTER_KEY_LEN.
  destruct (Z.ltb_spec 1024 (h_len h)); [right; left; exists s, None; split; [reflexivity|apply err_ret_refl; auto]|].
  destruct (Z.ltb_spec (h_len h) (8 + 8)); [right; left; exists s, None; split; [reflexivity|apply err_ret_refl; auto]|].
  cbv zeta.
  assert (G1 : get_length (advance s 8) = get_length s - 8)
    by (apply get_length_advance; unfold get_length; lia).
  rewrite G1.
  assert (GL : get_length s = Z.of_nat (length (ps_buf s))) by reflexivity.
  destruct (Z.ltb_spec (get_length s - 8) 4); [right; right; split; [reflexivity|lia]|].
  destruct OK as (V & O1 & O2 & F).
  destruct (read32_ge4 (advance s 8)) as (e & Ee & He & _).
  { apply Forall_skipn. exact F. }
  { cbn [advance ps_buf]. rewrite skipn_length. lia. }
  rewrite Ee. cbn [bind].
  destruct (Z.ltb_spec 123 e); [right; left; exists s, None; split; [reflexivity|apply err_ret_refl; unfold pstream_ok; auto]|].
  destruct (Z.ltb_spec (h_len h) (8 + 8 + e)); [right; left; exists s, None; split; [reflexivity|apply err_ret_refl; unfold pstream_ok; auto]|].
  assert (G2 : get_length (advance (advance s 8) 4) = get_length s - 12).
  { rewrite get_length_advance; rewrite G1; unfold get_length; lia. }
  rewrite G2.
  destruct (Z.ltb_spec (get_length s - 12) e); [right; right; split; [reflexivity|lia]|].
  assert (G3 : get_length (advance (advance (advance s 8) 4) e) = get_length s - 12 - e).
  { rewrite get_length_advance; rewrite G2; unfold get_length; lia. }
  rewrite G3.
  destruct (Z.ltb_spec (get_length s - 12 - e) 4); [right; right; split; [reflexivity|lia]|].
  set (s3 := advance (advance (advance s 8) 4) e) in *.
  assert (F3 : Forall is_byte (ps_buf s3)) by (repeat apply Forall_skipn; exact F).
  destruct (read32_ge4 s3) as (m & Em & Hm & _); [exact F3|unfold get_length in G3; lia|].
  rewrite Em. cbn [bind]. unfold rtrpdu_error_report_len, RTR_HDR_LEN.
  assert (W : h_len h = wrap32 (8 + 4 + e + 4 + m) -> m = h_len h - 16 - e)
    by (unfold wrap32; lia).
  destruct (Z.eqb_spec (h_len h) (wrap32 (8 + 4 + e + 4 + m))) as [Q|Q]; cbn [negb];
    [|right; left; exists s, None; split; [reflexivity|apply err_ret_refl; unfold pstream_ok; auto]].
  specialize (W Q). clear Q.
  set (s4 := advance s3 4).
  assert (G4 : get_length s4 = get_length s - 16 - e).
  { unfold s4. rewrite get_length_advance; rewrite G3; unfold get_length; lia. }
  assert (F4 : Forall is_byte (ps_buf s4)) by (apply Forall_skipn; exact F3).
  assert (O4 : ps_off s4 = ps_off s + 16 + e) by (unfold s4, s3, advance; cbn; lia).
  unfold read_string.
  assert (DONE : m <= get_length s4 -> err_ret_ok s (advance s4 m)).
  { intros Hle. unfold err_ret_ok. assert (LL : get_length (advance s4 m) = get_length s4 - m)
      by (apply get_length_advance; lia).
    unfold get_length in LL, G4 |- *. cbn [advance ps_off ps_version] in *.
    split; [reflexivity|]. split; [lia|]. split; [lia|].
    apply Forall_skipn. exact F4. }
  destruct (Z.eqb_spec m 0) as [-> |Nz].
  - cbn [bind]. right. left. eexists. exists None. split; [reflexivity|]. apply DONE. unfold get_length in *. lia.
  - unfold memcpy_bytes. unfold get_length in G4.
    destruct (Z.leb_spec m (Z.of_nat (length (ps_buf s4)))) as [Hle|Hgt]; cbn [bind].
    + right. left. eexists. eexists. split; [reflexivity|]. apply DONE. exact Hle.
    + left. split; [reflexivity|]. lia.
Qed.

Lemma u8_id x : is_byte x -> u8 x = x.
Proof. unfold is_byte, u8. lia. Qed.

Lemma ge8_destruct (l : list Z) : (8 <= length l)%nat ->
  exists a b c d e f g h t, l = a :: b :: c :: d :: e :: f :: g :: h :: t.
Proof.
  destruct l as [|a [|b [|c [|d [|e [|f [|g [|h t]]]]]]]]; cbn [length]; try lia. intros _.
  eauto 12.
Qed.

Lemma validate_version_cases s sk h v t rest raw :
  pstream_ok s -> Forall is_byte raw -> raw = v :: t :: rest -> h_version h = v -> is_byte v ->
  h_len h <= 1024 ->
  (version_fits (ps_version s) v /\
   validate_rtr_version s sk h raw =
     Ok ({| ps_version := v; ps_off := ps_off s; ps_buf := ps_buf s |}, sk, true)) \/
  (exists code sk', offence (ps_version s) v t (h_len h) code /\
     answered sk sk' t code raw /\ validate_rtr_version s sk h raw = Ok (s, sk', false)).
Proof.
  intros (V & _) F Er Eh Hv Hl.
  assert (L2 : (2 <= length raw)%nat) by (rewrite Er; cbn [length]; lia).
  assert (SV : s = {| ps_version := ps_version s; ps_off := ps_off s; ps_buf := ps_buf s |})
    by (destruct s; reflexivity).
  pose proof (fun version code msg Hver Hc Hm =>
    err_send_answered sk version code v t raw rest msg Hver Hc F L2 Hm (eq_sym Er)) as S.
  unfold validate_rtr_version. cbv zeta. rewrite Eh.
  unfold ERR_PDU_UNSUP_PROTO_VERSION, ERR_PDU_UNEXPECTED_PROTO_VERSION.
  assert (B1 : forall x, x = -1 \/ x = 0 \/ x = 1 -> is_byte (if x =? -1 then 1 else u8 x)).
  { intros x [-> |[-> | ->]]; vm_compute; split; congruence. }
  assert (B2 : forall x, x = 0 \/ x = 1 -> is_byte (u8 x)).
  { intros x [-> | ->]; vm_compute; split; congruence. }
  assert (M1 : Z.of_nat (length (cstr "The maximum supported RTR version is 1."%string)) < 4294967000)
    by (vm_compute; reflexivity).
  assert (M2 : Z.of_nat (length (cstr
     "The RTR version does not match the one we negotiated during the handshake."%string)) < 4294967000)
    by (vm_compute; reflexivity).
  assert (C4 : is_u16 4) by (unfold is_u16; lia). assert (C8 : is_u16 8) by (unfold is_u16; lia).
  destruct V as [V|[V|V]]; rewrite V in *; cbn [Z.eqb Pos.eqb].
  - destruct (Z.eqb_spec v 0) as [-> |N0]; cbn [orb].
    + left. split; [unfold version_fits; auto|]. reflexivity.
    + destruct (Z.eqb_spec v 1) as [-> |N1].
      * left. split; [unfold version_fits; auto|]. reflexivity.
      * right. destruct (S 1 4 _ (B1 (-1) ltac:(auto)) C4 M1) as (sk' & E & A).
        exists 4, sk'. rewrite E. split; [apply off_unsupported; auto|]. split; [exact A|reflexivity].
  - destruct (Z.eqb_spec v 0) as [-> |N0].
    + left. split; [unfold version_fits; auto|]. rewrite SV at 1. reflexivity.
    + destruct (Z.eqb_spec v 1) as [-> |N1]; right.
      * destruct (S (u8 0) 8 _ (B2 0 ltac:(auto)) C8 M2) as (sk' & E & A).
        exists 8, sk'. rewrite E. split; [apply off_unexpected; auto; lia|]. split; [exact A|reflexivity].
      * destruct (S (u8 0) 4 _ (B1 0 ltac:(auto)) C4 M1) as (sk' & E & A).
        exists 4, sk'. rewrite E. split; [apply off_unsupported; auto|]. split; [exact A|reflexivity].
  - destruct (Z.eqb_spec v 0) as [-> |N0].
    + right. destruct (S (u8 1) 8 _ (B2 1 ltac:(auto)) C8 M2) as (sk' & E & A).
      exists 8, sk'. rewrite E. split; [apply off_unexpected; auto; lia|]. split; [exact A|reflexivity].
    + destruct (Z.eqb_spec v 1) as [-> |N1].
      * left. split; [unfold version_fits; auto|]. rewrite SV at 1. reflexivity.
      * right. destruct (S (u8 1) 4 _ (B1 1 ltac:(auto)) C4 M1) as (sk' & E & A).
        exists 4, sk'. rewrite E. split; [apply off_unsupported; auto|]. split; [exact A|reflexivity].
Qed.

Lemma err_send_ub sk version code raw msg : (length raw < 2)%nat ->
  err_pdu_send sk version code (Some raw) msg = UB.
Proof.
  intros L. unfold err_pdu_send. rewrite (proj2 (nth_error_None raw 1)) by lia. reflexivity.
Qed.

Lemma firstn_two (a b : Z) (l : list Z) (n : nat) : (2 <= n)%nat ->
  exists rest, firstn n (a :: b :: l) = a :: b :: rest.
Proof. destruct n as [|[|n]]; try lia. intros _. cbn [firstn]. eauto. Qed.

Lemma parse_pdu_cases s sk : pstream_ok s -> pdu_case s sk (parse_pdu s sk).
Proof.
  intros OK. pose proof OK as (V & O1 & O2 & F). unfold parse_pdu. cbv zeta.
  assert (GL : get_length s = Z.of_nat (length (ps_buf s))) by reflexivity.
  unfold RTR_HDR_LEN.
  destruct (Z.ltb_spec (get_length s) 8) as [Hs|Hs]; [apply pc_short; lia|].
  destruct (ge8_destruct (ps_buf s) ltac:(lia)) as (v & t & m1 & m2 & l1 & l2 & l3 & l4 & rest & EB).
  rewrite (read_hdr_ok s _ _ _ _ _ _ _ _ _ EB F). cbn [bind h_len h_version h_type].
  assert (FB : forall x, In x (ps_buf s) -> is_byte x) by (apply Forall_forall; exact F).
  assert (Bv : is_byte v) by (apply FB; rewrite EB; cbn; tauto).
  assert (Bl : 0 <= be [l1; l2; l3; l4] < 4294967296).
  { apply be4_bound; apply FB; rewrite EB; cbn; tauto. }
  assert (B4 : forall x, In x [l1; l2; l3; l4] -> is_byte x).
  { intros x Hx. apply FB. rewrite EB. cbn in Hx |- *. tauto. }
  set (len := be [l1; l2; l3; l4]) in *.
  set (n := if len <=? get_length s then len else get_length s).
  assert (Hn : 0 <= n <= get_length s /\ (n = len \/ (get_length s < len /\ n = get_length s))).
  { unfold n. destruct (Z.leb_spec len (get_length s)); lia. }
  unfold memcpy_bytes. destruct (Z.leb_spec n (Z.of_nat (length (ps_buf s)))); [|lia]. cbn [bind].
  set (raw := firstn (Z.to_nat n) (ps_buf s)).
  assert (Lraw : length raw = Z.to_nat n) by (unfold raw; rewrite firstn_length; lia).
  assert (Fraw : Forall is_byte raw) by (apply Forall_firstn; exact F).
  assert (Sraw : ps_buf s = raw ++ skipn (Z.to_nat n) (ps_buf s)) by (symmetry; apply firstn_skipn).
  (* sending with a raw copy of fewer than two bytes *)
  assert (UBC : len < 2 -> pdu_case s sk UB).
  { intros Hl. apply pc_ub. exists v, t, m1, m2, l1, l2, l3, l4, rest. split; [exact EB|]. left. exact Hl. }
  assert (C3 : is_u16 3) by (unfold is_u16; lia). assert (C5 : is_u16 5) by (unfold is_u16; lia).
  assert (SEND : forall s1 version code msg, is_byte version -> is_u16 code ->
     Z.of_nat (length msg) < 4294967000 -> offence (ps_version s) v t len code ->
     ps_buf s1 = ps_buf s -> ps_off s1 = ps_off s ->
     (ps_version s1 = ps_version s \/ (ps_version s = -1 /\ ps_version s1 = v /\ (v = 0 \/ v = 1))) ->
     pdu_case s sk (bind (err_pdu_send sk version code (Some raw) msg)
        (fun '(sk', _) => Ok (s1, sk', LFail)))).
  { intros s1 version code msg Hver Hc Hm Hoff E1 E2 E3.
    destruct (Z.ltb_spec len 2) as [Hl|Hl].
    - rewrite err_send_ub by lia. cbn [bind]. apply UBC. exact Hl.
    - assert (L2 : (2 <= length raw)%nat) by lia.
      destruct (firstn_two v t (m1 :: m2 :: l1 :: l2 :: l3 :: l4 :: rest) (Z.to_nat n) ltac:(lia)) as (rr & Er).
      rewrite <- EB in Er. fold raw in Er.
      destruct (err_send_answered sk version code v t raw rr msg Hver Hc Fraw L2 Hm (eq_sym Er))
        as (sk' & Esk & Ans).
      rewrite Esk. cbn [bind].
      eapply pc_reply with (code := code); eauto. }
  unfold RTRPDU_MAX_LEN2. destruct (Z.ltb_spec 1024 len) as [Hbig|Hsmall].
  { apply SEND; auto.
    - destruct V as [-> |[-> | ->]]; cbn [Z.eqb Pos.eqb]; [rewrite u8_id; auto| |];
        vm_compute; split; congruence.
    - vm_compute; reflexivity.
    - apply off_large. exact Hbig. }
  destruct (Z.ltb_spec len 2) as [Hl|Hl].
  { (* raw has fewer than two bytes *)
    assert (U : forall version code msg (k : socket * Z -> res (pstream * socket * bool)),
       bind (err_pdu_send sk version code (Some raw) msg) k = UB)
      by (intros; rewrite err_send_ub by lia; reflexivity).
    assert (VC : validate_rtr_version s sk
       {| h_version := v; h_type := t; h_m := be [m1; m2]; h_len := len |} raw = UB \/
       (version_fits (ps_version s) v /\ validate_rtr_version s sk
       {| h_version := v; h_type := t; h_m := be [m1; m2]; h_len := len |} raw =
         Ok ({| ps_version := v; ps_off := ps_off s; ps_buf := ps_buf s |}, sk, true))).
    { unfold validate_rtr_version, version_fits. cbv zeta. cbn [h_version]. rewrite !U.
      assert (SV : s = {| ps_version := ps_version s; ps_off := ps_off s; ps_buf := ps_buf s |})
        by (destruct s; reflexivity).
      destruct V as [V|[V|V]]; rewrite V in SV |- *; cbn [Z.eqb Pos.eqb];
        destruct (Z.eqb_spec v 0) as [Q0|N0]; cbn [orb]; try (left; reflexivity);
        try (right; split; [auto|]; rewrite Q0; try reflexivity; rewrite SV at 1; reflexivity);
        destruct (Z.eqb_spec v 1) as [Q1|N1]; try (left; reflexivity); right; (split; [auto|]);
        rewrite Q1; try reflexivity; rewrite SV at 1; reflexivity. }
    destruct VC as [-> |[VF ->]]; cbn [bind]; [apply UBC; exact Hl|]. cbn [negb].
    set (s1 := {| ps_version := v; ps_off := ps_off s; ps_buf := ps_buf s |}).
    unfold PDU_TYPE_SERIAL_QUERY, PDU_TYPE_RESET_QUERY, PDU_TYPE_ERROR_REPORT.
    destruct (Z.eqb_spec t 1) as [-> |T1].
    { unfold load_serial_query, RTRPDU_SERIAL_QUERY_LEN. cbn [h_len].
      destruct (Z.eqb_spec len 12); [lia|]. cbn [negb]. rewrite err_send_ub by lia. apply UBC; exact Hl. }
    destruct (Z.eqb_spec t 2) as [-> |T2].
    { unfold load_reset_query, RTRPDU_RESET_QUERY_LEN. cbn [h_len].
      destruct (Z.eqb_spec len 8); [lia|]. cbn [negb]. rewrite err_send_ub by lia. apply UBC; exact Hl. }
    destruct (Z.eqb_spec t 10) as [-> |T10].
    { unfold load_error_report, RTRPDU_MAX_LEN2, RTR_HDR_LEN. cbn [h_len].
      destruct (Z.ltb_spec 1024 len); [lia|]. destruct (Z.ltb_spec len (8 + 8)); [|lia]. cbn [bind].
      eapply pc_error; eauto. }
    rewrite err_send_ub by lia. apply UBC; exact Hl. }
  destruct (firstn_two v t (m1 :: m2 :: l1 :: l2 :: l3 :: l4 :: rest) (Z.to_nat n) ltac:(lia)) as (rr & Er).
  rewrite <- EB in Er. fold raw in Er.
  destruct (validate_version_cases s sk
     {| h_version := v; h_type := t; h_m := be [m1; m2]; h_len := len |} v t rr raw
     OK Fraw Er eq_refl Bv Hsmall) as [[VF ->]|(code & sk' & Off & Ans & ->)]; cbn [bind negb].
  2:{ eapply pc_reply with (code := code); eauto. }
  set (s1 := {| ps_version := v; ps_off := ps_off s; ps_buf := ps_buf s |}).
  assert (Bs1 : is_byte (u8 (ps_version s1))).
  { cbn [s1 ps_version]. rewrite u8_id; exact Bv. }
  assert (VS1 : ps_version s1 = ps_version s \/ (ps_version s = -1 /\ ps_version s1 = v /\ (v = 0 \/ v = 1))).
  { cbn [s1 ps_version]. destruct VF as [Hv01 [Hm | ->]]; auto. }
  unfold PDU_TYPE_SERIAL_QUERY, PDU_TYPE_RESET_QUERY, PDU_TYPE_ERROR_REPORT.
  assert (GL1 : get_length s1 = get_length s) by reflexivity.
  assert (LEN : len = ((l1 * 256 + l2) * 256 + l3) * 256 + l4).
  { unfold len, be. cbn [fold_left]. lia. }
  pose proof (B4 l1 ltac:(cbn; tauto)) as Bl1. pose proof (B4 l2 ltac:(cbn; tauto)) as Bl2.
  pose proof (B4 l3 ltac:(cbn; tauto)) as Bl3. pose proof (B4 l4 ltac:(cbn; tauto)) as Bl4.
  unfold is_byte in Bl1, Bl2, Bl3, Bl4.
  destruct (Z.eqb_spec t 1) as [-> |T1].
  { unfold load_serial_query, RTRPDU_SERIAL_QUERY_LEN, ERR_PDU_INVALID_REQUEST. cbn [h_len].
    destruct (Z.eqb_spec len 12) as [L12|L12]; cbn [negb].
    2:{ apply SEND; auto; [vm_compute; reflexivity|apply off_length; auto]. }
    rewrite GL1. destruct (Z.ltb_spec (get_length s) 12).
    { eapply pc_again; eauto. right. exists v, 1, m1, m2, l1, l2, l3, l4, rest.
      split; [exact EB|]. split; [apply VF|]. split; [reflexivity|]. left. split; [reflexivity|].
      fold len. split; [exact L12|]. lia. }
    assert (l1 = 0 /\ l2 = 0 /\ l3 = 0 /\ l4 = 12) as (-> & -> & -> & ->) by lia.
    destruct (ge4_destruct rest) as (a & b & c & d & rest' & ER).
    { rewrite GL, EB in H0. cbn [length] in H0. lia. }
    assert (Eadv : ps_buf (advance s1 RTR_HDR_LEN) = rest) by (cbn [s1 advance ps_buf]; rewrite EB; reflexivity).
    rewrite (read32_at (advance s1 RTR_HDR_LEN) 0 a b c d); try (rewrite Eadv, ER; reflexivity);
      try (apply FB; rewrite EB, ER; cbn; tauto).
    cbn [bind].
    assert (Hraw : raw = [v; 1; m1; m2; 0; 0; 0; 12; a; b; c; d]).
    { unfold raw. destruct Hn as (_ & [-> |[]]); [|lia]. rewrite L12, EB, ER. reflexivity. }
    eapply (pc_query s sk raw _ rest').
    - rewrite Hraw. eapply q_serial; [apply VF|reflexivity].
    - rewrite EB, ER, Hraw. reflexivity.
    - apply VF.
    - unfold advance, s1. cbn [ps_version ps_off ps_buf rq_version h_version].
      rewrite EB, ER, Lraw. f_equal. unfold RTR_HDR_LEN. lia. }
  destruct (Z.eqb_spec t 2) as [-> |T2].
  { unfold load_reset_query, RTRPDU_RESET_QUERY_LEN, ERR_PDU_INVALID_REQUEST. cbn [h_len].
    destruct (Z.eqb_spec len 8) as [L8|L8]; cbn [negb].
    2:{ apply SEND; auto; [vm_compute; reflexivity|apply off_length; auto]. }
    rewrite GL1. destruct (Z.ltb_spec (get_length s) 8); [lia|].
    assert (l1 = 0 /\ l2 = 0 /\ l3 = 0 /\ l4 = 8) as (-> & -> & -> & ->) by lia.
    assert (Hraw : raw = [v; 2; m1; m2; 0; 0; 0; 8]).
    { unfold raw. destruct Hn as (_ & [-> |[]]); [|lia]. rewrite L8, EB. reflexivity. }
    eapply (pc_query s sk raw _ rest).
    - rewrite Hraw. eapply q_reset; [apply VF|reflexivity].
    - rewrite EB, Hraw. reflexivity.
    - apply VF.
    - unfold advance, s1. cbn [ps_version ps_off ps_buf rq_version h_version].
      rewrite EB, Lraw. f_equal. unfold RTR_HDR_LEN. lia. }
  destruct (Z.eqb_spec t 10) as [-> |T10].
  { assert (OK1 : pstream_ok s1).
    { unfold pstream_ok. cbn [s1 ps_version ps_off ps_buf]. destruct VF as [[-> | ->] _]; auto. }
    destruct (load_error_report_cases s1
        {| h_version := v; h_type := 10; h_m := be [m1; m2]; h_len := len |} OK1)
      as [(-> & Hr & Hlt)|[(s2 & msg & -> & ER)|(-> & Hlt)]]; cbn [bind].
    - cbn [s1 ps_buf]. lia.
    - cbn [h_len]. lia.
    - apply pc_ub. exists v, 10, m1, m2, l1, l2, l3, l4, rest. split; [exact EB|].
      right. cbn [h_len] in Hr, Hlt. repeat (split; [auto|]); auto.
    - destruct ER as (E1 & E2 & E3 & E4). eapply pc_error; eauto.
    - eapply pc_again; eauto. cbn [s1 ps_buf] in Hlt. right.
      exists v, 10, m1, m2, l1, l2, l3, l4, rest.
      split; [exact EB|]. split; [apply VF|]. split; [reflexivity|]. right. split; [reflexivity|].
      lia. }
  apply SEND; auto; [vm_compute; reflexivity|apply off_type; auto].
Qed.

(** ** The parsing loop *)
Lemma is_query_len b q : is_query b q -> length b = 8%nat \/ length b = 12%nat.
Proof. intros H. inversion H; subst; cbn [length]; auto. Qed.
Lemma is_query_version b q : is_query b q -> rq_version q = 0 \/ rq_version q = 1.
Proof. intros H. inversion H; subst; cbn [rq_version]; auto. Qed.

Lemma fragment_len ver l : fragment ver l -> (length l < 1024)%nat.
Proof.
  intros [H|(v & t & m1 & m2 & l1 & l2 & l3 & l4 & rest & _ & _ & _ & [(_ & _ & H)|(_ & H)])]; lia.
Qed.

(** Why the receiver gave up on the bytes [suf] at version [ver]. *)
Inductive gave_up (ver : Z) (sk sk' : socket) : list Z -> Prop :=
| gu_offence v t m1 m2 l1 l2 l3 l4 rest code raw r suf :
    suf = v :: t :: m1 :: m2 :: l1 :: l2 :: l3 :: l4 :: rest ->
    offence ver v t (be [l1; l2; l3; l4]) code ->
    suf = raw ++ r -> answered sk sk' t code raw -> gave_up ver sk sk' suf
| gu_report v m1 m2 l1 l2 l3 l4 rest suf :
    suf = v :: 10 :: m1 :: m2 :: l1 :: l2 :: l3 :: l4 :: rest ->
    version_fits ver v -> sk' = sk -> gave_up ver sk sk' suf.

Inductive loop_case (s : pstream) (sk : socket) (req : option request) :
  res (pstream * socket * (option request + unit)) -> Prop :=
| lc_ub bs qs ver suf :
    parsed (ps_version s) bs qs ver -> ps_buf s = concat bs ++ suf -> bad_header ver suf ->
    loop_case s sk req UB
| lc_ok bs qs ver s' :
    parsed (ps_version s) bs qs ver -> ps_buf s = concat bs ++ ps_buf s' ->
    fragment (ps_version s') (ps_buf s') -> ps_version s' = ver \/ (version_fits ver (ps_version s')) ->
    pstream_ok s' -> loop_case s sk req (Ok (s', sk, inl (last_req req qs)))
| lc_fail bs qs ver suf s' sk' :
    parsed (ps_version s) bs qs ver -> ps_buf s = concat bs ++ suf ->
    gave_up ver sk sk' suf -> pstream_ok s' ->
    loop_case s sk req (Ok (s', sk', inr tt)).

Lemma parse_loop_cases fuel : forall s sk req, pstream_ok s ->
  (length (ps_buf s) <= fuel)%nat -> loop_case s sk req (parse_loop fuel s sk req).
Proof.
  induction fuel as [|fuel IH]; intros s sk req OK Hf.
  { destruct (ps_buf s) as [|a l] eqn:E; [|cbn [length] in Hf; lia]. cbn [parse_loop]. rewrite E.
    apply (lc_ok s sk req [] [] (ps_version s) s); auto; [constructor|].
    left. rewrite E. cbn [length]. lia. }
  cbn [parse_loop]. destruct (ps_buf s) as [|a l] eqn:E.
  { apply (lc_ok s sk req [] [] (ps_version s) s); auto; [constructor|].
    left. rewrite E. cbn [length]. lia. }
  rewrite <- E in *. pose proof OK as (V & O1 & O2 & F). clear E a l.
  destruct (parse_pdu_cases s sk OK)
    as [Hs|v t m1 m2 l1 l2 l3 l4 rest s1 EB VF Es1 Fr|b q rest s1 Q EB Hv Es1
       |v t m1 m2 l1 l2 l3 l4 rest code s1 sk1 EB Off (raw & r & Er & Ans) Eb Eo Ev
       |v m1 m2 l1 l2 l3 l4 rest s1 EB VF Ev (A1 & A2 & A3)|BH]; cbn [bind].
  - apply (lc_ok s sk req [] [] (ps_version s) s); auto; [constructor|]. left. exact Hs.
  - apply (lc_ok s sk req [] [] (ps_version s) s1); subst s1; cbn [ps_version ps_buf]; auto;
      [constructor|].
    unfold pstream_ok. cbn [ps_version ps_off ps_buf]. destruct VF as [[-> | ->] _]; auto.
  - pose proof (is_query_len b q Q) as Lb. pose proof (is_query_version b q Q) as Vq.
    assert (LB : length (ps_buf s) = (length b + length rest)%nat) by (rewrite EB, app_length; lia).
    assert (OK1 : pstream_ok s1).
    { subst s1. unfold pstream_ok. cbn [ps_version ps_off ps_buf].
      split; [lia|]. split; [lia|]. split; [lia|].
      rewrite EB in F. apply Forall_app in F. apply F. }
    assert (B1 : ps_buf s1 = rest) by (subst s1; reflexivity).
    assert (V1 : ps_version s1 = rq_version q) by (subst s1; reflexivity).
    destruct (IH s1 sk (Some q) OK1) as [bs qs ver suf P EQ BH|bs qs ver s' P EQ Fr V' OK'
       |bs qs ver suf s' sk' P EQ G OK'].
    + rewrite B1. lia.
    + rewrite V1 in P. rewrite B1 in EQ.
      apply (lc_ub s sk req (b :: bs) (q :: qs) ver suf); auto.
      * constructor; auto. split; auto.
      * cbn [concat]. rewrite EB, EQ, app_assoc. reflexivity.
    + rewrite V1 in P. rewrite B1 in EQ.
      apply (lc_ok s sk req (b :: bs) (q :: qs) ver s'); auto.
      * constructor; auto. split; auto.
      * cbn [concat]. rewrite EB, EQ, app_assoc. reflexivity.
    + rewrite V1 in P. rewrite B1 in EQ.
      apply (lc_fail s sk req (b :: bs) (q :: qs) ver suf); auto.
      * constructor; auto. split; auto.
      * cbn [concat]. rewrite EB, EQ, app_assoc. reflexivity.
  - apply (lc_fail s sk req [] [] (ps_version s) (ps_buf s) s1 sk1); auto; [constructor| |].
    + eapply gu_offence; eauto.
    + unfold pstream_ok. rewrite Eb, Eo. split; [|auto].
      destruct Ev as [-> |(_ & -> & [-> | ->])]; auto.
  - apply (lc_fail s sk req [] [] (ps_version s) (ps_buf s) s1 sk); auto; [constructor| |].
    + eapply gu_report; eauto.
    + unfold pstream_ok. split; [|split; [auto|split; [lia|auto]]].
      rewrite Ev. destruct VF as [[-> | ->] _]; auto.
  - apply (lc_ub s sk req [] [] (ps_version s) (ps_buf s)); auto. constructor.
Qed.

(** ** Reading *)
Lemma update_loop_spec fuel : forall buf evs buf' st evs',
  (1024 - length buf <= fuel)%nat -> (length buf <= 1024)%nat ->
  update_loop fuel buf evs = (buf', st, evs') ->
  buf ++ data evs = buf' ++ data evs' /\ (length buf' <= 1024)%nat /\
  (st = BS_KEEP_READING -> length buf' = 1024%nat) /\
  (st = BS_EOS \/ st = BS_ERROR -> Exists terminal evs) /\
  (forall e, In e evs' -> terminal e -> In e evs) /\
  (quiet evs -> (st = BS_KEEP_READING /\ quiet evs') \/ (st = BS_WOULD_BLOCK /\ data evs' = [])).
Proof.
  induction fuel as [|fuel IH]; intros buf evs buf' st evs' Hf Hl E.
  { cbn [update_loop] in E. injection E as <- <- <-. repeat split; auto; try lia.
    intros [|]; congruence. }
  cbn [update_loop] in E. cbv zeta in E.
  destruct (1024 - length buf)%nat as [|room] eqn:R.
  { injection E as <- <- <-. repeat split; auto; try lia. intros [|]; congruence. }
  destruct evs as [|[bs| | |] evs].
  - injection E as <- <- <-. repeat split; auto; try congruence. intros [|]; congruence.
  - destruct bs as [|x bs].
    + injection E as <- <- <-. split; [reflexivity|]. split; [lia|]. split; [congruence|].
      split; [intros _; left; unfold terminal; auto|]. split; [intros; right; auto|].
      intros Q. inversion Q. congruence.
    + set (all := x :: bs) in *.
      set (rest := skipn (S room) all) in *.
      set (evs1 := match rest with [] => evs | _ :: _ => RData rest :: evs end) in *.
      assert (Dall : data (RData all :: evs) = all ++ data evs) by reflexivity.
      assert (D1 : rest ++ data evs = data evs1).
      { unfold evs1. destruct rest; reflexivity. }
      assert (Lfirst : (1 <= length (firstn (S room) all) <= S room)%nat).
      { rewrite firstn_length. unfold all. cbn [length]. lia. }
      apply IH in E; [|rewrite app_length; lia|rewrite app_length; lia].
      destruct E as (E1 & E2 & E3 & E4 & E5 & E6).
      split; [|split; [exact E2|split; [exact E3|split; [|split]]]].
      * rewrite <- E1, Dall, <- D1, <- app_assoc. f_equal. rewrite app_assoc. f_equal.
        symmetry. apply firstn_skipn.
      * intros H. specialize (E4 H). unfold evs1 in E4. destruct rest as [|y l].
        -- right. exact E4.
        -- inversion E4; subst; [|right; assumption].
           exfalso. unfold terminal in *. intuition congruence.
      * intros e He Ht. specialize (E5 e He Ht). unfold evs1 in E5. destruct rest as [|y l].
        -- right. exact E5.
        -- destruct E5 as [<- |E5]; [|right; exact E5].
           exfalso. unfold terminal in *. intuition congruence.
      * intros Q. apply E6. unfold evs1. inversion Q; subst. destruct rest; [auto|].
        constructor; [congruence|auto].
  - injection E as <- <- <-. split; [reflexivity|]. split; [lia|]. split; [congruence|].
    split; [intros [|]; congruence|]. split; [intros; right; auto|].
    intros Q. inversion Q. auto.
  - injection E as <- <- <-. split; [reflexivity|]. split; [lia|]. split; [congruence|].
    split; [intros _; left; unfold terminal; auto|]. split; [intros; right; auto|].
    intros Q. inversion Q.
  - injection E as <- <- <-. split; [reflexivity|]. split; [lia|]. split; [congruence|].
    split; [intros _; left; unfold terminal; auto|]. split; [intros; right; auto|].
    intros Q. inversion Q.
Qed.

Lemma pending_data evs : pending evs = length (data evs).
Proof. reflexivity. Qed.

(** ** The whole function *)
Inductive next_case (s : pstream) (sk : socket) (evs : list read_ev) (req : option request) :
  res next_out -> Prop :=
| nc_ub bs qs ver suf more :
    parsed (ps_version s) bs qs ver -> ps_buf s ++ data evs = concat bs ++ suf ++ more ->
    bad_header ver suf -> (length suf <= 1024)%nat -> next_case s sk evs req UB
| nc_deliver bs qs ver s' evs' r :
    parsed (ps_version s) bs qs ver ->
    ps_buf s ++ data evs = concat bs ++ ps_buf s' ++ data evs' ->
    fragment (ps_version s') (ps_buf s') -> ps_version s' = ver \/ version_fits ver (ps_version s') ->
    pstream_ok s' ->
    (r = last_req req qs \/
     (Exists terminal evs /\ exists q, last_req req qs = Some q /\ r = Some (set_eos q))) ->
    (quiet evs -> r = last_req req qs /\ data evs' = []) ->
    next_case s sk evs req
      (Ok {| no_stream := s'; no_socket := sk; no_evs := evs'; no_result := Some r |})
| nc_close bs qs ver suf more s' sk' evs' :
    parsed (ps_version s) bs qs ver -> ps_buf s ++ data evs = concat bs ++ suf ++ more ->
    gave_up ver sk sk' suf -> pstream_ok s' ->
    next_case s sk evs req
      (Ok {| no_stream := s'; no_socket := sk'; no_evs := evs'; no_result := None |})
| nc_hangup s' evs' :
    Exists terminal evs -> pstream_ok s' ->
    next_case s sk evs req
      (Ok {| no_stream := s'; no_socket := sk; no_evs := evs'; no_result := None |}).

Lemma parsed_app ver bs qs ver1 bs2 qs2 ver2 :
  parsed ver bs qs ver1 -> parsed ver1 bs2 qs2 ver2 ->
  parsed ver (bs ++ bs2) (qs ++ qs2) ver2.
Proof. induction 1; cbn [app]; intros; auto. constructor; auto. Qed.
Lemma last_req_app qs1 qs2 : forall req, last_req req (qs1 ++ qs2) = last_req (last_req req qs1) qs2.
Proof. induction qs1; intros; cbn [app last_req]; auto. Qed.
Lemma parsed_nonempty_version ver bs qs ver' : parsed ver bs qs ver' ->
  ver' = -1 -> bs = [].
Proof.
  induction 1 as [|ver b q bs qs ver' Q VF P IH]; intros E; [reflexivity|]. exfalso.
  specialize (IH E). subst bs. inversion P; subst. destruct VF as [[|] _]; lia.
Qed.

Lemma rounds_cases fuel : forall s sk evs req,
  pstream_ok s -> evs_ok evs -> (length (ps_buf s) + pending evs < fuel)%nat ->
  next_case s sk evs req (pdustream_rounds fuel s sk evs req).
Proof.
  induction fuel as [|fuel IH]; intros s sk evs req OK EO Hf; [lia|].
  cbn [pdustream_rounds]. unfold update_buffer.
  destruct (update_loop (1024 - length (ps_buf s)) (ps_buf s) evs) as [[buf' st] evs'] eqn:U.
  pose proof OK as (V & O1 & O2 & F).
  apply update_loop_spec in U; [|lia|lia].
  destruct U as (EQ & LE & KR & TM & TS & QU). cbv zeta.
  set (s1 := {| ps_version := ps_version s; ps_off := 0; ps_buf := buf' |}).
  assert (FA : Forall is_byte (buf' ++ data evs')).
  { rewrite <- EQ. apply Forall_app. split; auto. }
  apply Forall_app in FA. destruct FA as [FB FE].
  assert (OK1 : pstream_ok s1).
  { unfold pstream_ok. cbn [s1 ps_version ps_off ps_buf]. split; [auto|]. split; [lia|].
    split; [lia|auto]. }
  destruct (parse_loop_cases (length (ps_buf s1)) s1 sk req OK1 (le_n _))
    as [bs qs ver suf P Eb BH|bs qs ver s' P Eb Fr V' OK'|bs qs ver suf s' sk' P Eb G OK'];
    cbn [s1 ps_version ps_buf] in P, Eb; cbn [bind].
  - assert (C : next_case s sk evs req UB).
    { apply (nc_ub s sk evs req bs qs ver suf (data evs')); auto.
      - rewrite EQ, Eb, <- app_assoc. reflexivity.
      - rewrite Eb, app_length in LE. lia. }
    destruct st; auto. apply nc_hangup; auto.
  - assert (Q1 : ps_buf s ++ data evs = concat bs ++ ps_buf s' ++ data evs')
      by (rewrite EQ, Eb, <- app_assoc; reflexivity).
    destruct st.
    + eapply (nc_deliver s sk evs req bs qs ver); eauto.
      intros Q. split; [reflexivity|]. destruct (QU Q) as [[]|[]]; [congruence|auto].
    + destruct (last_req req qs) as [q|] eqn:LR; [|apply nc_hangup; auto].
      eapply (nc_deliver s sk evs req bs qs ver); eauto.
      * right. split; [auto|]. exists q. auto.
      * intros Q. destruct (QU Q) as [[]|[]]; congruence.
    + (* another round *)
      specialize (KR eq_refl).
      assert (Ls' : (length (ps_buf s') < 1024)%nat) by (eapply fragment_len; eauto).
      assert (PE : (length (ps_buf s') + pending evs' < fuel)%nat).
      { rewrite pending_data in *.
        assert (LQ : length (ps_buf s ++ data evs) = length (buf' ++ data evs')) by (rewrite EQ; reflexivity).
        rewrite !app_length in LQ. lia. }
      assert (EV : ps_version s' = ver).
      { destruct V' as [|[_ [Em|]]]; auto. exfalso.
        destruct bs as [|b bs].
        - cbn [concat app] in Eb. rewrite Eb in KR. lia.
        - apply (parsed_nonempty_version _ _ _ _ P) in Em; auto. congruence. }
      destruct (IH s' sk evs' (last_req req qs) OK' FE PE)
        as [bs2 qs2 ver2 suf more P2 Q2 BH LS
           |bs2 qs2 ver2 s2 evs2 r P2 Q2 Fr2 V2 OK2 R2 QQ
           |bs2 qs2 ver2 suf more s2 sk2 evs2 P2 Q2 G2 OK2|s2 evs2 T2 OK2];
        try rewrite EV in P2; try pose proof (parsed_app _ _ _ _ _ _ _ P P2) as PX.
      * eapply nc_ub; eauto. rewrite Q1, Q2, concat_app, <- app_assoc. reflexivity.
      * assert (TE : Exists terminal evs' -> Exists terminal evs).
        { rewrite !Exists_exists. intros (e & I & T). exists e. auto. }
        assert (QQ' : quiet evs -> quiet evs').
        { intros Q. destruct (QU Q) as [[_ ?]|[? _]]; [auto|congruence]. }
        eapply nc_deliver; eauto.
        -- rewrite Q1, Q2, concat_app, <- app_assoc. reflexivity.
        -- rewrite last_req_app. destruct R2 as [R2|[T2 R2]]; auto.
        -- rewrite last_req_app. auto.
      * eapply nc_close; eauto. rewrite Q1, Q2, concat_app, <- app_assoc. reflexivity.
      * apply nc_hangup; auto. rewrite Exists_exists in T2 |- *. destruct T2 as (e & I & T). eauto.
    + apply nc_hangup; auto.
  - destruct st; try (eapply (nc_close s sk evs req bs qs ver suf (data evs')); eauto;
      rewrite EQ, Eb, <- app_assoc; reflexivity).
    apply nc_hangup; auto.
Qed.

(** ** Uniqueness of the decomposition into queries *)
Lemma query_prefix_free b q b' q' x y : is_query b q -> is_query b' q' -> b ++ x = b' ++ y ->
  b = b' /\ q = q' /\ x = y.
Proof.
  intros H H' E. inversion H; inversion H'; subst; cbn [app] in E; injection E; intros; subst;
    try discriminate; auto.
Qed.

Lemma parsed_decomp ver bs qs v1 : parsed ver bs qs v1 -> forall bs0 qs0 v2 x y,
  parsed ver bs0 qs0 v2 -> concat bs ++ x = concat bs0 ++ y ->
  exists bs1 qs1,
    (bs0 = bs ++ bs1 /\ qs0 = qs ++ qs1 /\ parsed v1 bs1 qs1 v2 /\ x = concat bs1 ++ y) \/
    (bs = bs0 ++ bs1 /\ qs = qs0 ++ qs1 /\ parsed v2 bs1 qs1 v1 /\ y = concat bs1 ++ x).
Proof.
  induction 1 as [ver|ver b q bs qs v1 Q VF P IH]; intros bs0 qs0 v2 x y P0 E.
  - exists bs0, qs0. left. auto.
  - inversion P0 as [|? b0 q0 bs0' qs0' ? Q0 VF0 P0']; subst.
    + exists (b :: bs), (q :: qs). right. repeat split; auto. constructor; auto.
    + cbn [concat] in E. rewrite <- !app_assoc in E.
      destruct (query_prefix_free _ _ _ _ _ _ Q Q0 E) as (<- & <- & E').
      destruct (IH _ _ _ _ _ P0' E') as (bs1 & qs1 & [(-> & -> & P1 & ->)|(-> & -> & P1 & ->)]);
        exists bs1, qs1; [left|right]; auto.
Qed.

Lemma query_head b q v t m1 m2 l1 l2 l3 l4 rest x y :
  is_query b q -> (v :: t :: m1 :: m2 :: l1 :: l2 :: l3 :: l4 :: rest) ++ x = b ++ y ->
  v = rq_version q /\ ((t = 1 /\ be [l1; l2; l3; l4] = 12) \/ (t = 2 /\ be [l1; l2; l3; l4] = 8)) /\
  (t = 1 -> length b = 12%nat).
Proof.
  intros H E. inversion H; subst; cbn [app] in E; injection E; intros; subst;
    cbn [rq_version]; (split; [reflexivity|]); (split; [|intros; try discriminate; reflexivity]);
    [left|right]; split; reflexivity.
Qed.

Lemma fragment_no_query ver l b q x : fragment ver l -> is_query b q -> l = b ++ x -> False.
Proof.
  intros Fr Q E. pose proof (is_query_len _ _ Q) as L.
  destruct Fr as [Hs|(v & t & m1 & m2 & l1 & l2 & l3 & l4 & rest & El & _ & _ & C)].
  - rewrite E, app_length in Hs. lia.
  - pose proof E as E'. rewrite El in E'. rewrite <- (app_nil_r (v :: _)) in E'.
    destruct (query_head _ _ _ _ _ _ _ _ _ _ _ _ _ Q E') as (_ & D & L12).
    rewrite E, app_length in C. destruct C as [(T&_&?)|(?&?)]; [rewrite (L12 T) in *; lia|lia].
Qed.

Lemma quiet_no_terminal evs : quiet evs -> ~ Exists terminal evs.
Proof.
  induction 1; intros E; inversion E; subst; auto; unfold terminal in *;
    try (intuition congruence).
  inversion H0.
Qed.

(** What follows the parsed queries in a stream of queries. *)
Lemma follows ver bs qs v1 bs0 qs0 v2 suf tail :
  parsed ver bs qs v1 -> parsed ver bs0 qs0 v2 -> query_prefix v2 tail ->
  concat bs ++ suf = concat bs0 ++ tail ->
  (bs = bs0 /\ qs = qs0 /\ suf = tail /\ v1 = v2) \/
  (exists b q y, is_query b q /\ version_fits v1 (rq_version q) /\ suf = b ++ y).
Proof.
  intros P P0 (b & q & x & Q & VF & Eb & Nx) E.
  destruct (parsed_decomp _ _ _ _ P _ _ _ _ _ P0 E)
    as (bs1 & qs1 & [(-> & -> & P1 & ->)|(-> & -> & P1 & ->)]).
  - inversion P1 as [|? b1 q1 bs2 qs2 ? Q1 VF1 P2]; subst.
    + left. rewrite !app_nil_r. auto.
    + right. exists b1, q1, (concat bs2 ++ tail). split; [auto|]. split; [auto|].
      cbn [concat]. rewrite <- app_assoc. reflexivity.
  - inversion P1 as [|? b1 q1 bs2 qs2 ? Q1 VF1 P2]; subst.
    + left. rewrite !app_nil_r. auto.
    + exfalso. cbn [concat] in Q.
      destruct (query_prefix_free b1 q1 _ _ ((concat bs2 ++ suf) ++ x) [] Q1 Q) as (_ & _ & C).
      * rewrite <- !app_assoc. rewrite !app_nil_r. reflexivity.
      * apply app_eq_nil in C. tauto.
Qed.

Lemma follows_head ver bs qs v1 bs0 qs0 v2 suf more tail v t m1 m2 l1 l2 l3 l4 rest :
  parsed ver bs qs v1 -> parsed ver bs0 qs0 v2 -> query_prefix v2 tail ->
  concat bs ++ suf ++ more = concat bs0 ++ tail ->
  suf = v :: t :: m1 :: m2 :: l1 :: l2 :: l3 :: l4 :: rest ->
  version_fits v1 v /\ ((t = 1 /\ be [l1; l2; l3; l4] = 12) \/ (t = 2 /\ be [l1; l2; l3; l4] = 8)).
Proof.
  intros P P0 QP E Es.
  assert (G : exists b q x y, is_query b q /\ version_fits v1 (rq_version q) /\ suf ++ x = b ++ y).
  { destruct (follows _ _ _ _ _ _ _ _ _ P P0 QP E) as [(_ & _ & Et & ->)|(b & q & y & Q & VF & E')].
    - destruct QP as (b & q & x & Q & VF & Eb & Nx). exists b, q, (more ++ x), [].
      split; [auto|]. split; [auto|]. rewrite Eb, <- Et, app_nil_r, app_assoc. reflexivity.
    - exists b, q, more, y. auto. }
  destruct G as (b & q & x & y & Q & VF & E'). rewrite Es in E'.
  destruct (query_head _ _ _ _ _ _ _ _ _ _ _ _ _ Q E') as (-> & D & _). auto.
Qed.

Lemma delivered_as_sent s sk evs bs qs ver tail :
  pstream_ok s -> evs_ok evs -> quiet evs ->
  parsed (ps_version s) bs qs ver -> query_prefix ver tail ->
  ps_buf s ++ data evs = concat bs ++ tail ->
  exists s' evs', pdustream_next s sk evs =
    Ok {| no_stream := s'; no_socket := sk; no_evs := evs'; no_result := Some (last_req None qs) |} /\
    ps_buf s' = tail /\ data evs' = [] /\ pstream_ok s' /\
    (ps_version s' = ver \/ version_fits ver (ps_version s')).
Proof.
  intros OK EO Q P QP E. unfold pdustream_next.
  destruct (rounds_cases (S (S (length (ps_buf s) + pending evs))) s sk evs None OK EO)
    as [bs' qs' ver' suf more P' E' BH LS|bs' qs' ver' s' evs' r P' E' Fr V' OK' R QQ
       |bs' qs' ver' suf more s' sk' evs' P' E' G OK'|s' evs' T OK'].
  - lia.
  - exfalso. rewrite E in E'. symmetry in E'.
    destruct BH as (v & t & m1 & m2 & l1 & l2 & l3 & l4 & rest & Es & D).
    destruct (follows_head _ _ _ _ _ _ _ _ _ _ _ _ _ _ _ _ _ _ _ P' P QP E' Es) as (_ & [(?&?)|(?&?)]);
      destruct D as [?|(?&_)]; lia.
  - destruct (QQ Q) as [-> D0]. rewrite D0, app_nil_r in E'. rewrite E in E'. symmetry in E'.
    destruct (follows _ _ _ _ _ _ _ _ _ P' P QP E') as [(-> & -> & Et & ->)|(b & q & y & Qb & _ & Ey)].
    + exists s', evs'. auto.
    + exfalso. eapply fragment_no_query; eauto.
  - exfalso. rewrite E in E'. symmetry in E'.
    destruct G as [v t m1 m2 l1 l2 l3 l4 rest code raw r suf Es Off _ _|v m1 m2 l1 l2 l3 l4 rest suf Es VF' _].
    + destruct (follows_head _ _ _ _ _ _ _ _ _ _ _ _ _ _ _ _ _ _ _ P' P QP E' Es)
        as (VF & D). unfold version_fits in *. inversion Off; lia.
    + destruct (follows_head _ _ _ _ _ _ _ _ _ _ _ _ _ _ _ _ _ _ _ P' P QP E' Es)
        as (VF & D). lia.
  - exfalso. eapply quiet_no_terminal; eauto.
Qed.

Lemma parsed_wrong ver bs qs v1 bs0 qs0 v2 x v t m1 m2 l1 l2 l3 l4 rest :
  parsed ver bs qs v1 -> parsed ver bs0 qs0 v2 -> ~ version_fits v2 v ->
  concat bs ++ x = concat bs0 ++ (v :: t :: m1 :: m2 :: l1 :: l2 :: l3 :: l4 :: rest) ->
  (bs = bs0 /\ v1 = v2 /\ x = v :: t :: m1 :: m2 :: l1 :: l2 :: l3 :: l4 :: rest) \/
  (exists b q y, is_query b q /\ x = b ++ y /\ version_fits v1 (rq_version q)).
Proof.
  intros P P0 NV E.
  destruct (parsed_decomp _ _ _ _ P _ _ _ _ _ P0 E)
    as (bs1 & qs1 & [(-> & -> & P1 & ->)|(-> & -> & P1 & EX)]).
  - inversion P1 as [|? b1 q1 bs2 qs2 ? Q1 VF1 P2]; subst.
    + left. rewrite app_nil_r. auto.
    + right. eexists b1, q1, _. split; [auto|]. cbn [concat]. rewrite <- app_assoc. auto.
  - inversion P1 as [|? b1 q1 bs2 qs2 ? Q1 VF1 P2]; subst.
    + left. rewrite app_nil_r. auto.
    + exfalso. cbn [concat] in EX. rewrite <- app_assoc in EX.
      rewrite <- (app_nil_r (v :: _)) in EX.
      destruct (query_head _ _ _ _ _ _ _ _ _ _ _ _ _ Q1 EX) as (-> & _). auto.
Qed.

Lemma app_head8 (suf more : list Z) v t m1 m2 l1 l2 l3 l4 rest v' t' m1' m2' l1' l2' l3' l4' rest' :
  suf ++ more = v :: t :: m1 :: m2 :: l1 :: l2 :: l3 :: l4 :: rest ->
  suf = v' :: t' :: m1' :: m2' :: l1' :: l2' :: l3' :: l4' :: rest' ->
  v' = v /\ t' = t /\ [l1'; l2'; l3'; l4'] = [l1; l2; l3; l4].
Proof. intros E ->. cbn [app] in E. injection E. intros. subst. auto. Qed.

Lemma wrong_version s sk evs bs qs ver v t m1 m2 l1 l2 l3 l4 rest :
  pstream_ok s -> evs_ok evs -> quiet evs ->
  parsed (ps_version s) bs qs ver -> ~ version_fits ver v ->
  2 <= be [l1; l2; l3; l4] <= 1024 ->
  ps_buf s ++ data evs = concat bs ++ v :: t :: m1 :: m2 :: l1 :: l2 :: l3 :: l4 :: rest ->
  exists s' sk' evs' raw r, pdustream_next s sk evs =
    Ok {| no_stream := s'; no_socket := sk'; no_evs := evs'; no_result := None |} /\
    v :: t :: m1 :: m2 :: l1 :: l2 :: l3 :: l4 :: rest = raw ++ r /\
    answered sk sk' t (if (v =? 0) || (v =? 1) then 8 else 4) raw.
Proof.
  intros OK EO Q P NV Hlen E. unfold pdustream_next.
  destruct (rounds_cases (S (S (length (ps_buf s) + pending evs))) s sk evs None OK EO)
    as [bs' qs' ver' suf more P' E' BH LS|bs' qs' ver' s' evs' r P' E' Fr V' OK' R QQ
       |bs' qs' ver' suf more s' sk' evs' P' E' G OK'|s' evs' T OK'].
  - lia.
  - exfalso. rewrite E in E'. symmetry in E'.
    destruct BH as (v' & t' & m1' & m2' & l1' & l2' & l3' & l4' & rest' & Es & D).
    destruct (parsed_wrong _ _ _ _ _ _ _ _ _ _ _ _ _ _ _ _ _ P' P NV E') as [(_ & -> & EX)|(b & q & y & Qb & Ey & _)].
    + destruct (app_head8 _ _ _ _ _ _ _ _ _ _ _ _ _ _ _ _ _ _ _ _ EX Es) as (-> & -> & El).
      rewrite El in D. destruct D as [|(_ & VF & _)]; [lia|auto].
    + rewrite Es in Ey. destruct (query_head _ _ _ _ _ _ _ _ _ _ _ _ _ Qb Ey) as (_ & [(?&?)|(?&?)] & _);
        destruct D as [?|(?&_)]; lia.
  - exfalso. destruct (QQ Q) as [-> D0]. rewrite D0, app_nil_r in E'. rewrite E in E'. symmetry in E'.
    destruct (parsed_wrong _ _ _ _ _ _ _ _ _ _ _ _ _ _ _ _ _ P' P NV E') as [(_ & -> & EX)|(b & q & y & Qb & Ey & _)].
    + destruct Fr as [Hs|(v' & t' & m1' & m2' & l1' & l2' & l3' & l4' & rest' & El & Hv & Hver & _)].
      * rewrite EX in Hs. cbn [length] in Hs. lia.
      * rewrite EX in El. assert (Evv : v' = v) by congruence. rewrite Evv in *. clear El.
        apply NV. unfold version_fits in *. lia.
    + eapply fragment_no_query; eauto.
  - rewrite E in E'. symmetry in E'.
    destruct (parsed_wrong _ _ _ _ _ _ _ _ _ _ _ _ _ _ _ _ _ P' P NV E') as [(_ & -> & EX)|(b & q & y & Qb & Ey & VFq)].
    + destruct G as [v' t' m1' m2' l1' l2' l3' l4' rest' code raw r suf Es Off Er Ans
        |v' m1' m2' l1' l2' l3' l4' rest' suf Es VF' _].
      * destruct (app_head8 _ _ _ _ _ _ _ _ _ _ _ _ _ _ _ _ _ _ _ _ EX Es) as (-> & -> & El).
        exists s', sk', evs', raw, (r ++ more). split; [reflexivity|].
        split; [rewrite <- EX, Er, <- app_assoc; reflexivity|].
        rewrite El in Off.
        assert (code = if (v =? 0) || (v =? 1) then 8 else 4) as <-; [|exact Ans].
        inversion Off; try lia; try tauto.
        -- destruct (Z.eqb_spec v 0), (Z.eqb_spec v 1); cbn [orb]; lia.
        -- destruct (Z.eqb_spec v 0), (Z.eqb_spec v 1); cbn [orb]; lia.
      * exfalso. destruct (app_head8 _ _ _ _ _ _ _ _ _ _ _ _ _ _ _ _ _ _ _ _ EX Es) as (-> & _). auto.
    + exfalso. destruct G as [v' t' m1' m2' l1' l2' l3' l4' rest' code raw r suf Es Off _ _
        |v' m1' m2' l1' l2' l3' l4' rest' suf Es VF' _];
      rewrite Es in Ey; destruct (query_head _ _ _ _ _ _ _ _ _ _ _ _ _ Qb Ey) as (? & D & _); [|lia].
      unfold version_fits in *. inversion Off; unfold version_fits in *; lia.
  - exfalso. eapply quiet_no_terminal; eauto.
Qed.

(** ** UTF-8 *)
Lemma get_octets_spec b : is_byte b ->
  get_octets b = if b <? 128 then Some 1%nat else if b <? 192 then None
                 else if b <? 224 then Some 2%nat else if b <? 240 then Some 3%nat
                 else if b <? 248 then Some 4%nat else None.
Proof.
  unfold is_byte. intros H.
  assert (A : forallb (fun n => match get_octets (Z.of_nat n),
      (let b := Z.of_nat n in if b <? 128 then Some 1%nat else if b <? 192 then None
                 else if b <? 224 then Some 2%nat else if b <? 240 then Some 3%nat
                 else if b <? 248 then Some 4%nat else None) with
      | Some x, Some y => Nat.eqb x y | None, None => true | _, _ => false end) (seq 0 256) = true)
    by (vm_compute; reflexivity).
  rewrite forallb_forall in A. specialize (A (Z.to_nat b)). rewrite Z2Nat.id in A by lia.
  cbv zeta in A. rewrite in_seq in A. specialize (A ltac:(lia)).
  destruct (get_octets b), (if b <? 128 then _ else _); try discriminate; auto.
  apply Nat.eqb_eq in A. subst. reflexivity.
Qed.

Lemma cont_spec b : is_byte b -> (Z.shiftr b 6 =? 2) = true <-> is_cont b.
Proof.
  unfold is_byte, is_cont. intros H. rewrite Z.shiftr_div_pow2 by lia. change (2 ^ 6) with 64.
  rewrite Z.eqb_eq. split; intros; lia.
Qed.

(** The first character, if it is well formed. *)
Lemma eat_spec b t o t' : Forall is_byte (b :: t) -> get_octets b = Some o ->
  eat_cont (o - 1) t = Some t' ->
  exists c, utf8_char c /\ length c = o /\ b :: t = c ++ t'.
Proof.
  intros F G E. inversion F as [|? ? Hb Ft]; subst. rewrite get_octets_spec in G by auto. unfold is_byte in Hb.
  destruct (Z.ltb_spec b 128); [injection G as <-; cbn in E; injection E as <-; exists [b]; repeat split; constructor; lia|].
  destruct (Z.ltb_spec b 192); [discriminate|].
  destruct (Z.ltb_spec b 224).
  { injection G as <-. cbn [Nat.sub eat_cont] in E. destruct t as [|c1 t]; [discriminate|].
    inversion Ft as [|? ? HH1 Ft1]; subst. destruct (Z.shiftr c1 6 =? 2) eqn:C1; [|discriminate].
    injection E as <-. exists [b; c1]. repeat split. constructor; [lia|apply cont_spec; auto]. }
  destruct (Z.ltb_spec b 240).
  { injection G as <-. cbn [Nat.sub eat_cont] in E. destruct t as [|c1 t]; [discriminate|].
    inversion Ft as [|? ? HH1 Ft1]; subst. destruct (Z.shiftr c1 6 =? 2) eqn:C1; [|discriminate].
    destruct t as [|c2 t]; [discriminate|].
    inversion Ft1 as [|? ? HH2 Ft2]; subst. destruct (Z.shiftr c2 6 =? 2) eqn:C2; [|discriminate].
    injection E as <-. exists [b; c1; c2]. repeat split. constructor; [lia| |]; apply cont_spec; auto. }
  destruct (Z.ltb_spec b 248); [|discriminate].
  injection G as <-. cbn [Nat.sub eat_cont] in E. destruct t as [|c1 t]; [discriminate|].
  inversion Ft as [|? ? HH1 Ft1]; subst. destruct (Z.shiftr c1 6 =? 2) eqn:C1; [|discriminate].
  destruct t as [|c2 t]; [discriminate|].
  inversion Ft1 as [|? ? HH2 Ft2]; subst. destruct (Z.shiftr c2 6 =? 2) eqn:C2; [|discriminate].
  destruct t as [|c3 t]; [discriminate|].
  inversion Ft2 as [|? ? HH3 Ft3]; subst. destruct (Z.shiftr c3 6 =? 2) eqn:C3; [|discriminate].
  injection E as <-. exists [b; c1; c2; c3]. repeat split. constructor; [lia| | |]; apply cont_spec; auto.
Qed.

Lemma eat_complete c l : utf8_char c -> Forall is_byte (c ++ l) ->
  exists b t o, c ++ l = b :: t /\ get_octets b = Some o /\ eat_cont (o - 1) t = Some l /\ length c = o.
Proof.
  intros U F. unfold is_byte in F.
  assert (CS : forall b, is_cont b -> (Z.shiftr b 6 =? 2) = true).
  { intros b Hb. apply cont_spec; auto. unfold is_byte, is_cont in *. lia. }
  inversion U; subst; cbn [app]; eexists _, _, _; (split; [reflexivity|]);
    (split; [rewrite get_octets_spec by (unfold is_byte; lia)|]).
  all: try (repeat match goal with |- context[?x <? ?y] => destruct (Z.ltb_spec x y); try lia end; reflexivity).
  all: cbn [Nat.sub eat_cont length]; rewrite ?CS by auto; auto.
Qed.

Lemma null_pos_spec fuel : forall l kept, Forall is_byte l -> (length l <= fuel)%nat ->
  exists p r, l = p ++ r /\ utf8 p /\ null_pos fuel l kept = (kept + length p)%nat /\
    forall p' r', l = p' ++ r' -> utf8 p' -> (length p' <= length p)%nat.
Proof.
  induction fuel as [|fuel IH]; intros l kept F L.
  { destruct l; [|cbn [length] in L; lia]. exists [], []. cbn. repeat split; auto; [constructor|].
    intros p' r' E _. symmetry in E. apply app_eq_nil in E. destruct E as [-> _]. cbn. lia. }
  assert (STOP : (forall c r, utf8_char c -> l = c ++ r -> False) -> exists p r, l = p ++ r /\ utf8 p /\
     kept = (kept + length p)%nat /\ forall p' r', l = p' ++ r' -> utf8 p' -> (length p' <= length p)%nat).
  { intros N. exists [], l. cbn. repeat split; auto; [constructor|]. intros p' r' E U.
    inversion U as [|c p2 Uc Up]; subst; [cbn; lia|]. exfalso. eapply (N c (p2 ++ r')); auto.
    rewrite <- app_assoc. reflexivity. }
  cbn [null_pos]. destruct l as [|b t].
  { apply STOP. intros c r U E. inversion U; subst; discriminate. }
  assert (NO : forall o, get_octets b = o ->
     (match o with None => True | Some n => eat_cont (n - 1) t = None end) ->
     forall c r, utf8_char c -> b :: t = c ++ r -> False).
  { intros o G N c r U E. destruct (eat_complete c r U) as (b' & t' & o' & E1 & G' & E2 & _).
    { rewrite <- E. exact F. }
    rewrite <- E in E1. injection E1 as <- <-. rewrite G' in G. subst o. congruence. }
  destruct (get_octets b) as [o|] eqn:G; [|apply STOP; eapply (NO None); eauto].
  destruct (eat_cont (o - 1) t) as [t'|] eqn:E; [|apply STOP; eapply (NO (Some o)); eauto].
  destruct (eat_spec b t o t' F G E) as (c & U & Lc & Ec).
  assert (Lo : (1 <= length c)%nat) by (inversion U; subst; cbn; lia).
  assert (Ft : Forall is_byte t') by (rewrite Ec in F; apply Forall_app in F; tauto).
  destruct (IH t' (kept + o)%nat Ft) as (p & r & Et & Up & N & MX).
  { rewrite Ec, app_length in L. lia. }
  exists (c ++ p), r. split; [rewrite Ec, Et, app_assoc; reflexivity|]. split; [constructor; auto|].
  split; [rewrite N, app_length; lia|]. intros p' r' E' U'.
  inversion U' as [|c2 p2 Uc2 Up2]; subst p'; [cbn; lia|].
  assert (c2 = c /\ t' = p2 ++ r') as [-> Et'].
  { destruct (eat_complete c2 (p2 ++ r') Uc2) as (b' & t2 & o' & E1 & G' & E2 & L2).
    { rewrite app_assoc, <- E'. exact F. }
    rewrite app_assoc, <- E' in E1. injection E1 as <- <-. rewrite G in G'. injection G' as <-.
    rewrite E in E2. injection E2 as E2. split; [|exact E2].
    rewrite Ec, <- app_assoc, <- E2 in E'. apply app_inv_tail in E'. auto. }
  rewrite !app_length. specialize (MX _ _ Et' Up2). lia.
Qed.

Lemma place_null_character_spec str : Forall is_byte str ->
  exists r, str = place_null_character str ++ r /\ utf8 (place_null_character str) /\
    forall p' r', str = p' ++ r' -> utf8 p' -> exists x, place_null_character str = p' ++ x.
Proof.
  intros F. unfold place_null_character.
  destruct (null_pos_spec (length str) str 0 F (le_n _)) as (p & r & E & U & N & MX).
  rewrite N. cbn [Nat.add].
  assert (FE : firstn (length p) str = p) by (rewrite E, firstn_app, firstn_all, Nat.sub_diag; cbn; apply app_nil_r).
  rewrite FE. exists r. split; [auto|]. split; [auto|]. intros p' r' E' U'.
  specialize (MX _ _ E' U'). exists (skipn (length p') p).
  rewrite <- (firstn_skipn (length p') p) at 1. f_equal.
  rewrite <- FE, firstn_firstn, Nat.min_l by lia. rewrite E', firstn_app, firstn_all, Nat.sub_diag. cbn. apply app_nil_r.
Qed.

(** ** Connections *)
Lemma create_ok : pstream_ok pdustream_create.
Proof. unfold pstream_ok. cbn. repeat split; auto; lia. Qed.

Lemma next_cases s sk evs : pstream_ok s -> evs_ok evs ->
  next_case s sk evs None (pdustream_next s sk evs).
Proof. intros. apply rounds_cases; auto. Qed.

Lemma parsed_version ver bs qs ver' : parsed ver bs qs ver' ->
  (qs = [] /\ ver' = ver) \/ (version_fits ver ver' /\ Forall (fun q => rq_version q = ver') qs).
Proof.
  induction 1 as [ver|ver b q bs qs ver' Q VF P IH]; [auto|]. right.
  destruct IH as [(-> & ->)|(VF' & F)].
  - split; [auto|]. constructor; auto.
  - assert (E : rq_version q = ver') by (unfold version_fits in *; lia).
    split; [rewrite <- E; exact VF|]. constructor; auto.
Qed.

Lemma last_req_in qs : forall req q, last_req req qs = Some q -> In q qs \/ (qs = [] /\ req = Some q).
Proof.
  induction qs as [|a qs IH]; intros req q E; cbn [last_req] in E; [auto|].
  left. destruct (IH _ _ E) as [|(-> & E')]; [right; auto|]. left. congruence.
Qed.

Lemma deliver_version ver bs qs ver' v q :
  parsed ver bs qs ver' -> v = ver' \/ version_fits ver' v -> last_req None qs = Some q ->
  rq_version q = v.
Proof.
  intros P Hv L. destruct (last_req_in _ _ _ L) as [I|(_ & E)]; [|discriminate].
  destruct (parsed_version _ _ _ _ P) as [(-> & _)|(VF & F)]; [destruct I|].
  rewrite Forall_forall in F. specialize (F _ I).
  unfold version_fits in *. lia.
Qed.

Lemma deliver_version01 ver bs qs ver' q :
  parsed ver bs qs ver' -> last_req None qs = Some q -> rq_version q = 0 \/ rq_version q = 1.
Proof.
  intros P L. destruct (last_req_in _ _ _ L) as [I|(_ & E)]; [|discriminate].
  destruct (parsed_version _ _ _ _ P) as [(-> & _)|(VF & F)]; [destruct I|].
  rewrite Forall_forall in F. rewrite (F _ I). apply VF.
Qed.

Lemma conn_inv s rs : conn s rs -> pstream_ok s /\
  Forall (fun q => rq_version q = ps_version s) rs /\ (rs <> [] -> ps_version s <> -1).
Proof.
  induction 1 as [|s rs sk evs out r C (OK & F & NE) EO E R].
  { split; [apply create_ok|]. split; [constructor|congruence]. }
  pose proof (next_cases s sk evs OK EO) as N. rewrite E in N.
  inversion N as [|bs qs ver s' evs' r' P EQ Fr V' OK' R' QQ Eo|bs qs ver suf more s' sk' evs' P EQ G OK' Eo
    |s' evs' T OK' Eo]; subst out; cbn [no_stream no_result] in *; try discriminate.
  injection R as <-. split; [exact OK'|].
  pose proof OK as (V0 & _). pose proof OK' as (V1 & _).
  assert (Vs : rs <> [] -> ps_version s = ps_version s').
  { intros Hne. specialize (NE Hne).
    destruct (parsed_version _ _ _ _ P) as [(-> & ->)|(VF & _)]; unfold version_fits in *; lia. }
  assert (Vq : forall q, r' = Some q -> rq_version q = ps_version s' /\ ps_version s' <> -1).
  { intros q ->. destruct R' as [R'|(_ & q' & LR & R')].
    - pose proof (deliver_version _ _ _ _ _ _ P V' (eq_sym R')).
      pose proof (deliver_version01 _ _ _ _ _ P (eq_sym R')). lia.
    - injection R' as ->. cbn [set_eos rq_version].
      pose proof (deliver_version _ _ _ _ _ _ P V' LR).
      pose proof (deliver_version01 _ _ _ _ _ P LR). lia. }
  split.
  - apply Forall_app. split.
    + destruct rs as [|q0 rs]; [constructor|]. rewrite <- Vs by congruence. exact F.
    + destruct r' as [q|]; [|constructor]. constructor; [|constructor]. apply Vq. reflexivity.
  - intros Hne. destruct r' as [q|]; [apply (Vq q); reflexivity|].
    rewrite app_nil_r in Hne. rewrite <- Vs by auto. auto.
Qed.
