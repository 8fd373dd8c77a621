From Coq Require Import String.
From Verif Require Import Base BaseLemmas Types DArray DbTable Vrps VrpsSpec VrpsProofs
  VrpsProofs2 Serial PduWire PduWireSpec PduWireProofs PduHandler PduHandlerSpec.

(** ** Bytes of the callbacks *)
Definition vrp_bytes (version : Z) (d : flag * vrp) : list (list Z) :=
  [ser_prefix version (snd d) (flag_byte (fst d))].
Definition rk_bytes (version : Z) (d : flag * router_key) : list (list Z) :=
  match ser_router_key version (snd d) (flag_byte (fst d)) with
  | None => [] | Some b => [b] end.
Definition cr_bytes (s : state) (version : Z) : list Z :=
  ser_cache_response version (get_current_session_id s version).

Definition started {A B : Type} (vs : list A) (ks : list B) : bool :=
  match vs with [] => match ks with [] => false | _ => true end | _ => true end.

Definition not_eod (x : list Z * send_outcome) : Prop := ~ is_end_of_data (fst x).

(** [emits sk bs sk' e]: the PDUs [bs] were submitted in order; if [e] = 0 all
    of them without error, otherwise a non-empty prefix of them, the last one
    failing with [e]. *)
Inductive emits : socket -> list (list Z) -> socket -> Z -> Prop :=
| em_nil sk : emits sk [] sk 0
| em_ok sk b sk1 bs sk2 e :
    send_response sk b = (sk1, 0) -> emits sk1 bs sk2 e -> emits sk (b :: bs) sk2 e
| em_fail sk b sk1 bs e :
    send_response sk b = (sk1, e) -> e <> 0 -> emits sk (b :: bs) sk1 e.

Lemma emits_app sk bs sk1 bs2 sk2 e :
  emits sk bs sk1 0 -> emits sk1 bs2 sk2 e -> emits sk (bs ++ bs2) sk2 e.
Proof.
  intros H. remember 0 as z eqn:Ez. induction H; intros H2; subst.
  - exact H2.
  - cbn. eapply em_ok; eauto.
  - congruence.
Qed.
Lemma emits_app_fail sk bs sk1 bs2 e :
  emits sk bs sk1 e -> e <> 0 -> emits sk (bs ++ bs2) sk1 e.
Proof.
  intros H. induction H; intros He; cbn.
  - congruence.
  - eapply em_ok; eauto.
  - eapply em_fail; eauto.
Qed.

Lemma send_response_log sk b sk' e :
  send_response sk b = (sk', e) ->
  exists o, sk_log sk' = sk_log sk ++ [(b, o)] /\ (e = 0 -> handed_over (b, o)) /\
            (e <> 0 -> ~ handed_over (b, o)).
Proof.
  unfold send_response. destruct (next_outcome (sk_oracle sk)) as [o r].
  destruct o as [|n|c]; intros E; injection E as <- <-; eexists; cbn [sk_log];
    (split; [reflexivity|]); cbn [snd handed_over]; split; auto; try congruence.
  destruct (c =? 0) eqn:Ec; unfold handed_over; cbn; lia.
Qed.

Lemma emits_log sk bs sk' e :
  emits sk bs sk' e ->
  exists new, sk_log sk' = sk_log sk ++ new /\
    (e = 0 -> map fst new = bs /\ Forall handed_over new) /\
    (exists r, bs = map fst new ++ r).
Proof.
  induction 1 as [sk|sk b sk1 bs sk2 e Hs He (new & L & H0 & r & Hr)|sk b sk1 bs e Hs He].
  - exists []. rewrite app_nil_r. repeat split; auto. exists []. reflexivity.
  - destruct (send_response_log _ _ _ _ Hs) as (o & Lo & Ho & _).
    exists ((b, o) :: new). rewrite L, Lo, <- app_assoc. split; [reflexivity|]. split.
    + intros E. destruct (H0 E) as [<- F]. split; [reflexivity|]. constructor; auto.
    + exists r. cbn. rewrite Hr at 1. reflexivity.
  - destruct (send_response_log _ _ _ _ Hs) as (o & Lo & _).
    exists [(b, o)]. split; [exact Lo|]. split; [congruence|]. exists bs. reflexivity.
Qed.

(** The loop over callbacks. *)
Lemma cb_emits {X} (ser : X -> list (list Z)) (cb : send_args -> X -> send_args * Z) s version
  (Hcb : forall a x a' e, cb a x = (a', e) ->
     emits (a_sk a) ((if a_sent a then [] else [cr_bytes s version]) ++ ser x) (a_sk a') e /\
     (e = 0 -> a_sent a' = true)) :
  forall l a a' e, run_cb cb a l = (a', e) ->
    emits (a_sk a) ((if a_sent a then [] else match l with [] => [] | _ => [cr_bytes s version] end)
                    ++ flat_map ser l) (a_sk a') e /\
    (e = 0 -> a_sent a' = match l with [] => a_sent a | _ => true end).
Proof.
  induction l as [|x l IH]; intros a a' e; cbn [run_cb flat_map].
  - intros E. injection E as <- <-. split; [|auto]. destruct (a_sent a); constructor.
  - destruct (cb a x) as [a1 e1] eqn:E1. destruct (Hcb _ _ _ _ E1) as [M1 S1].
    destruct (e1 =? 0) eqn:Z1.
    + assert (e1 = 0) by lia. subst e1. specialize (S1 eq_refl). intros E.
      destruct (IH _ _ _ E) as [M2 S2]. rewrite S1 in M2, S2. cbn [app] in M2. split.
      * rewrite app_assoc. eapply emits_app; eassumption.
      * intros E0. specialize (S2 E0). destruct l; exact S2.
    + intros E. injection E as <- <-. split; [|lia].
      rewrite app_assoc. apply emits_app_fail; [exact M1|lia].
Qed.

Lemma maybe_emits s version a a' e :
  send_cache_response_maybe s version a = (a', e) ->
  emits (a_sk a) (if a_sent a then [] else [cr_bytes s version]) (a_sk a') e /\
  (e = 0 -> a_sent a' = true).
Proof.
  unfold send_cache_response_maybe, send_cache_response_pdu. destruct (a_sent a) eqn:Ea.
  - intros E. injection E as <- <-. split; [constructor|auto].
  - fold (cr_bytes s version).
    destruct (send_response (a_sk a) (cr_bytes s version)) as [sk1 e1] eqn:E1.
    destruct (e1 =? 0) eqn:Z1; intros E; injection E as <- <-; cbn [a_sk a_sent].
    + assert (e1 = 0) by lia. subst. split; [|auto]. eapply em_ok; [exact E1|constructor].
    + split; [|lia]. eapply em_fail; [exact E1|lia].
Qed.

Lemma vrp_cb_emits s version a d a' e :
  send_delta_vrp s version a d = (a', e) ->
  emits (a_sk a) ((if a_sent a then [] else [cr_bytes s version]) ++ vrp_bytes version d) (a_sk a') e /\
  (e = 0 -> a_sent a' = true).
Proof.
  unfold send_delta_vrp. destruct (send_cache_response_maybe s version a) as [a1 e1] eqn:E1.
  destruct (maybe_emits _ _ _ _ _ E1) as [M1 S1].
  destruct (e1 =? 0) eqn:Z1.
  - assert (e1 = 0) by lia. subst. specialize (S1 eq_refl).
    unfold send_prefix_pdu. destruct (send_response _ _) as [sk2 e2] eqn:E2.
    intros E. injection E as <- <-. cbn [a_sk a_sent]. split; [|auto].
    eapply emits_app; [exact M1|]. unfold vrp_bytes.
    destruct (Z.eq_dec e2 0) as [-> |N].
    + eapply em_ok; [exact E2|constructor].
    + eapply em_fail; [exact E2|exact N].
  - intros E. injection E as <- <-. split; [|lia]. apply emits_app_fail; [exact M1|lia].
Qed.

Lemma rk_cb_emits s version a d a' e :
  send_delta_rk s version a d = (a', e) ->
  emits (a_sk a) ((if a_sent a then [] else [cr_bytes s version]) ++ rk_bytes version d) (a_sk a') e /\
  (e = 0 -> a_sent a' = true).
Proof.
  unfold send_delta_rk. destruct (send_cache_response_maybe s version a) as [a1 e1] eqn:E1.
  destruct (maybe_emits _ _ _ _ _ E1) as [M1 S1].
  destruct (e1 =? 0) eqn:Z1.
  - assert (e1 = 0) by lia. subst. specialize (S1 eq_refl).
    unfold send_router_key_pdu, rk_bytes.
    destruct (ser_router_key version (snd d) (flag_byte (fst d))) as [b|].
    + destruct (send_response _ _) as [sk2 e2] eqn:E2.
      intros E. injection E as <- <-. cbn [a_sk a_sent]. split; [|auto].
      eapply emits_app; [exact M1|].
      destruct (Z.eq_dec e2 0) as [-> |N].
      * eapply em_ok; [exact E2|constructor].
      * eapply em_fail; [exact E2|exact N].
    + intros E. injection E as <- <-. cbn [a_sk a_sent]. split; [|auto].
      rewrite app_nil_r. exact M1.
  - intros E. injection E as <- <-. split; [|lia]. apply emits_app_fail; [exact M1|lia].
Qed.

(** Both loops together. *)
Lemma two_loops s version sk vs ks a1 e1 a2 e2 :
  run_cb (send_delta_vrp s version) {| a_sk := sk; a_sent := false |} vs = (a1, e1) ->
  e1 = 0 ->
  run_cb (send_delta_rk s version) a1 ks = (a2, e2) ->
  emits sk ((if started vs ks then [cr_bytes s version] else [])
            ++ flat_map (vrp_bytes version) vs ++ flat_map (rk_bytes version) ks) (a_sk a2) e2 /\
  (e2 = 0 -> a_sent a2 = started vs ks).
Proof.
  intros E1 Z1 E2. subst e1.
  destruct (cb_emits (vrp_bytes version) _ s version (vrp_cb_emits s version) _ _ _ _ E1) as [M1 S1].
  destruct (cb_emits (rk_bytes version) _ s version (rk_cb_emits s version) _ _ _ _ E2) as [M2 S2].
  specialize (S1 eq_refl). cbn [a_sent] in *. rewrite S1 in M2, S2.
  destruct vs as [|v vs]; cbn [app flat_map] in *.
  - split.
    + assert (sk = a_sk a1) as -> by (inversion M1; auto).
      destruct ks; exact M2.
    + intros E. specialize (S2 E). destruct ks; exact S2.
  - split.
    + cbn [started]. cbn [app].
      change (cr_bytes s version :: (vrp_bytes version v ++ flat_map (vrp_bytes version) vs)
          ++ flat_map (rk_bytes version) ks)
        with ((cr_bytes s version :: (vrp_bytes version v ++ flat_map (vrp_bytes version) vs))
          ++ flat_map (rk_bytes version) ks).
      eapply emits_app; eassumption.
    + intros E. specialize (S2 E). destruct ks; exact S2.
Qed.

(** ** Types of the emitted PDUs *)
Lemma cr_not_eod s version : ~ is_end_of_data (cr_bytes s version).
Proof. unfold is_end_of_data. cbn. discriminate. Qed.
Lemma vrp_not_eod version d b : In b (vrp_bytes version d) -> ~ is_end_of_data b.
Proof.
  unfold vrp_bytes, is_end_of_data, ser_prefix. intros [<-|[]].
  destruct (v_fam (snd d)); cbn; discriminate.
Qed.
Lemma rk_not_eod version d b : In b (rk_bytes version d) -> ~ is_end_of_data b.
Proof.
  unfold rk_bytes, ser_router_key. destruct (version =? 0); [intros []|].
  intros [<-|[]]. unfold is_end_of_data. cbn. discriminate.
Qed.
Lemma payload_not_eod s version vs ks b :
  In b ((if started vs ks then [cr_bytes s version] else [])
            ++ flat_map (vrp_bytes version) vs ++ flat_map (rk_bytes version) ks) ->
  ~ is_end_of_data b.
Proof.
  rewrite !in_app_iff, !in_flat_map. intros [H|[(d & _ & H)|(d & _ & H)]].
  - destruct vs as [|v vs], ks as [|k ks]; cbn in H; try tauto; destruct H as [<-|[]]; apply cr_not_eod.
  - eapply vrp_not_eod; eauto.
  - eapply rk_not_eod; eauto.
Qed.

Lemma err_pdu_log sk version code req msg sk' r :
  err_pdu_send sk version code req msg = Ok (sk', r) ->
  exists new, sk_log sk' = sk_log sk ++ new /\ Forall not_eod new /\ (length new <= 1)%nat.
Proof.
  unfold err_pdu_send.
  assert (S : bind (ser_error_report version code req msg)
                (fun b => Ok (fst (send_response sk b), -22)) = Ok (sk', r) ->
          exists new, sk_log sk' = sk_log sk ++ new /\ Forall not_eod new /\ (length new <= 1)%nat).
  { destruct (ser_error_report version code req msg) as [b| |] eqn:Eb; cbn [bind]; try discriminate.
    intros E. injection E as <- <-.
    destruct (send_response sk b) as [sk1 e1] eqn:E1. cbn [fst].
    destruct (send_response_log _ _ _ _ E1) as (o & L & _). exists [(b, o)].
    split; [exact L|]. split; [|cbn; lia]. constructor; [|constructor].
    unfold ser_error_report in Eb. destruct (compute_error_pdu_len req); cbn [bind] in Eb; try discriminate.
    destruct (if 0 <? a then _ else _); cbn [bind] in Eb; try discriminate. injection Eb as <-.
    unfold not_eod, is_end_of_data. cbn. discriminate. }
  destruct req as [bytes|]; [|exact S].
  destruct (nth_error bytes 1) as [b1|]; [|discriminate].
  destruct (b1 =? PDU_TYPE_ERROR_REPORT); [|exact S].
  intros E. injection E as <- <-. exists []. rewrite app_nil_r. repeat split; cbn; auto.
Qed.

Lemma emits_not_eod sk bs sk' e new :
  emits sk bs sk' e -> (forall b, In b bs -> ~ is_end_of_data b) ->
  sk_log sk' = sk_log sk ++ new -> Forall not_eod new.
Proof.
  intros H Hb L. destruct (emits_log _ _ _ _ H) as (new' & L' & _ & r & Hr).
  assert (new' = new) by (apply (app_inv_head (sk_log sk)); congruence). subst new'.
  rewrite Forall_forall. intros x Hx. apply Hb. rewrite Hr, in_app_iff. left.
  apply in_map. exact Hx.
Qed.

Lemma not_eod_no_split pre b o post new :
  Forall not_eod new -> new = pre ++ (b, o) :: post -> is_end_of_data b -> False.
Proof.
  intros F E Hb. subst. rewrite Forall_app in F. destruct F as [_ F].
  inversion F; subst. apply H1. exact Hb.
Qed.

(** The end of both handlers, when every callback succeeded. *)
Lemma closing_log iv s version serial vs ks a sk sk' r new :
  emits sk ((if started vs ks then [cr_bytes s version] else [])
            ++ flat_map (vrp_bytes version) vs ++ flat_map (rk_bytes version) ks) (a_sk a) 0 ->
  a_sent a = started vs ks ->
  (if a_sent a then Ok (send_end_of_data_pdu iv s (a_sk a) version serial)
   else let '(sk, e) := send_cache_response_pdu s (a_sk a) version in
        if e =? 0 then Ok (send_end_of_data_pdu iv s sk version serial) else Ok (sk, e))
  = Ok (sk', r) ->
  sk_log sk' = sk_log sk ++ new ->
  (exists done o, new = done ++ [(ser_end_of_data version (get_current_session_id s version) serial iv, o)] /\
     Forall handed_over done /\
     map fst done = cr_bytes s version :: flat_map (vrp_bytes version) vs ++ flat_map (rk_bytes version) ks) \/
  Forall not_eod new.
Proof.
  intros M S E L.
  destruct (emits_log _ _ _ _ M) as (n1 & L1 & H1 & _). destruct (H1 eq_refl) as [F1 O1].
  assert (T : forall done sk1, sk_log sk1 = sk_log sk ++ done -> Forall handed_over done ->
     map fst done = cr_bytes s version :: flat_map (vrp_bytes version) vs ++ flat_map (rk_bytes version) ks ->
     send_end_of_data_pdu iv s sk1 version serial = (sk', r) ->
     exists done o, new = done ++ [(ser_end_of_data version (get_current_session_id s version) serial iv, o)] /\
     Forall handed_over done /\
     map fst done = cr_bytes s version :: flat_map (vrp_bytes version) vs ++ flat_map (rk_bytes version) ks).
  { intros done sk1 Ld Fd Md Es. unfold send_end_of_data_pdu in Es.
    destruct (send_response_log _ _ _ _ Es) as (o & Lo & _).
    exists done, o. split; [|auto]. rewrite Ld, L, <- app_assoc in Lo.
    apply app_inv_head in Lo. congruence. }
  destruct (a_sent a) eqn:Sa.
  - injection E as E. left. eapply (T n1); eauto.
    destruct vs as [|v vs]; [destruct ks as [|k ks]; [discriminate|]|]; exact F1.
  - destruct vs as [|v vs]; [|discriminate]. destruct ks as [|k ks]; [|discriminate].
    cbn [app flat_map] in F1. cbn in F1. apply map_eq_nil in F1. subst n1. rewrite app_nil_r in L1.
    unfold send_cache_response_pdu in E. fold (cr_bytes s version) in E.
    destruct (send_response (a_sk a) (cr_bytes s version)) as [sk1 e1] eqn:Es.
    destruct (send_response_log _ _ _ _ Es) as (o & Lo & Ho & _). rewrite L1 in Lo.
    destruct (e1 =? 0) eqn:Z1.
    + injection E as E. left. eapply (T [(cr_bytes s version, o)]); eauto.
      constructor; [apply Ho; lia|constructor].
    + injection E as <- <-. right. rewrite L in Lo. apply app_inv_head in Lo. subst new.
      constructor; [apply cr_not_eod|constructor].
Qed.

(** Decoding what was submitted. *)
Lemma decode_payload s version vs ks :
  version = 0 \/ version = 1 ->
  is_u16 (get_current_session_id s version) ->
  Forall vrp_in_range (map snd vs) -> Forall rk_in_range (map snd ks) ->
  Forall2 (fun b p => next_ok b version p)
    (cr_bytes s version :: flat_map (vrp_bytes version) vs ++ flat_map (rk_bytes version) ks)
    (PCacheResponse (get_current_session_id s version) :: payload version vs ks).
Proof.
  intros Hv Hs Hvs Hks.
  assert (Hb : is_byte version) by (unfold is_byte; lia).
  constructor; [apply cache_response_ok; auto|].
  unfold payload. apply Forall2_app.
  - clear Hks. induction vs as [|d vs IH]; cbn [flat_map map app vrp_bytes]; [constructor|].
    inversion Hvs; subst. constructor; [apply prefix_ok; auto|apply IH; auto].
  - clear Hvs. destruct Hv as [-> | ->]; cbn [Z.eqb Pos.eqb].
    + induction ks as [|d ks IH]; cbn [flat_map map app]; [constructor|].
      inversion Hks; subst. apply IH; auto.
    + induction ks as [|d ks IH]; cbn [flat_map map app]; [constructor|].
      inversion Hks; subst. unfold rk_bytes at 1.
      destruct (ser_router_key 1 (snd d) (flag_byte (fst d))) as [b|] eqn:Eb;
        [|unfold ser_router_key in Eb; discriminate].
      cbn [app]. constructor; [eapply router_key_ok; eauto|apply IH; auto].
Qed.

(** ** Bridge between delta_streams and the real callbacks *)
Lemma delta_streams_generic {S} (vcb : S -> flag * vrp -> S * Z) kcb s from arg vs ks r :
  delta_streams s from = Ok (vs, ks, r) ->
  vrps_foreach_delta_since vcb kcb s from arg
  = Ok (fst (run_cb kcb (fst (run_cb vcb arg vs)) ks), r).
Proof.
  unfold delta_streams, vrps_foreach_delta_since.
  destruct (s_base s) as [t|]; [|intros E; injection E as <- <- <-; reflexivity].
  destruct (from =? s_serial s); [intros E; injection E as <- <- <-; reflexivity|].
  destruct (serial_lt from _); [intros E; injection E as <- <- <-; reflexivity|].
  destruct (serial_lt (s_serial s) from); [intros E; injection E as <- <- <-; reflexivity|].
  destruct (darray_foreach_since _ _) as [ds|e|]; [|intros E; injection E as <- <- <-; reflexivity|discriminate].
  set (P := fold_left (ovrd_remove vrp_equals) (flat_map deltas_vrps ds) []).
  set (K := fold_left (ovrd_remove rk_equals) (flat_map deltas_rks ds) []).
  rewrite run_cb_rec_l. cbv beta iota. rewrite run_cb_rec_r. cbn [fst snd app].
  intros E. injection E as <- <- <-.
  destruct (run_cb vcb arg P) as [a1 e1]. cbn [fst]. destruct (run_cb kcb a1 K) as [a2 e2].
  reflexivity.
Qed.

(** ** C09: reset query *)
Lemma map_tag_snd {A} (f : flag) (l : list A) : map snd (map (pair f) l) = l.
Proof. rewrite map_map. cbn. apply map_id. Qed.

Lemma run_cb_map {S X Y} (f : X -> Y) (cb : S -> Y -> S * Z) l a :
  run_cb (fun a x => cb a (f x)) a l = run_cb cb a (map f l).
Proof.
  revert a; induction l as [|x l IH]; intros a; cbn [run_cb map]; [reflexivity|].
  destruct (cb a (f x)) as [a1 e1]. destruct (e1 =? 0); auto.
Qed.

Lemma F2_impl {A B} (P Q : A -> B -> Prop) l1 l2 :
  (forall a b, P a b -> Q a b) -> Forall2 P l1 l2 -> Forall2 Q l1 l2.
Proof. induction 2; constructor; auto. Qed.

Lemma reset_query_log iv s1 s2 l1 l2 sk version sk' r new :
  handle_reset_query_pdu iv s1 s2 l1 l2 sk version = Ok (sk', r) ->
  sk_log sk' = sk_log sk ++ new ->
  Forall not_eod new \/
  exists t serial done o,
    s_base s1 <> None /\ s_serial s1 = serial /\ s_base s2 = Some t /\
    new = done ++ [(ser_end_of_data version (get_current_session_id s2 version) serial iv, o)] /\
    Forall handed_over done /\
    map fst done = cr_bytes s2 version
      :: flat_map (vrp_bytes version) (map (pair ANNOUNCEMENT) (t_roas t))
      ++ flat_map (rk_bytes version) (map (pair ANNOUNCEMENT) (t_rks t)).
Proof.
  intros E L. unfold handle_reset_query_pdu in E.
  assert (ERR : forall sk0 n0 m, Forall not_eod n0 -> sk_log sk0 = sk_log sk ++ n0 ->
    bind (err_pdu_send_internal_error sk0 version) (fun '(sk, _) => Ok (sk, m)) = Ok (sk', r) ->
    Forall not_eod new).
  { intros sk0 n0 m F0 L0 Eb. unfold err_pdu_send_internal_error in Eb.
    destruct (err_pdu_send sk0 version _ None []) as [[sk1 e1]|e1|] eqn:Ee; cbn [bind] in Eb; try discriminate.
    destruct (err_pdu_log _ _ _ _ _ _ _ Ee) as (n & Ln & Fn & _). injection Eb as <- <-.
    rewrite L0, L, <- app_assoc in Ln. apply app_inv_head in Ln. subst new.
    apply Forall_app; auto. }
  assert (ERRN : forall sk0 n0, Forall not_eod n0 -> sk_log sk0 = sk_log sk ++ n0 ->
    err_pdu_send_no_data_available sk0 version = Ok (sk', r) -> Forall not_eod new).
  { intros sk0 n0 F0 L0 Eb. unfold err_pdu_send_no_data_available in Eb.
    destruct (err_pdu_send sk0 version _ None []) as [[sk1 e1]|e1|] eqn:Ee; cbn [bind] in Eb; try discriminate.
    destruct (err_pdu_log _ _ _ _ _ _ _ Ee) as (n & Ln & Fn & _). injection Eb as <- <-.
    rewrite L0, L, <- app_assoc in Ln. apply app_inv_head in Ln. subst new.
    apply Forall_app; auto. }
  assert (NIL : sk_log sk = sk_log sk ++ []) by (rewrite app_nil_r; reflexivity).
  destruct l1; cbn [negb] in E; [|left; eapply ERR; eauto].
  unfold get_last_serial_number in E. destruct (s_base s1) as [t1|] eqn:B1; [|left; eapply ERRN; eauto].
  destruct l2; cbn [negb] in E; [|left; eapply ERR; eauto].
  unfold vrps_foreach_base in E. destruct (s_base s2) as [t|] eqn:B2; [|left; eapply ERRN; eauto].
  unfold send_base_roa in E. rewrite (run_cb_map (pair ANNOUNCEMENT) (send_delta_vrp s2 version)) in E.
  destruct (run_cb (send_delta_vrp s2 version) _ (map (pair ANNOUNCEMENT) (t_roas t))) as [a1 e1] eqn:E1.
  destruct (e1 =? 0) eqn:Z1.
  - assert (e1 = 0) by lia. subst e1.
    unfold send_base_router_key in E.
    rewrite (run_cb_map (pair ANNOUNCEMENT) (send_delta_rk s2 version)) in E.
    destruct (run_cb (send_delta_rk s2 version) a1 (map (pair ANNOUNCEMENT) (t_rks t))) as [a2 e2] eqn:E2.
    destruct (two_loops _ _ _ _ _ _ _ _ _ E1 eq_refl E2) as [M S].
    destruct (e2 =? 0) eqn:Z2.
    + assert (e2 = 0) by lia. subst e2.
      destruct (closing_log iv s2 version (s_serial s1)
          (map (pair ANNOUNCEMENT) (t_roas t)) (map (pair ANNOUNCEMENT) (t_rks t)) a2 sk sk' r new M (S eq_refl) E L)
        as [(done & o & En & Fo & Md)|F]; [right|left; exact F].
      exists t, (s_serial s1), done, o. repeat (split; [first [assumption|congruence|reflexivity]|]). exact Md.
    + left. destruct (emits_log _ _ _ _ M) as (n0 & L0 & _).
      assert (F0 : Forall not_eod n0).
      { eapply emits_not_eod; [exact M| |exact L0]. intros b Hb. eapply payload_not_eod. exact Hb. }
      destruct (e2 =? -11); [eapply ERRN; eauto|].
      destruct (e2 =? EAGAIN_pos); [eapply ERR; eauto|].
      injection E as <- <-. rewrite L0 in L. apply app_inv_head in L. subst. exact F0.
  - left.
    destruct (cb_emits (vrp_bytes version) _ s2 version (vrp_cb_emits s2 version) _ _ _ _ E1) as [M _].
    cbn [a_sk a_sent] in M.
    destruct (emits_log _ _ _ _ M) as (n0 & L0 & _).
    assert (F0 : Forall not_eod n0).
    { eapply emits_not_eod; [exact M| |exact L0]. intros b Hb.
      rewrite in_app_iff, in_flat_map in Hb. destruct Hb as [Hb|(d & _ & Hb)].
      - destruct (map (pair ANNOUNCEMENT) (t_roas t)); cbn in Hb; [tauto|].
        destruct Hb as [<-|[]]. apply cr_not_eod.
      - eapply vrp_not_eod; eauto. }
    rewrite Z1 in E.
    destruct (e1 =? -11); [eapply ERRN; eauto|].
    destruct (e1 =? EAGAIN_pos); [eapply ERR; eauto|].
    injection E as <- <-. rewrite L0 in L. apply app_inv_head in L. subst. exact F0.
Qed.

Lemma reset_eod_lem iv s1 s2 l1 l2 sk version sk' r new pre b o post :
  version = 0 \/ version = 1 -> intervals_in_range iv ->
  is_u16 (get_current_session_id s2 version) -> is_u32 (s_serial s1) ->
  (forall t, s_base s2 = Some t -> table_in_range t) ->
  handle_reset_query_pdu iv s1 s2 l1 l2 sk version = Ok (sk', r) ->
  sk_log sk' = sk_log sk ++ new ->
  new = pre ++ (b, o) :: post -> is_end_of_data b ->
  exists t, s_base s2 = Some t /\ post = [] /\ Forall handed_over pre /\
    rfc_decode b version (PEndOfData (get_current_session_id s2 version) (s_serial s1) (timers version iv)) /\
    Forall2 (fun b p => rfc_decode b version p) (map fst pre)
      (PCacheResponse (get_current_session_id s2 version)
       :: payload version (map (pair ANNOUNCEMENT) (t_roas t)) (map (pair ANNOUNCEMENT) (t_rks t))).
Proof.
  intros Hv (I1 & I2 & I3) Hs Hser Ht E L En Hb.
  destruct (reset_query_log _ _ _ _ _ _ _ _ _ _ E L) as [F|(t & ser & done & o' & _ & Es & B2 & En' & Fo & Md)].
  - exfalso. eapply not_eod_no_split; eauto.
  - exists t. destruct (Ht t B2) as [HR HK].
    assert (ND : forall x, In x done -> not_eod x).
    { intros x Hx. unfold not_eod. assert (Hin : In (fst x) (map fst done)) by (apply in_map; exact Hx).
      rewrite Md in Hin. destruct Hin as [<-|Hin]; [apply cr_not_eod|].
      rewrite in_app_iff, !in_flat_map in Hin. destruct Hin as [(d & _ & Hd)|(d & _ & Hd)].
      - eapply vrp_not_eod; eauto.
      - eapply rk_not_eod; eauto. }
    assert (EQ : pre = done /\ post = [] /\ b = ser_end_of_data version (get_current_session_id s2 version) ser iv).
    { rewrite En in En'. clear - En' ND Hb. revert done En' ND. induction pre as [|x pre IH]; intros done En' ND.
      - destruct done as [|d done]; cbn [app] in En'; injection En' as E1 E2; subst; auto.
        exfalso. apply (ND (b, o)); [left; reflexivity|exact Hb].
      - destruct done as [|d done]; cbn [app] in En'; injection En' as E1 E2.
        + destruct pre; discriminate.
        + subst x. destruct (IH done E2 (fun y Hy => ND y (or_intror Hy))) as (-> & -> & ->). auto. }
    destruct EQ as (-> & -> & ->). split; [exact B2|]. split; [reflexivity|]. split; [exact Fo|]. split.
    + apply next_ok_decode. subst ser. unfold timers. apply end_of_data_ok; auto.
    + rewrite Md. eapply F2_impl; [|apply decode_payload]; auto.
      * intros a p Ha. apply next_ok_decode. exact Ha.
      * rewrite map_tag_snd. exact HR.
      * rewrite map_tag_snd. exact HK.
Qed.

(** ** Everything succeeds: the wire *)
Lemma send_all sk b : sk_oracle sk = [] ->
  send_response sk b = ({| sk_wire := sk_wire sk ++ b; sk_log := sk_log sk ++ [(b, WroteAll)];
                           sk_oracle := [] |}, 0).
Proof. intros H. unfold send_response. rewrite H. reflexivity. Qed.

Lemma emits_all sk bs sk' e : sk_oracle sk = [] -> emits sk bs sk' e ->
  e = 0 /\ sk_oracle sk' = [] /\ sk_wire sk' = sk_wire sk ++ concat bs.
Proof.
  intros H M. induction M as [sk|sk b sk1 bs sk2 e Hs M IH|sk b sk1 bs e Hs He].
  - cbn. rewrite app_nil_r. auto.
  - rewrite send_all in Hs by exact H. injection Hs as <-.
    destruct (IH eq_refl) as (-> & E2 & E3). cbn [sk_wire] in E3. cbn [concat].
    rewrite E3, app_assoc. auto.
  - rewrite send_all in Hs by exact H. injection Hs as _ Hs. congruence.
Qed.

Lemma closing_wire iv s version serial vs ks a sk :
  sk_oracle sk = [] ->
  emits sk ((if started vs ks then [cr_bytes s version] else [])
            ++ flat_map (vrp_bytes version) vs ++ flat_map (rk_bytes version) ks) (a_sk a) 0 ->
  a_sent a = started vs ks ->
  exists sk', (if a_sent a then @Ok (socket * Z) (send_end_of_data_pdu iv s (a_sk a) version serial)
   else let '(sk, e) := send_cache_response_pdu s (a_sk a) version in
        if e =? 0 then Ok (send_end_of_data_pdu iv s sk version serial) else Ok (sk, e))
  = Ok (sk', 0) /\
  sk_wire sk' = sk_wire sk ++ concat ((cr_bytes s version :: flat_map (vrp_bytes version) vs
      ++ flat_map (rk_bytes version) ks)
      ++ [ser_end_of_data version (get_current_session_id s version) serial iv]).
Proof.
  intros H M S. destruct (emits_all _ _ _ _ H M) as (_ & HO & HW).
  destruct (a_sent a) eqn:Sa.
  - unfold send_end_of_data_pdu. rewrite send_all by exact HO. eexists. split; [reflexivity|].
    cbn [sk_wire]. rewrite HW, <- S. cbn [app concat]. rewrite !concat_app. cbn [concat].
    rewrite !app_nil_r, <- !app_assoc. reflexivity.
  - destruct vs as [|v vs]; [|discriminate]. destruct ks as [|k ks]; [|discriminate].
    cbn [app flat_map concat] in *. rewrite app_nil_r in HW.
    unfold send_cache_response_pdu, send_end_of_data_pdu. rewrite send_all by exact HO. cbn [Z.eqb].
    rewrite send_all by reflexivity. eexists. split; [reflexivity|]. cbn [sk_wire].
    rewrite HW. unfold cr_bytes. rewrite app_nil_r, <- app_assoc. reflexivity.
Qed.

Lemma loops_all s version sk vs ks a1 e1 a2 e2 :
  sk_oracle sk = [] ->
  run_cb (send_delta_vrp s version) {| a_sk := sk; a_sent := false |} vs = (a1, e1) ->
  run_cb (send_delta_rk s version) a1 ks = (a2, e2) ->
  e1 = 0 /\ e2 = 0 /\
  emits sk ((if started vs ks then [cr_bytes s version] else [])
            ++ flat_map (vrp_bytes version) vs ++ flat_map (rk_bytes version) ks) (a_sk a2) 0 /\
  a_sent a2 = started vs ks.
Proof.
  intros H E1 E2.
  destruct (cb_emits (vrp_bytes version) _ s version (vrp_cb_emits s version) _ _ _ _ E1) as [M1 _].
  destruct (emits_all _ _ _ _ H M1) as (-> & _).
  destruct (two_loops _ _ _ _ _ _ _ _ _ E1 eq_refl E2) as [M S].
  destruct (emits_all _ _ _ _ H M) as (-> & _). auto.
Qed.

Lemma stream_closing iv s version serial vs ks :
  version = 0 \/ version = 1 -> intervals_in_range iv ->
  is_u16 (get_current_session_id s version) -> is_u32 serial ->
  Forall vrp_in_range (map snd vs) -> Forall rk_in_range (map snd ks) ->
  rfc_stream version (concat ((cr_bytes s version :: flat_map (vrp_bytes version) vs
      ++ flat_map (rk_bytes version) ks)
      ++ [ser_end_of_data version (get_current_session_id s version) serial iv]))
   ((PCacheResponse (get_current_session_id s version) :: payload version vs ks)
    ++ [PEndOfData (get_current_session_id s version) serial (timers version iv)]).
Proof.
  intros Hv (I1 & I2 & I3) Hs Hser Hvs Hks. apply next_ok_stream. apply Forall2_app.
  - apply decode_payload; auto.
  - constructor; [|constructor]. apply end_of_data_ok; auto.
Qed.

Lemma vrp_events_payload version vs ks : vrp_events (payload version vs ks) = vs.
Proof.
  unfold vrp_events, payload. rewrite flat_map_app.
  assert (E1 : flat_map (fun p => match p with PPrefix f v => [(f, v)] | _ => [] end)
     (map (fun d : flag * vrp => PPrefix (fst d) (snd d)) vs) = vs).
  { induction vs as [|[f v] vs IH]; cbn; congruence. }
  rewrite E1. destruct (version =? 1); cbn; [|apply app_nil_r].
  assert (E2 : flat_map (fun p => match p with PPrefix f v => [(f, v)] | _ => [] end)
     (map (fun d : flag * router_key => PRouterKey (fst d) (snd d)) ks) = []).
  { induction ks as [|[f v] ks IH]; cbn; congruence. }
  rewrite E2. apply app_nil_r.
Qed.
Lemma rk_events_payload version vs ks :
  rk_events (payload version vs ks) = if version =? 1 then ks else [].
Proof.
  unfold rk_events, payload. rewrite flat_map_app.
  assert (E1 : flat_map (fun p => match p with PRouterKey f v => [(f, v)] | _ => [] end)
     (map (fun d : flag * vrp => PPrefix (fst d) (snd d)) vs) = []).
  { induction vs as [|[f v] vs IH]; cbn; congruence. }
  rewrite E1. destruct (version =? 1); cbn; [|reflexivity].
  induction ks as [|[f v] ks IH]; cbn; congruence.
Qed.

(** Events of a client run mention only old and new data. *)
Lemma client_run_members {A} (evs : list (flag * A)) (S S' : A -> Prop) :
  client_run evs S S' -> NoDup (map snd evs) ->
  (forall x, ~ In x (map snd evs) -> (S x <-> S' x)) /\
  forall f x, In (f, x) evs -> S x \/ S' x.
Proof.
  induction 1 as [S S' H|x evs S S' Hn H IH|x evs S S' Hn H IH]; cbn [map]; intros ND.
  - split; [auto|]. intros f x [].
  - inversion ND as [|? ? Hx ND']; subst. destruct (IH ND') as [K1 K2]. split.
    + intros y Hy. cbn in Hy. rewrite <- K1 by tauto. split; [tauto|]. intros [Q| ->]; [exact Q|tauto].
    + intros f y [E|Hin].
      * injection E as <- <-. right. apply K1; [exact Hx|tauto].
      * destruct (K2 _ _ Hin) as [[Q| ->]|Q]; auto.
        right. apply K1; [exact Hx|tauto].
  - inversion ND as [|? ? Hx ND']; subst. destruct (IH ND') as [K1 K2]. split.
    + intros y Hy. cbn in Hy. rewrite <- K1 by tauto. split; [|tauto]. intros Q. split; [exact Q|].
      intros ->. tauto.
    + intros f y [E|Hin].
      * injection E as <- <-. left. exact Hn.
      * destruct (K2 _ _ Hin) as [[Q _]|Q]; auto.
Qed.

Lemma published_in_range h cs h' :
  publishes h cs h' -> Forall table_in_range h -> Forall cycle_in_range cs ->
  Forall table_in_range h'.
Proof.
  induction 1 as [h|h cs h' H IH|h e cs h' H IH|t cs h' H IH|h p t cs h' Hd H IH|h p t cs h' Hd H IH];
    intros Hh Hc; auto; inversion Hc; subst; apply IH; auto.
  rewrite app_assoc. apply Forall_app. split; [exact Hh|]. constructor; [assumption|constructor].
Qed.

Lemma session_u16 lifetime now cs s version :
  vrps_run lifetime (vrps_init lifetime now) cs = Ok s ->
  is_u16 (get_current_session_id s version).
Proof.
  intros E. destruct (sessions_lem _ _ _ _ E) as (_ & A & B & _).
  unfold get_current_session_id, is_u16. destruct (version =? 1); lia.
Qed.

Lemma wire_converge_lem lifetime now cs iv version raw :
  1 <= lifetime < 2147483648 -> Forall cycle_ok cs -> Forall cycle_in_range cs ->
  version = 0 \/ version = 1 -> intervals_in_range iv ->
  exists s h, vrps_run lifetime (vrps_init lifetime now) cs = Ok s /\
    publishes [] cs h /\
    forall i old cur,
      nth_error h i = Some old -> nth_error h (length h - 1) = Some cur ->
      Z.of_nat (length h) - Z.of_nat (i + 1) <= lifetime ->
      let session := get_current_session_id s version in
      exists sk ps,
        handle_serial_query_pdu iv s true fresh_socket version session
          (Z.of_nat (i + 1) mod 4294967296) raw = Ok (sk, 0) /\
        rfc_stream version (sk_wire sk)
          (PCacheResponse session :: ps ++ [PEndOfData session (s_serial s) (timers version iv)]) /\
        client_run (vrp_events ps) (roas_of old) (roas_of cur) /\
        (version = 1 -> client_run (rk_events ps) (rks_of old) (rks_of cur)) /\
        (version = 0 -> rk_events ps = []).
Proof.
  intros Hl Hc Hr Hv Hi. destruct (converge_lem lifetime now cs Hl Hc) as (s & h & R & P & Ser & Base & K).
  exists s, h. split; [exact R|]. split; [exact P|]. intros i old cur Ho Hcur Hw session.
  destruct (K i old cur Ho Hcur Hw) as (vs & ks & D & CV & NV & CK & NK).
  pose proof (published_in_range _ _ _ P (Forall_nil _) Hr) as HR.
  assert (RO : table_in_range old) by (rewrite Forall_forall in HR; apply HR; eapply nth_error_In; eauto).
  assert (RC : table_in_range cur) by (rewrite Forall_forall in HR; apply HR; eapply nth_error_In; eauto).
  assert (HV : Forall vrp_in_range (map snd vs)).
  { rewrite Forall_forall. intros v Hv'. rewrite in_map_iff in Hv'. destruct Hv' as ([f x] & <- & Hin).
    destruct (client_run_members _ _ _ CV NV) as [_ M]. cbn [snd].
    destruct (M _ _ Hin) as [Q|Q]; [destruct RO as [RO _]|destruct RC as [RC _]];
      rewrite Forall_forall in *; auto. }
  assert (HK : Forall rk_in_range (map snd ks)).
  { rewrite Forall_forall. intros v Hv'. rewrite in_map_iff in Hv'. destruct Hv' as ([f x] & <- & Hin).
    destruct (client_run_members _ _ _ CK NK) as [_ M]. cbn [snd].
    destruct (M _ _ Hin) as [Q|Q]; [destruct RO as [_ RO]|destruct RC as [_ RC]];
      rewrite Forall_forall in *; auto. }
  unfold handle_serial_query_pdu. subst session. rewrite Z.eqb_refl. cbn [negb].
  rewrite (delta_streams_generic _ _ _ _ _ _ _ _ D).
  destruct (run_cb (send_delta_vrp s version) {| a_sk := fresh_socket; a_sent := false |} vs) as [a1 e1] eqn:E1.
  cbn [fst]. destruct (run_cb (send_delta_rk s version) a1 ks) as [a2 e2] eqn:E2. cbn [fst].
  destruct (loops_all _ _ _ _ _ _ _ _ _ (eq_refl : sk_oracle fresh_socket = []) E1 E2) as (_ & _ & M & S).
  destruct (closing_wire iv s version (s_serial s) vs ks a2 fresh_socket eq_refl M S) as (sk' & Ok' & W).
  exists sk', (payload version vs ks). split; [exact Ok'|]. split.
  - rewrite W. cbn [sk_wire fresh_socket app]. apply stream_closing; auto.
    + eapply session_u16; eauto.
    + rewrite Ser. unfold is_u32. lia.
  - rewrite vrp_events_payload, rk_events_payload. split; [exact CV|]. split; intros ->; [exact CK|reflexivity].
Qed.


Lemma announce_run {A} (l : list A) (S S' : A -> Prop) :
  NoDup l -> (forall x, In x l -> ~ S x) -> (forall y, S' y <-> S y \/ In y l) ->
  client_run (map (pair ANNOUNCEMENT) l) S S'.
Proof.
  revert S. induction l as [|x l IH]; intros S ND HS HE; cbn [map].
  - constructor. intros y. rewrite HE. cbn. tauto.
  - inversion ND; subst. constructor; [apply HS; left; reflexivity|].
    apply IH; auto.
    + intros y Hy [Q| ->]; [eapply HS; [right; exact Hy|exact Q]|tauto].
    + intros y. rewrite HE. cbn. intuition congruence.
Qed.

Lemma wire_reset_lem lifetime now cs iv version s t :
  Forall cycle_ok cs -> Forall cycle_in_range cs ->
  1 <= lifetime < 2147483648 ->
  version = 0 \/ version = 1 -> intervals_in_range iv ->
  vrps_run lifetime (vrps_init lifetime now) cs = Ok s -> s_base s = Some t ->
  let session := get_current_session_id s version in
  exists sk ps,
    handle_reset_query_pdu iv s s true true fresh_socket version = Ok (sk, 0) /\
    rfc_stream version (sk_wire sk)
      (PCacheResponse session :: ps ++ [PEndOfData session (s_serial s) (timers version iv)]) /\
    client_run (vrp_events ps) (fun _ => False) (roas_of t) /\
    (version = 1 -> client_run (rk_events ps) (fun _ => False) (rks_of t)) /\
    (version = 0 -> rk_events ps = []).
Proof.
  intros Hc Hr Hl Hv Hi R B session.
  destruct (converge_lem lifetime now cs Hl Hc) as (s' & h & R' & P & Ser & Base & _).
  rewrite R in R'. injection R' as <-. rewrite B in Base. symmetry in Base.
  pose proof (published_in_range _ _ _ P (Forall_nil _) Hr) as HR.
  assert (RT : table_in_range t) by (rewrite Forall_forall in HR; apply HR; eapply nth_error_In; eauto).
  assert (OKT : table_ok t).
  { assert (Forall table_ok h).
    { clear - P Hc. assert (G : Forall table_ok (@nil db_table)) by constructor. revert G Hc.
      induction P as [h|h cs h' H IH|h e cs h' H IH|t cs h' H IH|h p t cs h' Hd H IH|h p t cs h' Hd H IH];
      intros Hh Hc; auto; inversion Hc; subst; apply IH; auto.
      rewrite app_assoc. apply Forall_app. split; [exact Hh|]. constructor; [assumption|constructor]. }
    rewrite Forall_forall in H. apply H. eapply nth_error_In; eauto. }
  unfold handle_reset_query_pdu. cbn [negb]. unfold get_last_serial_number. rewrite B.
  unfold vrps_foreach_base. rewrite B.
  unfold send_base_roa. rewrite (run_cb_map (pair ANNOUNCEMENT) (send_delta_vrp s version)).
  unfold send_base_router_key. 
  destruct (run_cb (send_delta_vrp s version) {| a_sk := fresh_socket; a_sent := false |}
              (map (pair ANNOUNCEMENT) (t_roas t))) as [a1 e1] eqn:E1.
  destruct (run_cb (send_delta_rk s version) a1 (map (pair ANNOUNCEMENT) (t_rks t))) as [a2 e2] eqn:E2.
  destruct (loops_all _ _ _ _ _ _ _ _ _ (eq_refl : sk_oracle fresh_socket = []) E1 E2) as (-> & -> & M & S).
  cbn [Z.eqb]. rewrite (run_cb_map (pair ANNOUNCEMENT) (send_delta_rk s version)), E2. cbn [Z.eqb].
  destruct (closing_wire iv s version (s_serial s)
    (map (pair ANNOUNCEMENT) (t_roas t)) (map (pair ANNOUNCEMENT) (t_rks t)) a2 fresh_socket eq_refl M S) as (sk' & Ok' & W).
  exists sk', (payload version (map (pair ANNOUNCEMENT) (t_roas t)) (map (pair ANNOUNCEMENT) (t_rks t))).
  split; [exact Ok'|]. split.
  - rewrite W. cbn [sk_wire fresh_socket app]. destruct RT as [RT1 RT2]. apply stream_closing; auto.
    + eapply session_u16; eauto.
    + rewrite Ser. unfold is_u32. lia.
    + rewrite map_tag_snd. exact RT1.
    + rewrite map_tag_snd. exact RT2.
  - rewrite vrp_events_payload, rk_events_payload. destruct OKT as [O1 O2].
    split; [apply announce_run; auto; unfold roas_of; tauto|].
    split; intros ->; cbn [Z.eqb Pos.eqb]; [|reflexivity].
    apply announce_run; auto; unfold rks_of; tauto.
Qed.

(** ** Session mismatch *)
Lemma session_mismatch_lem iv s lock_ok sk version session serial raw sk' r :
  is_byte version -> bytes_ok raw ->
  session <> get_current_session_id s version ->
  handle_serial_query_pdu iv s lock_ok sk version session serial raw = Ok (sk', r) ->
  r <> 0 /\ (sk' = sk \/ exists b q text,
    sk' = fst (send_response sk b) /\ rfc_decode b version (PErrorReport 0 q text)).
Proof.
  intros Hv Hraw Hne. unfold handle_serial_query_pdu.
  destruct (session =? get_current_session_id s version) eqn:E; [lia|]. cbn [negb].
  unfold err_pdu_send_corrupt_data, err_pdu_send.
  destruct (nth_error raw 1) as [b1|]; [|discriminate].
  destruct (b1 =? PDU_TYPE_ERROR_REPORT).
  - intros EE. injection EE as <- <-. split; [lia|auto].
  - destruct (error_report_ok version ERR_PDU_CORRUPT_DATA (Some raw)
        (CString.cstr "Session ID doesn't match."%string) Hv) as (q & b & Eb & _ & _ & _ & N).
    + unfold is_u16, ERR_PDU_CORRUPT_DATA. lia.
    + exact Hraw.
    + cbn. lia.
    + rewrite Eb. cbn [bind]. intros EE. injection EE as <- <-. split; [lia|]. right.
      exists b, q, (CString.cstr "Session ID doesn't match."%string).
      split; [reflexivity|]. apply next_ok_decode. exact N.
Qed.

Lemma notify_lem lifetime now cs s sk version t :
  1 <= lifetime < 2147483648 -> Forall cycle_ok cs ->
  vrps_run lifetime (vrps_init lifetime now) cs = Ok s -> s_base s = Some t ->
  version = 0 \/ version = 1 ->
  exists b, rtr_notify_one s sk version = fst (send_response sk b) /\
    rfc_decode b version (PSerialNotify (get_current_session_id s version) (s_serial s)).
Proof.
  intros Hl Hc R B Hv. unfold rtr_notify_one, get_last_serial_number. rewrite B.
  assert (u8 version = version) as -> by (apply u8_id; unfold is_byte; lia).
  eexists. split; [reflexivity|]. apply next_ok_decode. apply serial_notify_ok.
  - unfold is_byte; lia.
  - eapply session_u16; eauto.
  - destruct (converge_lem lifetime now cs Hl Hc) as (s' & h & R' & P & Ser & _).
    rewrite R in R'. injection R' as <-. rewrite Ser. unfold is_u32. lia.
Qed.

(** ** C10 *)
Lemma vrps_run_app lifetime s cs1 cs2 :
  vrps_run lifetime s (cs1 ++ cs2) = bind (vrps_run lifetime s cs1) (fun s1 => vrps_run lifetime s1 cs2).
Proof.
  revert s. induction cs1 as [|c cs1 IH]; intros s; cbn [vrps_run app bind]; [reflexivity|].
  destruct (vrps_update lifetime s c); cbn [bind]; auto.
Qed.

Lemma reset_label_lem lifetime now cs1 cs2 iv version s1 s2 h :
  1 <= lifetime < 2147483648 -> Forall cycle_ok (cs1 ++ cs2) -> Forall cycle_in_range (cs1 ++ cs2) ->
  version = 0 \/ version = 1 -> intervals_in_range iv ->
  vrps_run lifetime (vrps_init lifetime now) cs1 = Ok s1 ->
  vrps_run lifetime s1 cs2 = Ok s2 ->
  publishes [] cs1 h -> publishes [] (cs1 ++ cs2) h -> h <> [] ->
  exists sk ps t,
    nth_error h (length h - 1) = Some t /\
    handle_reset_query_pdu iv s1 s2 true true fresh_socket version = Ok (sk, 0) /\
    let session := get_current_session_id s2 version in
    rfc_stream version (sk_wire sk)
      (PCacheResponse session :: ps
        ++ [PEndOfData session (Z.of_nat (length h) mod 4294967296) (timers version iv)]) /\
    client_run (vrp_events ps) (fun _ => False) (roas_of t) /\
    (version = 1 -> client_run (rk_events ps) (fun _ => False) (rks_of t)).
Proof.
  intros Hl Hc Hr Hv Hi R1 R2 P1 P2 Hne.
  assert (R : vrps_run lifetime (vrps_init lifetime now) (cs1 ++ cs2) = Ok s2)
    by (rewrite vrps_run_app, R1; exact R2).
  destruct (converge_lem lifetime now _ Hl Hc) as (s' & h' & R' & P' & Ser & Base & _).
  rewrite R in R'. injection R' as <-. assert (h' = h) by (eapply published_unique; eauto). subst h'.
  assert (Hc1 : Forall cycle_ok cs1) by (apply Forall_app in Hc; tauto).
  destruct (converge_lem lifetime now _ Hl Hc1) as (s'' & h'' & R'' & P'' & Ser1 & Base1 & _).
  rewrite R1 in R''. injection R'' as <-. assert (h'' = h) by (eapply published_unique; eauto). subst h''.
  destruct (nth_error h (length h - 1)) as [t|] eqn:N.
  2:{ exfalso. apply nth_error_None in N. destruct h; [congruence|cbn [length] in N; lia]. }
  destruct (wire_reset_lem lifetime now (cs1 ++ cs2) iv version s2 t Hc Hr Hl Hv Hi R Base)
    as (sk & ps & H1 & H2 & H3 & H4 & _).
  exists sk, ps, t. split; [reflexivity|]. split.
  - rewrite <- H1. unfold handle_reset_query_pdu, get_last_serial_number.
    rewrite Base, Base1, Ser, Ser1. reflexivity.
  - rewrite <- Ser. auto.
Qed.
