From Verif Require Import Base BaseLemmas Types HashSet DArray DArraySpec
  DArrayProofs DbTable Serial Vrps VrpsSpec VrpsProofs.

(** States reachable from start-up. *)
Definition reachable (lifetime now : Z) (cs : list cycle) (s : state) : Prop :=
  vrps_run lifetime (vrps_init lifetime now) cs = Ok s.

Lemma reachable_inv lifetime now cs :
  1 <= lifetime < 2147483648 -> Forall cycle_ok cs ->
  exists s h ds, reachable lifetime now cs s /\ VInv lifetime s h ds /\ publishes [] cs h.
Proof.
  intros HL Hc.
  destruct (run_spec lifetime cs _ _ _ HL (VInv_init lifetime now ltac:(lia)) Hc)
    as (s & h & ds & E & HI & HP).
  exists s, h, ds. auto.
Qed.

Lemma converge_lem lifetime now cs :
  1 <= lifetime < 2147483648 -> Forall cycle_ok cs ->
  exists s h, vrps_run lifetime (vrps_init lifetime now) cs = Ok s /\
    publishes [] cs h /\
    s_serial s = Z.of_nat (length h) mod 4294967296 /\
    s_base s = nth_error h (length h - 1) /\
    forall i old cur,
      nth_error h i = Some old -> nth_error h (length h - 1) = Some cur ->
      Z.of_nat (length h) - Z.of_nat (i + 1) <= lifetime ->
      exists vs ks,
        delta_streams s (Z.of_nat (i + 1) mod 4294967296)
          = Ok (vs, ks, SinceOk (s_serial s)) /\
        client_run vs (roas_of old) (roas_of cur) /\ NoDup (map snd vs) /\
        client_run ks (rks_of old) (rks_of cur) /\ NoDup (map snd ks).
Proof.
  intros HL Hc. destruct (reachable_inv lifetime now cs HL Hc) as (s & h & ds & E & HI & HP).
  exists s, h. pose proof HI as [HR HD HB HS HO HC].
  rewrite <- Nat.sub_1_r in HB.
  repeat split; auto.
  intros i old cur Ho Hcur Hw.
  replace (i + 1)%nat with (S i) in * by lia.
  eapply (streams_in_window lifetime s h ds i old cur); eauto.
  rewrite <- Nat.sub_1_r. exact Hcur.
Qed.

Lemma published_unique h cs h1 h2 :
  publishes h cs h1 -> publishes h cs h2 -> h1 = h2.
Proof.
  intros H. revert h2. induction H; intros h2 H2; inversion H2; subst; auto;
    try (match goal with E : _ ++ [_] = [] |- _ => destruct (app_eq_nil _ _ E); discriminate end);
    try (match goal with E : [] = _ ++ [_] |- _ => symmetry in E; destruct (app_eq_nil _ _ E); discriminate end);
    match goal with E : _ ++ [_] = _ ++ [_] |- _ => apply app_inj_tail in E; destruct E as [-> ->] end;
    try (apply IHpublishes; assumption); contradiction.
Qed.

Lemma update_cases_lem lifetime now cs c :
  1 <= lifetime < 2147483648 -> Forall cycle_ok cs -> cycle_ok c ->
  exists s o, vrps_run lifetime (vrps_init lifetime now) cs = Ok s /\
    vrps_update lifetime s c = Ok o /\
    ((u_changed o = false /\ u_state o = s /\
      match c with
      | Validated t => u_err o = None /\ exists p, s_base s = Some p /\ same_data p t
      | _ => u_err o <> None
      end) \/
     (exists t, c = Validated t /\ u_changed o = true /\ u_err o = None /\
        s_base (u_state o) = Some t /\
        s_serial (u_state o) = (s_serial s + 1) mod 4294967296 /\
        s_v0_session (u_state o) = s_v0_session s /\
        s_v1_session (u_state o) = s_v1_session s /\
        forall p, s_base s = Some p -> ~ same_data p t)).
Proof.
  intros HL Hc Hc1. destruct (reachable_inv lifetime now cs HL Hc) as (s & h & ds & E & HI & HP).
  exists s. destruct (update_spec lifetime s h ds c HL HI Hc1) as (o & h' & ds' & Eo & _ & _ & _).
  exists o. split; [exact E|]. split; [exact Eo|].
  destruct c as [|e|t]; cbn in Eo.
  - inversion Eo; subst o; cbn. left. repeat split; auto. discriminate.
  - inversion Eo; subst o; cbn. left. repeat split; auto. discriminate.
  - destruct (s_base s) as [p|] eqn:EB.
    + destruct (compute_deltas p t) as [d|] eqn:ED.
      * destruct (darray_add lifetime (s_deltas s) d) as [da| |] eqn:EA; try discriminate.
        inversion Eo; subst o; cbn. right. exists t. repeat split; auto.
        intros q Eq Hs. inversion Eq; subst q. apply compute_deltas_none in Hs. congruence.
      * inversion Eo; subst o; cbn. left. repeat split; auto.
        exists p. split; [reflexivity|]. apply compute_deltas_none. exact ED.
    + inversion Eo; subst o; cbn. right. exists t. repeat split; auto. discriminate.
Qed.

Lemma window_iff_lem lifetime now cs h s from :
  1 <= lifetime < 2147483648 -> Forall cycle_ok cs ->
  vrps_run lifetime (vrps_init lifetime now) cs = Ok s -> publishes [] cs h ->
  is_u32 from ->
  (h = [] -> delta_streams s from = Ok ([], [], SinceErr EAGAIN)) /\
  (h <> [] ->
   ~ (length h = 1%nat /\ from = (s_serial s + 2147483648) mod 4294967296) ->
   (forall n, 0 <= n <= lifetime -> n < Z.of_nat (length h) ->
      from <> (s_serial s - n) mod 4294967296) ->
   delta_streams s from = Ok ([], [], SinceErr ESRCH)).
Proof.
  intros HL Hc E HP Hf. destruct (reachable_inv lifetime now cs HL Hc) as (s' & h' & ds & E' & HI & HP').
  unfold reachable in E'. rewrite E in E'. inversion E'; subst s'.
  assert (h' = h) by (eapply published_unique; eauto). subst h'.
  destruct HI as [HR HD HB HS HO HC]. split.
  - intros ->. unfold delta_streams, vrps_foreach_delta_since. rewrite HB. reflexivity.
  - intros Hne Hcorner Hout. unfold delta_streams, vrps_foreach_delta_since.
    destruct (s_base s) as [p|] eqn:EB.
    2:{ symmetry in HB. apply nth_error_None in HB. destruct h; [congruence|cbn in HB; lia]. }
    assert (Hsu : is_u32 (s_serial s)) by (rewrite HS; apply wrap32_range).
    pose proof (inv_len _ _ _ HR) as Hlen.
    assert (length h <> 0)%nat by (destruct h; [congruence|cbn; lia]).
    destruct (window_refused (s_serial s) (da_len (s_deltas s)) from Hsu Hf ltac:(lia))
      as [W1 W2].
    + intros n Hn. apply Hout; lia.
    + intros [Hz Hfr]. apply Hcorner. split; [lia|exact Hfr].
    + destruct (Z.eqb_spec from (s_serial s)); [contradiction|].
      destruct (serial_lt from (wrap32 (s_serial s - da_len (s_deltas s)))); [reflexivity|].
      destruct W2 as [W2|W2]; [discriminate|]. rewrite W2. reflexivity.
Qed.

Lemma sessions_lem lifetime now cs s :
  vrps_run lifetime (vrps_init lifetime now) cs = Ok s ->
  s_v0_session s = now mod 65536 /\ 0 <= s_v0_session s < 65536 /\
  0 <= s_v1_session s < 65536 /\ s_v0_session s <> s_v1_session s /\
  s_v1_session s = s_v1_session (vrps_init lifetime now).
Proof.
  assert (Hpres : forall s0, vrps_run lifetime s0 cs = Ok s ->
            s_v0_session s = s_v0_session s0 /\ s_v1_session s = s_v1_session s0).
  { induction cs as [|c t IH]; cbn; intros s0 E.
    - inversion E; subst; auto.
    - destruct (vrps_update lifetime s0 c) as [o| |] eqn:Eo; cbn in E; try discriminate.
      destruct (IH _ E) as [I1 I2]. rewrite I1, I2. clear IH E I1 I2.
      unfold vrps_update in Eo. destruct c as [|e|tb]; try (inversion Eo; subst; auto; fail).
      destruct (s_base s0); [|inversion Eo; subst; auto].
      destruct (compute_deltas d tb); [|inversion Eo; subst; auto].
      destruct (darray_add lifetime (s_deltas s0) d0); inversion Eo; subst; auto. }
  intros E. destruct (Hpres _ E) as [H0 H1]. rewrite H0, H1. cbn.
  replace (Z.land now 65535) with (now mod 65536).
  2:{ change 65535 with (Z.ones 16). rewrite Z.land_ones by lia. reflexivity. }
  assert (0 <= now mod 65536 < 65536) by (apply Z.mod_pos_bound; lia).
  destruct (Z.eqb_spec (now mod 65536) 0); repeat split; lia.
Qed.

(** Router key expansion. *)
Lemma add_rk_In t ski asn spk k :
  In k (t_rks (rtrhandler_handle_router_key t ski asn spk)) <->
  In k (t_rks t) \/ k = {| rk_ski := ski; rk_asn := asn; rk_spk := spk |}.
Proof. cbn. apply (hs_add_In rk_equals rk_equals_eq). Qed.

Lemma handle_router_key_loop_In fuel t ski spk asn max k :
  0 <= asn -> max < 4294967296 -> (Z.to_nat (max - asn + 1) < fuel)%nat ->
  In k (t_rks (handle_router_key_loop fuel t ski spk asn max)) <->
  In k (t_rks t) \/ exists a, asn <= a <= max /\
     k = {| rk_ski := ski; rk_asn := a; rk_spk := spk |}.
Proof.
  revert t asn; induction fuel as [|f IH]; intros t asn H0 Hm Hf; [lia|]. cbn [handle_router_key_loop].
  destruct (Z.leb_spec asn max).
  - rewrite IH by lia. rewrite add_rk_In, wrap32_id by (unfold is_u32; lia).
    split.
    + intros [[Hk| ->]|(a & Ha & ->)]; [left; exact Hk| |].
      * right. exists asn. split; [lia|reflexivity].
      * right. exists a. split; [lia|reflexivity].
    + intros [Hk|(a & Ha & ->)]; [left; left; exact Hk|].
      destruct (Z.eq_dec a asn) as [->|Hne]; [left; right; reflexivity|].
      right. exists a. split; [lia|reflexivity].
  - split; [auto|]. intros [Hk|(a & Ha & _)]; [exact Hk|lia].
Qed.

Lemma handle_router_key_roas fuel t ski spk asn max :
  t_roas (handle_router_key_loop fuel t ski spk asn max) = t_roas t.
Proof.
  revert t asn; induction fuel as [|f IH]; intros t asn; cbn; [reflexivity|].
  destruct (asn <=? max); [|reflexivity]. rewrite IH. reflexivity.
Qed.

Lemma handle_router_key_lem t ski spk amin amax :
  0 <= amin -> amax < 4294967296 ->
  (forall k, In k (t_rks (handle_router_key t ski spk amin amax)) <->
    In k (t_rks t) \/ exists a, amin <= a <= amax /\
     k = {| rk_ski := ski; rk_asn := a; rk_spk := spk |}) /\
  t_roas (handle_router_key t ski spk amin amax) = t_roas t.
Proof.
  intros H0 Hm. split.
  - intros k. unfold handle_router_key.
    destruct (Z_lt_le_dec amax amin).
    + replace (amax - amin + 2) with (amax - amin + 2) by lia.
      destruct (Z.to_nat (amax - amin + 2)) as [|f] eqn:Ef.
      * cbn. split; [auto|]. intros [Hk|(a & Ha & _)]; [exact Hk|lia].
      * apply handle_router_key_loop_In; lia.
    + apply handle_router_key_loop_In; lia.
  - apply handle_router_key_roas.
Qed.
