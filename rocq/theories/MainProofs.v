From Verif Require Import Base BaseLemmas Types DArray DbTable Vrps VrpsSpec VrpsProofs VrpsProofs2 VrpsProps Main MainSpec.
Notation length := List.length.

Lemma publishes_app h a h1 b h2 : publishes h a h1 -> publishes h1 b h2 -> publishes h (a ++ b) h2.
Proof. induction 1; intros K; cbn [app]; [exact K|apply pub_failed|apply pub_slurm_failed|apply pub_first|apply pub_same|apply pub_new]; auto. Qed.
Lemma vrps_run_app lifetime a : forall s b, vrps_run lifetime s (a ++ b) = bind (vrps_run lifetime s a) (fun s => vrps_run lifetime s b).
Proof.
  induction a as [|c a IH]; intros s b; cbn [app vrps_run bind]; [reflexivity|]. destruct (vrps_update lifetime s c) as [o|e|]; cbn [bind]; [apply IH|reflexivity|reflexivity].
Qed.

(** One cycle after some others. *)
Lemma one_cycle lifetime now cs0 c s h0 :
  1 <= lifetime < 2147483648 -> Forall cycle_ok cs0 -> cycle_ok c -> vrps_run lifetime (vrps_init lifetime now) cs0 = Ok s -> publishes [] cs0 h0 ->
  exists o h, vrps_update lifetime s c = Ok o /\ vrps_run lifetime (vrps_init lifetime now) (cs0 ++ [c]) = Ok (u_state o) /\ publishes [] (cs0 ++ [c]) h /\
    s_serial (u_state o) = Z.of_nat (length h) mod 4294967296 /\ s_base (u_state o) = nth_error h (length h - 1) /\
    ((u_changed o = false /\ h = h0 /\ match c with Validated t => u_err o = None /\ exists p, s_base s = Some p | ValidationFailed => u_err o = Some EINVAL | SlurmFailed e => u_err o = Some e end) \/
     (exists t, c = Validated t /\ u_changed o = true /\ u_err o = None /\ h = h0 ++ [t])).
Proof.
  intros L F0 Fc R P. destruct (C06_serial_advances_iff_data_changes lifetime now cs0 c L F0 Fc) as (s1 & o & R1 & U & K). rewrite R in R1. injection R1 as <-.
  destruct (C05_incremental_updates_converge lifetime now cs0 L F0) as (s1 & h1 & R1 & P1 & _ & B & _). rewrite R in R1. injection R1 as <-. pose proof (C05_history_unique _ _ _ P P1) as <-.
  assert (F1: Forall cycle_ok (cs0 ++ [c])) by (apply Forall_app; split; [exact F0|repeat constructor; exact Fc]).
  assert (R2: vrps_run lifetime (vrps_init lifetime now) (cs0 ++ [c]) = Ok (u_state o)) by (rewrite vrps_run_app, R; cbn [bind vrps_run]; rewrite U; reflexivity).
  destruct (C05_incremental_updates_converge lifetime now (cs0 ++ [c]) L F1) as (s2 & h & R3 & P2 & S2 & B2 & _). rewrite R2 in R3. injection R3 as <-.
  exists o, h. split; [exact U|]. split; [exact R2|]. split; [exact P2|]. split; [exact S2|]. split; [exact B2|].
  destruct K as [(K1 & K2 & K3)|(t & -> & K1 & K2 & K3 & _ & _ & _ & K4)].
  - left. split; [exact K1|]. split.
    + apply (C05_history_unique _ _ _ P2). eapply publishes_app; [exact P|]. destruct c as [|e|t]; [repeat constructor|repeat constructor|]. destruct K3 as (_ & p & Bp & Sd). rewrite B in Bp.
      destruct h0 as [|x h0] using rev_ind; [discriminate|]. rewrite app_length in Bp. cbn in Bp. rewrite Nat.add_sub, nth_error_app2, Nat.sub_diag in Bp by lia. injection Bp as ->. apply pub_same; [exact Sd|constructor].
    + destruct c as [|e|t]; cbn in U; [injection U as <-; reflexivity|injection U as <-; reflexivity|]. destruct K3 as (A & p & E & _). split; [exact A|exists p; exact E].
  - right. exists t. split; [reflexivity|]. split; [exact K1|]. split; [exact K2|]. apply (C05_history_unique _ _ _ P2). eapply publishes_app; [exact P|].
    destruct h0 as [|x h0] using rev_ind; [cbn; constructor; constructor|]. clear IHh0. rewrite <- app_assoc. apply pub_new; [|constructor]. apply (K4 x). rewrite B, app_length. cbn. rewrite Nat.add_sub, nth_error_app2, Nat.sub_diag by lia. reflexivity.
Qed.

Definition serial_number (i : nat) : res Z := Ok (Z.of_nat (S i) mod 4294967296).
Lemma last_serial s h : s_serial s = Z.of_nat (length h) mod 4294967296 -> s_base s = nth_error h (length h - 1) -> h <> [] -> get_last_serial_number s = serial_number (length h - 1).
Proof.
  intros Hs B N. unfold get_last_serial_number, serial_number. rewrite B, Hs. destruct h as [|x h]; [contradiction|]. cbn [length]. replace (S (length h) - 1)%nat with (length h) by lia.
  destruct (nth_error (x :: h) (length h)) eqn:E; [reflexivity|]. apply nth_error_None in E. cbn in E. lia.
Qed.
Lemma notified_app a b : notified (a ++ b) = notified a ++ notified b.
Proof. unfold notified. apply flat_map_app. Qed.

Definition code (c : cycle) : Z := match c with Validated _ => 0 | ValidationFailed => 22 | SlurmFailed e => errno_of e end.
Lemma main_loop_spec lifetime now : 1 <= lifetime < 2147483648 -> forall cs cs0 s h0,
  Forall cycle_ok cs0 -> Forall cycle_ok cs -> Forall uninterrupted cs -> vrps_run lifetime (vrps_init lifetime now) cs0 = Ok s -> publishes [] cs0 h0 ->
  exists p h more, main_loop lifetime s cs = Ok p /\ p_returned p = None /\ publishes [] (cs0 ++ cs) h /\ h = h0 ++ more /\
    vrps_run lifetime (vrps_init lifetime now) (cs0 ++ cs) = Ok (p_state p) /\
    notified (p_events p) = map serial_number (seq (length h0) (length more)) /\ results (p_events p) = map code cs /\
    initialised (p_events p) = [] /\ cleaned_up (p_events p) = [] /\ rtr_runs true (p_events p) = true.
Proof.
  intros L. induction cs as [|c cs IH]; intros cs0 s h0 F0 F U R P.
  - exists {| p_state := s; p_events := []; p_returned := None |}, h0, []. cbn. rewrite !app_nil_r. auto 10.
  - inversion F as [|? ? Fc F']; subst. inversion U as [|? ? Uc U']; subst. destruct (one_cycle lifetime now cs0 c s h0 L F0 Fc R P) as (o & h1 & Ho & R1 & P1 & S1 & B1 & K).
    assert (F1: Forall cycle_ok (cs0 ++ [c])) by (apply Forall_app; split; [exact F0|repeat constructor; exact Fc]).
    destruct (IH (cs0 ++ [c]) (u_state o) h1 F1 F' U' R1 P1) as (p & h & more & M & Rt & Ph & Eh & Rn & N & Rs & I1 & I2 & I3). rewrite <- app_assoc in Ph, Rn. cbn [app] in Ph, Rn.
    assert (Hc: result_of o = code c).
    { unfold result_of. destruct K as [(_ & _ & K)|(t & -> & _ & -> & _)]; [|reflexivity]. destruct c; [rewrite K; reflexivity|rewrite K; reflexivity|destruct K as (-> & _); reflexivity]. }
    assert (NI: code c <> - EINTR) by (destruct c; cbn in *; [discriminate|tauto|discriminate]).
    cbn [main_loop]. rewrite Ho. cbn [bind]. cbv zeta. rewrite Hc. destruct (Z.eqb_spec (code c) (- EINTR)); [contradiction|]. rewrite M. cbn [bind].
    eexists. exists h. destruct K as [(K1 & -> & K3)|(t & -> & K1 & K2 & ->)].
    + exists more. split; [reflexivity|]. cbn [p_returned p_state p_events]. rewrite K1. split; [exact Rt|]. split; [exact Ph|]. split; [exact Eh|]. split; [exact Rn|].
      destruct (code c =? 0); cbn [app]; (split; [exact N|]); cbn; rewrite <- ?Rs; auto.
    + exists (t :: more). split; [reflexivity|]. cbn [p_returned p_state p_events code]. rewrite K1. split; [exact Rt|]. split; [exact Ph|]. split; [rewrite Eh, <- app_assoc; reflexivity|]. split; [exact Rn|].
      assert (h0 ++ [t] <> []) as NE by (destruct h0; discriminate). rewrite (last_serial _ _ S1 B1 NE). rewrite app_length in *. cbn [length] in *. rewrite Nat.add_sub. split.
      * cbn [Z.eqb app notified flat_map]. fold (notified (p_events p)). rewrite N. cbn [seq map]. replace (S (length h0)) with (length h0 + 1)%nat by lia. reflexivity.
      * cbn. rewrite <- Rs. auto.
Qed.
