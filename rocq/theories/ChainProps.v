(** C101: a certificate is accepted only if its path is fine and its issuer's CRL doesn't revoke it. *)
From Coq Require Import ZArith List Bool Lia.
From Verif Require Import Base Manifest Chain ChainSpec ChainProofs.
Import ListNotations.
Open Scope list_scope.
Open Scope Z_scope.

(** errno isn't 0 after an error. *)
Definition sane (S : surroundings) : Prop := forall e, now S = inl e -> e <> 0.

(** libcrypto goes on after the unknown critical extensions, and after no other error. *)
Theorem C101_callback error : cb 0 error <> 0 <-> error = 34.
Proof. unfold cb, V_ERR_UNHANDLED_CRITICAL_EXTENSION. destruct (error =? 34) eqn:E; [apply Z.eqb_eq in E|apply Z.eqb_neq in E]; split; congruence. Qed.

Lemma pop1 (l : list crl) c : sk_pop (l ++ [c]) = (Some c, l).
Proof. unfold sk_pop. rewrite rev_app_distr. cbn. rewrite rev_involutive. reflexivity. Qed.

(** The second verification, of a CRL's clone. *)
Definition clone_of (S : surroundings) (t : Z) (c : crl) : crl :=
  if set1 S then {| issued := issued c; authentic := authentic c && negb (notices S); lastUpdate := lastUpdate c; nextUpdate := Some (t + 60); revoked := revoked c |} else c.
Lemma stale_spec S s c : sane S ->
  exists r crls ev, verify_cert_crl_stale S s [c] = Returns r crls ev /\
    (crls = [c] \/ (crls = [] /\ push S 1 = false /\ r <> 0)) /\
    (r = 0 <-> ctx_new S 1 = true /\ ctx_init S 1 = true /\ adj S = true /\ dup S = true /\ push S 0 = true /\ push S 1 = true /\
       exists t, now S = inr t /\ 0 < fst (X509_verify_cert (second S) s [clone_of S t c])) /\
    (ev = [] \/ ev = [CtxNew; CtxFree] \/ ev = [CtxNew; Clone; FreeClone; CtxFree]).
Proof.
  intros SA. unfold verify_cert_crl_stale.
  destruct (ctx_new S 1) eqn:E1; cbn [negb]; [|do 3 eexists; split; [reflexivity|]; split; [auto|]; split; [split; [discriminate|intros (Q&_); discriminate Q]|auto]].
  destruct (ctx_init S 1) eqn:E2; cbn [negb]; [|do 3 eexists; split; [reflexivity|]; split; [auto|]; split; [split; [discriminate|intros (_&Q&_); discriminate Q]|auto]].
  change (sk_pop [c]) with (sk_pop ([] ++ [c])). rewrite pop1. unfold update_crl_time.
  destruct (now S) as [e|t] eqn:E3.
  { assert (N : e <> 0) by (apply SA; exact E3). replace (e =? 0) with false by (symmetry; apply Z.eqb_neq; exact N). cbn [negb].
    destruct (push S 1) eqn:P1; do 3 eexists; (split; [reflexivity|]); cbn [app].
    - split; [auto|]. split; [|auto]. split; [congruence|]. intros (_&_&_&_&_&_&t&Q&_). discriminate Q.
    - split; [right; repeat split; auto; discriminate|]. split; [|auto]. split; [discriminate|]. intros (_&_&_&_&_&Q&_). discriminate Q. }
  destruct (adj S) eqn:E4; cbn [negb].
  2:{ cbn [Z.eqb negb]. change (- c_EINVAL =? 0) with false. cbn [negb]. destruct (push S 1) eqn:P1; do 3 eexists; (split; [reflexivity|]); cbn [app].
    - split; [auto|]. split; [|auto]. split; [discriminate|]. intros (_&_&Q&_). discriminate Q.
    - split; [right; repeat split; auto; discriminate|]. split; [|auto]. split; [discriminate|]. intros (_&_&Q&_). discriminate Q. }
  destruct (dup S) eqn:E5; cbn [negb].
  2:{ change (- c_EINVAL =? 0) with false. cbn [negb]. destruct (push S 1) eqn:P1; do 3 eexists; (split; [reflexivity|]); cbn [app].
    - split; [auto|]. split; [|auto]. split; [discriminate|]. intros (_&_&_&Q&_). discriminate Q.
    - split; [right; repeat split; auto; discriminate|]. split; [|auto]. split; [discriminate|]. intros (_&_&_&Q&_). discriminate Q. }
  destruct (push S 0) eqn:E6.
  2:{ change (- c_EINVAL =? 0) with false. cbn [negb]. destruct (push S 1) eqn:P1; do 3 eexists; (split; [reflexivity|]); cbn [app].
    - split; [auto|]. split; [|auto]. split; [discriminate|]. intros (_&_&_&_&Q&_). discriminate Q.
    - split; [right; repeat split; auto; discriminate|]. split; [|auto]. split; [discriminate|]. intros (_&_&_&_&Q&_). discriminate Q. }
  cbn [Z.eqb negb]. fold (clone_of S t c). rewrite pop1. cbn [app].
  destruct (push S 1) eqn:P1; do 3 eexists; (split; [reflexivity|]).
  - split; [auto|]. split; [|auto]. destruct (0 <? fst (X509_verify_cert (second S) s [clone_of S t c])) eqn:V.
    + apply Z.ltb_lt in V. split; [intros _; repeat split; auto; eauto|auto].
    + apply Z.ltb_ge in V. split; [discriminate|]. intros (_&_&_&_&_&_&t'&Q&L). injection Q as <-. lia.
  - split; [right; repeat split; auto; discriminate|]. split; [|auto]. split; [discriminate|]. intros (_&_&_&_&_&Q&_). discriminate Q.
Qed.

(** One of the calls. *)
Lemma chain_spec stale S s c : sane S ->
  exists r crls ev, certificate_validate_chain stale S s (Some [c]) = Returns r crls ev /\
    (crls = [c] \/ (crls = [] /\ push S 1 = false /\ r <> 0)) /\
    (r = 0 <-> ctx_new S 0 = true /\ ctx_init S 0 = true /\
       (0 < fst (X509_verify_cert (first S) s [c]) \/
        (X509_verify_cert (first S) s [c] = (0, V_ERR_CRL_HAS_EXPIRED) /\ stale <> INAC_ERROR /\
         ctx_new S 1 = true /\ ctx_init S 1 = true /\ adj S = true /\ dup S = true /\ push S 0 = true /\ push S 1 = true /\
         exists t, now S = inr t /\ 0 < fst (X509_verify_cert (second S) s [clone_of S t c])))) /\
    (ev = [] \/ ev = [CtxNew; CtxFree] \/ ev = [CtxNew; CtxFree; CtxNew; CtxFree] \/ ev = [CtxNew; CtxFree; CtxNew; Clone; FreeClone; CtxFree]).
Proof.
  intros SA. unfold certificate_validate_chain.
  destruct (ctx_new S 0) eqn:E1; cbn [negb]; [|do 3 eexists; split; [reflexivity|]; split; [auto|]; split; [split; [discriminate|intros (Q&_); discriminate Q]|auto]].
  destruct (ctx_init S 0) eqn:E2; cbn [negb]; [|do 3 eexists; split; [reflexivity|]; split; [auto|]; split; [split; [discriminate|intros (_&Q&_); discriminate Q]|auto]].
  pose proof (verify_01 (first S) s [c]) as V01. destruct (X509_verify_cert (first S) s [c]) as [ok error] eqn:V. cbn [fst] in *.
  destruct (0 <? ok) eqn:OK.
  { apply Z.ltb_lt in OK. do 3 eexists. split; [reflexivity|]. split; [auto|]. split; [|auto]. split; auto. }
  apply Z.ltb_ge in OK. assert (ok = 0) by lia. subst ok.
  destruct (error =? 0) eqn:EZ.
  { apply Z.eqb_eq in EZ. subst error. do 3 eexists. split; [reflexivity|]. split; [auto|]. split; [|auto]. split; [discriminate|].
    intros (_&_&[Q|(Q&_)]); [lia|discriminate Q]. }
  destruct (error =? V_ERR_CRL_HAS_EXPIRED) eqn:EX; cbn [negb].
  2:{ apply Z.eqb_neq in EX. do 3 eexists. split; [reflexivity|]. split; [auto|]. split; [|auto]. split; [discriminate|].
    intros (_&_&[Q|(Q&_)]); [lia|congruence]. }
  apply Z.eqb_eq in EX. subst error. cbn [complain_crl_stale].
  destruct (incidence stale =? 0) eqn:I; cbn [negb].
  2:{ do 3 eexists. split; [reflexivity|]. split; [auto|]. split; [|auto]. split; [discriminate|].
    intros (_&_&[Q|(_&N&_)]); [lia|]. destruct stale; try discriminate I; congruence. }
  assert (NS : stale <> INAC_ERROR) by (destruct stale; [discriminate|discriminate|discriminate I]).
  destruct (stale_spec S s c SA) as (r&crls&ev&Q&A&B&D). rewrite Q. do 3 eexists. split; [reflexivity|]. split; [exact A|]. split.
  - rewrite B. split; [intros H; repeat split; auto; right; repeat split; tauto|]. intros (_&_&[L|(_&_&H)]); [lia|exact H].
  - destruct D as [->|[->| ->]]; cbn [app]; auto.
Qed.

(** A certificate is accepted only if libcrypto finds nothing wrong with its path (but what's validated
    elsewhere), the CRL is its issuer's, is genuine, has begun and doesn't have the certificate; and it's
    current, unless the user tolerates stale CRLs.  A tolerated CRL revokes all the same. *)
Theorem C101_sound stale S s c crls ev : sane S -> certificate_validate_chain stale S s (Some [c]) = Returns 0 crls ev ->
  path_fine s /\ not_revoked c s /\ begun c (first S) /\ (stale_at c (first S) -> stale <> INAC_ERROR).
Proof.
  intros SA H. destruct (chain_spec stale S s c SA) as (r&crls'&ev'&Q&_&B&_). rewrite H in Q. injection Q as <- <- <-.
  destruct (proj1 B eq_refl) as (_&_&[V|(X&N&_&_&_&_&_&_&t&_&V)]).
  - apply verify_iff in V. tauto.
  - apply verify_iff in V. destruct V as (P&NR&_). apply (expired_iff _ _ _ P) in X. destruct X as (I&B1&_). split; [exact P|].
    split; [|auto]. unfold clone_of in NR. destruct (set1 S); [|exact NR]. destruct NR as (_&AU&R). cbn [authentic revoked serial] in *.
    apply andb_true_iff in AU. split; [exact I|]. split; [apply AU|exact R].
Qed.

(** If nothing runs out of memory (and the second verification comes within a minute), those certificates are
    accepted; those of stale CRLs, if libcrypto doesn't notice that FORT edits the CRL. *)
Theorem C101_complete stale S s c t : memory S -> now S = inr t -> first S <= second S < t + 60 ->
  path_fine s -> not_revoked c s -> begun c (first S) -> (stale_at c (first S) -> stale <> INAC_ERROR /\ notices S = false) ->
  exists ev, certificate_validate_chain stale S s (Some [c]) = Returns 0 [c] ev.
Proof.
  intros (M1&M2&_&M4&M5&M6&M7) T TT P NR B ST.
  assert (SA : sane S) by (intros e E; congruence).
  destruct (chain_spec stale S s c SA) as (r&crls&ev&Q&A&R&_).
  assert (R0 : r = 0).
  { apply R. split; [apply M1|]. split; [apply M2|].
    destruct (match nextUpdate c with Some n => first S <? n | None => true end) eqn:F.
    - apply fresh_iff in F. left. apply verify_iff. tauto.
    - assert (STL : stale_at c (first S)).
      { unfold stale_at. destruct (nextUpdate c) as [n|]; [|discriminate F]. exists n. split; [reflexivity|]. apply Z.ltb_ge in F. exact F. }
      destruct (ST STL) as [N NT]. right. split; [apply expired_iff; [exact P|]; split; [apply NR|auto]|]. split; [exact N|].
      repeat split; auto. exists t. split; [exact T|]. apply verify_iff. unfold clone_of. rewrite M6, NT. cbn [negb].
      split; [exact P|]. unfold not_revoked, begun, stale_at in *. cbn [issued authentic revoked lastUpdate nextUpdate]. rewrite andb_true_r.
      split; [exact NR|]. split; [lia|]. intros (n&E&L). injection E as <-. lia. }
  subst r. destruct A as [->|(_&_&N)]; [|congruence]. eauto.
Qed.

(** The CRL is where it was after every call, unless libcrypto can't put it back, and contexts and clones are
    freed; the process goes on. *)
Definition count (x : event) (l : list event) : nat := length (filter (fun y => match x, y with CtxNew, CtxNew | CtxFree, CtxFree | Clone, Clone | FreeClone, FreeClone => true | _, _ => false end) l).
Theorem C101_restored stale S s c : sane S -> exists r crls ev, certificate_validate_chain stale S s (Some [c]) = Returns r crls ev /\
  (push S 1 = true -> crls = [c]) /\ (crls <> [c] -> crls = [] /\ r <> 0) /\
  count CtxNew ev = count CtxFree ev /\ count Clone ev = count FreeClone ev.
Proof.
  intros SA. destruct (chain_spec stale S s c SA) as (r&crls&ev&Q&A&_&E). exists r, crls, ev. split; [exact Q|].
  split; [intros P; destruct A as [A|(_&N&_)]; [exact A|congruence]|]. split; [intros N; destruct A as [A|(A&_&R)]; [contradiction|auto]|].
  destruct E as [->|[->|[->| ->]]]; auto.
Qed.

(** *** A publication point's certificates, of any number *)
Definition reported (s : subject) : Prop := ~ In (Some 12) (path_extensions s) /\ ~ In (Some 12) (path_signatures s).
Lemma no_crls stale S s : reported s -> exists r ev, certificate_validate_chain stale S s (Some []) = Returns r [] ev /\ r <> 0 /\
  count CtxNew ev = count CtxFree ev /\ count Clone ev = count FreeClone ev.
Proof.
  intros [R1 R2]. unfold certificate_validate_chain. destruct (ctx_new S 0); cbn [negb]; [|do 2 eexists; split; [reflexivity|]; split; [discriminate|auto]].
  destruct (ctx_init S 0); cbn [negb]; [|do 2 eexists; split; [reflexivity|]; split; [discriminate|auto]].
  pose proof (verify_none (first S) s) as V. destruct (X509_verify_cert (first S) s []) as [ok e] eqn:E. cbn [fst] in V. subst ok. cbn [Z.ltb Z.compare].
  assert (NE : e <> 12).
  { unfold X509_verify_cert in E. match type of E with run_checks ?l 0 = _ => destruct (run_spec l 0) as [[_ [x R]]|(l1&x&l2&Q&F&N&R)] end; rewrite R in E; [discriminate E|].
    injection E as <-. intros ->. assert (I : In (Some 12) (path_extensions s ++ crl_checks (first S) [] (serial s) ++ path_signatures s)) by (rewrite Q; apply in_app_iff; right; left; reflexivity).
    rewrite !in_app_iff in I. destruct I as [I|[[I|[]]|I]]; [contradiction|discriminate I|contradiction]. }
  destruct (e =? 0); [do 2 eexists; split; [reflexivity|]; split; [discriminate|auto]|].
  replace (e =? V_ERR_CRL_HAS_EXPIRED) with false by (symmetry; apply Z.eqb_neq; exact NE). cbn [negb].
  do 2 eexists; split; [reflexivity|]; split; [discriminate|auto].
Qed.

Lemma count_app x a b : count x (a ++ b) = (count x a + count x b)%nat.
Proof. unfold count. rewrite filter_app, app_length. reflexivity. Qed.

(** However many certificates are validated with the CRL, and whatever fails meanwhile, none of the revoked
    ones (and so on) is accepted, everything's freed and the process goes on. *)
Theorem C101_all stale l c : (forall S s, In (S, s) l -> sane S /\ reported s) ->
  exists rs crls ev, validate_all stale l [c] = Some (rs, crls, ev) /\ length rs = length l /\
    (forall i S s, nth_error l i = Some (S, s) -> nth_error rs i = Some 0 ->
       path_fine s /\ not_revoked c s /\ begun c (first S) /\ (stale_at c (first S) -> stale <> INAC_ERROR)) /\
    count CtxNew ev = count CtxFree ev /\ count Clone ev = count FreeClone ev.
Proof.
  assert (G : forall l crls0, crls0 = [c] \/ crls0 = [] -> (forall S s, In (S, s) l -> sane S /\ reported s) ->
    exists rs crls ev, validate_all stale l crls0 = Some (rs, crls, ev) /\ length rs = length l /\
    (forall i S s, nth_error l i = Some (S, s) -> nth_error rs i = Some 0 ->
       path_fine s /\ not_revoked c s /\ begun c (first S) /\ (stale_at c (first S) -> stale <> INAC_ERROR)) /\
    count CtxNew ev = count CtxFree ev /\ count Clone ev = count FreeClone ev).
  { clear l. induction l as [|[S s] l IH]; intros crls0 C H; cbn [validate_all].
    - exists [], crls0, []. repeat split; auto; destruct i; discriminate.
    - destruct (H S s (or_introl eq_refl)) as [SA RE].
      assert (X : exists r crls ev, certificate_validate_chain stale S s (Some crls0) = Returns r crls ev /\ (crls = [c] \/ crls = []) /\
        (r = 0 -> path_fine s /\ not_revoked c s /\ begun c (first S) /\ (stale_at c (first S) -> stale <> INAC_ERROR)) /\
        count CtxNew ev = count CtxFree ev /\ count Clone ev = count FreeClone ev).
      { destruct C as [->| ->].
        - destruct (C101_restored stale S s c SA) as (r&crls&ev&Q&A&B&D&E). exists r, crls, ev. split; [exact Q|]. split.
          { destruct (chain_spec stale S s c SA) as (r'&crls'&ev'&Q'&[->|(->&_)]&_); rewrite Q in Q'; injection Q' as <- <- <-; auto. }
          split; [|auto]. intros ->. eapply C101_sound; eauto.
        - destruct (no_crls stale S s RE) as (r&ev&Q&N&D&E). exists r, [], ev. split; [exact Q|]. split; [auto|]. split; [congruence|auto]. }
      destruct X as (r&crls&ev&->&C'&Z0&D&E). destruct (IH crls C' (fun S0 s0 I => H S0 s0 (or_intror I))) as (rs&crls'&ev'&->&L&P&D'&E').
      exists (r :: rs), crls', (ev ++ ev'). split; [reflexivity|]. split; [cbn [length]; congruence|]. split.
      + intros [|i] S0 s0 N1 N2; cbn [nth_error] in *; [injection N1 as <- <-; injection N2 as ->; auto|eauto].
      + rewrite !count_app. lia. }
  intros H. apply G; auto.
Qed.

(** Trust anchors have no CRL: none of this is asked of them (their keys are the TAL's: C74). *)
Theorem C101_anchor stale S s : certificate_validate_chain stale S s None = Returns 0 [] [].
Proof. reflexivity. Qed.

(** *** Examples and limits *)
Definition ex_crl : crl := {| issued := true; authentic := true; lastUpdate := 100; nextUpdate := Some 200; revoked := [5; 9] |}.
Definition ex_s (n : Z) : subject := {| serial := n; path_extensions := [Some 34; None]; path_signatures := [None; None] |}.
Definition ex_sur (t : Z) (ntc p : bool) : surroundings :=
  {| ctx_new := fun _ => true; ctx_init := fun _ => true; first := t; now := inr t; second := t; adj := true; dup := true; set1 := true;
     notices := ntc; push := fun k => match k with O => true | _ => p end |}.
Example ex_results :
  validate_all INAC_WARN [(ex_sur 150 false true, ex_s 7); (ex_sur 150 false true, ex_s 9); (ex_sur 250 false true, ex_s 7); (ex_sur 250 false true, ex_s 9)] [ex_crl]
  = Some ([0; -22; 0; -22], [ex_crl], [CtxNew; CtxFree; CtxNew; CtxFree; CtxNew; CtxFree; CtxNew; Clone; FreeClone; CtxFree; CtxNew; CtxFree; CtxNew; Clone; FreeClone; CtxFree])
  /\ validate_all INAC_ERROR [(ex_sur 250 false true, ex_s 7)] [ex_crl] = Some ([-22], [ex_crl], [CtxNew; CtxFree]).
Proof. split; reflexivity. Qed.
Example ex_hypotheses : memory (ex_sur 250 false true) /\ path_fine (ex_s 7) /\ not_revoked ex_crl (ex_s 7) /\ begun ex_crl 250 /\ stale_at ex_crl 250 /\ reported (ex_s 7) /\ sane (ex_sur 250 false true).
Proof.
  split; [repeat split; auto; [exists 250; reflexivity|intros [|k]; reflexivity]|]. split; [intros e [[Q|[Q|[]]]|[Q|[Q|[]]]]; congruence|].
  split; [repeat split; cbn; lia|]. split; [unfold begun; cbn; lia|]. split; [exists 200; split; [reflexivity|lia]|].
  split; [split; intros [Q|[Q|[]]]; discriminate Q|intros e Q; discriminate Q].
Qed.

(** If libcrypto notices that the CRL was edited, stale CRLs aren't tolerated, whatever the user says. *)
Theorem C101_tolerance_refuted stale S s c crls ev : sane S -> notices S = true -> first S <= second S -> stale_at c (first S) ->
  certificate_validate_chain stale S s (Some [c]) <> Returns 0 crls ev.
Proof.
  intros SA NT TT ST H. destruct (chain_spec stale S s c SA) as (r&crls'&ev'&Q&_&B&_). rewrite H in Q. injection Q as <- <- <-.
  destruct (proj1 B eq_refl) as (_&_&[V|(X&N&_&_&_&_&_&_&t&_&V)]); apply verify_iff in V; destruct V as (_&NR&_&F); [contradiction|].
  unfold clone_of in NR, F. destruct (set1 S).
  - destruct NR as (_&AU&_). cbn [authentic] in AU. rewrite NT, andb_false_r in AU. discriminate AU.
  - apply F. destruct ST as (n&E&L). exists n. split; [exact E|lia].
Qed.
(** If libcrypto can't put the CRL back, it's lost: the certificates that follow are rejected. *)
Theorem C101_lost_refuted : validate_all INAC_WARN [(ex_sur 250 false false, ex_s 7); (ex_sur 150 false true, ex_s 7)] [ex_crl]
  = Some ([-22; -22], [], [CtxNew; CtxFree; CtxNew; Clone; FreeClone; CtxFree; CtxNew; CtxFree]) /\
  path_fine (ex_s 7) /\ not_revoked ex_crl (ex_s 7) /\ begun ex_crl 150 /\ ~ stale_at ex_crl 150.
Proof.
  split; [reflexivity|]. split; [intros e [[Q|[Q|[]]]|[Q|[Q|[]]]]; congruence|]. split; [repeat split; cbn; lia|]. split; [unfold begun; cbn; lia|].
  intros (n&E&L). injection E as <-. lia.
Qed.

Print Assumptions C101_callback.
Print Assumptions C101_sound.
Print Assumptions C101_complete.
Print Assumptions C101_restored.
Print Assumptions C101_all.
Print Assumptions C101_anchor.
Print Assumptions C101_tolerance_refuted.
Print Assumptions C101_lost_refuted.
