(** C39: the traversal of a trust anchor's tree. *)
From Coq Require Import String.
From Verif Require Import Base CertStack CertStackSpec CertStackProofs.
From Coq Require Import Lia Permutation.
Notation length := List.length.

(** Whatever the checks answer, and whatever the manifests list (cycles included),
    the traversal ends, never pops an empty stack, and is the depth-first walk:
    each certificate found is looked at right then, under its issuers and no other,
    then what its publication point lists.  All three stacks end up empty. *)
Theorem C39_walk E max u : exists es n' k acc,
  walk E max None u [] 0 es n' /\
  (forall fuel, (k <= fuel)%nat -> exists s, handle_tal_uri E max fuel u = Some (Ok (s, acc)) /\
     log s = es /\ defers s = [] /\ x509s s = [] /\ metas s = []) /\
  (acc = true <-> exists pp, accepted E max 0 None u [] pp).
Proof.
  destruct (root_walk E max u) as (es&n'&W&[[Hn Hf]|[Ha [j Hf]]]).
  - exists es, n', O, false. split; [exact W|split].
    + intros fuel _. destruct (Hf fuel) as (s&->&->). eexists. repeat split.
    + split; [discriminate|]. intros [pp H]. exfalso. eapply Hn; eauto.
  - exists es, n', (S j), true. split; [exact W|split].
    + intros fuel Hk. exists (mk [] [] es n'). replace fuel with (S j + (fuel - S j))%nat by lia. rewrite Hf. repeat split.
    + split; auto.
Qed.

(** There's only one such walk. *)
Theorem C39_walk_unique E max pp u iss n es n' es2 n2 : walk E max pp u iss n es n' -> walk E max pp u iss n es2 n2 -> es2 = es /\ n2 = n'.
Proof. intros H K. destruct (walk_fun_both E max) as [F _]. eapply F; eauto. Qed.

(** Whenever the traversal is over, in particular: *)
Lemma C39_over E max fuel u r : handle_tal_uri E max fuel u = Some r -> exists s acc n', r = Ok (s, acc) /\ walk E max None u [] 0 (log s) n'.
Proof.
  intros H. destruct (C39_walk E max u) as (es&n'&k&acc&W&F&_).
  destruct (F (fuel + k)%nat ltac:(lia)) as (s&Hs&Hl&_).
  assert (handle_tal_uri E max (fuel + k) u = Some r) as K.
  { revert H. unfold handle_tal_uri. destruct (certificate_traverse E max None u certstack_create) as [[s1 e]| |]; auto.
    destruct (negb (e =? 0)); auto. destruct (tal_loop E max fuel s1) as [t|] eqn:T; [|discriminate].
    rewrite (tal_mono E max fuel k s1 t T). auto. }
  rewrite Hs in K. injection K as <-. exists s, acc, n'. rewrite Hl. auto.
Qed.

(** Each object is looked at under the chain of certificates that leads to it: its
    nearest issuer was itself looked at, under the rest of the chain, was accepted,
    and it's its publication point that lists the object. *)
Theorem C39_chain E max fuel u s acc : handle_tal_uri E max fuel u = Some (Ok (s, acc)) ->
  forall e, In e (log s) ->
  match e with
  | Cert None v iss => v = u /\ iss = []
  | Cert (Some pp) v iss => exists c rest ppc m, iss = c :: rest /\ In v (pp_certs pp) /\ In (Cert ppc c rest) (log s) /\ accepted E max m ppc c rest pp
  | Roa pp v iss => exists c rest ppc m, iss = c :: rest /\ In v (pp_roas pp) /\ In (Cert ppc c rest) (log s) /\ accepted E max m ppc c rest pp
  | Gbr pp v iss => exists c rest ppc m, iss = c :: rest /\ In v (pp_gbrs pp) /\ In (Cert ppc c rest) (log s) /\ accepted E max m ppc c rest pp
  end.
Proof.
  intros H e He. destruct (C39_over _ _ _ _ _ H) as (s'&acc'&n'&Hr&W). injection Hr as <- <-.
  destruct (walk_chain_both E max) as [F _].
  assert (K := F _ _ _ _ _ _ W (log s) (incl_refl _) eq_refl). rewrite Forall_forall in K. specialize (K e He).
  destruct e as [[pp|] v i|pp v i|pp v i]; cbn in K; try (destruct K as (c&rest&->&Hin&ppc&m&Hc&Ha); exists c, rest, ppc, m; auto).
  split; auto. destruct (walk_once_both E max) as [G _]. destruct (G _ _ _ _ _ _ W) as (rest&ks&Hc&_&Hk&Hp).
  assert (Hi : In (None, v, i) (certs_of (log s))). { unfold certs_of. apply in_flat_map. exists (Cert None v i). split; auto. left; auto. }
  rewrite Hc in Hi. destruct Hi as [Hi|Hi]; [congruence|]. exfalso.
  apply (Permutation_in _ Hp) in Hi. clear - Hk Hi. revert Hi. generalize 0%nat as n, (certs_of (log s)) as cs, Hk. clear.
  intros n cs Hk. induction Hk as [|n c cs k ks Hc Hk IH]; cbn; auto. rewrite in_app_iff. intros [H|H]; auto.
  destruct c as [[pp w] iss]. destruct Hc as [(pp'&_&->)|[_ ->]]; auto. apply in_map_iff in H. destruct H as (x&Hx&_). discriminate.
Qed.

(** Exactly once: the certificates looked at are the root and, for each accepted
    one of them, those its publication point lists, each under that one's own chain;
    as many times each. *)
Theorem C39_once E max fuel u s acc : handle_tal_uri E max fuel u = Some (Ok (s, acc)) ->
  exists rest ks, certs_of (log s) = (None, u, []) :: rest /\ all_kids E max 0 (certs_of (log s)) ks /\ Permutation rest (concat ks).
Proof.
  intros H. destruct (C39_over _ _ _ _ _ H) as (s'&acc'&n'&Hr&W). injection Hr as <- <-.
  destruct (walk_once_both E max) as [G _]. destruct (G _ _ _ _ _ _ W) as (rest&ks&Hc&_&Hk&Hp). eauto.
Qed.

(** No chain is longer than the configured maximum. *)
Theorem C39_depth E max fuel u s acc : handle_tal_uri E max fuel u = Some (Ok (s, acc)) ->
  forall e, In e (log s) -> (length (ev_issuers e) <= max)%nat.
Proof.
  intros H e He. destruct (C39_over _ _ _ _ _ H) as (s'&acc'&n'&Hr&W). injection Hr as <- <-.
  destruct (walk_depth_both E max) as [F _]. assert (K := F _ _ _ _ _ _ W ltac:(cbn; lia)). rewrite Forall_forall in K. auto.
Qed.

(** Non-vacuity: a root with two children, the first of which fails its manifest,
    the second of which lists the root again (a cycle), under a maximum depth of 3. *)
Definition ex_root : uri := [1]. Definition ex_bad : uri := [2]. Definition ex_good : uri := [3]. Definition ex_roa : uri := [4].
Definition ex_pp : rpp := {| pp_certs := [ex_bad; ex_good]; pp_roas := []; pp_gbrs := [] |}.
Definition ex_pp2 : rpp := {| pp_certs := [ex_root]; pp_roas := [ex_roa]; pp_gbrs := [] |}.
Definition ex_checks : checks := {|
  c_crl := fun _ _ _ _ => 0; c_load := fun _ _ _ _ => 0; c_chain := fun _ _ _ _ => 0; c_ctype := fun _ _ _ _ => Some CERTYPE_CA;
  c_rfc6487 := fun _ _ _ _ => 0; c_ext_ta := fun _ _ _ _ => 0; c_ext_ca := fun _ _ _ _ => 0; c_download := fun _ _ _ _ => true;
  c_resources := fun _ _ _ _ => 0; c_push := fun _ _ _ _ => true;
  c_manifest := fun _ _ u _ => match u with [1] => Some ex_pp | [3] => Some ex_pp2 | _ => None end |}.
Example C39_nonvacuous : exists s, handle_tal_uri ex_checks 3 10 ex_root = Some (Ok (s, true)) /\
  log s = [Cert None ex_root [];
           Cert (Some ex_pp) ex_bad [ex_root];
           Cert (Some ex_pp) ex_good [ex_root];
           Roa ex_pp2 ex_roa [ex_good; ex_root];
           Cert (Some ex_pp2) ex_root [ex_good; ex_root];
           Cert (Some ex_pp) ex_bad [ex_root; ex_good; ex_root];
           Cert (Some ex_pp) ex_good [ex_root; ex_good; ex_root]].
Proof. eexists. split; vm_compute; reflexivity. Qed.
