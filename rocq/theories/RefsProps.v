(** C95: the memory that validating a trust anchor's tree uses is never used after it's freed, nor freed twice, nor leaked; whatever
    the checks find. *)
From Verif Require Import Base Refs RefsSpec RefsProofs RefsProofs2 RefsProofs3 RefsProofs4.
Notation length := List.length.

Lemma run_S answers depth n uri s : before s -> refs s uri <> O ->
  wp (handle_tal_uri answers depth n uri) s (fun _ s' => moved s s' (others (refs s) (next s)) [] []).
Proof.
  intros B U. pose proof (before_I s B) as H. pose proof (live_old _ _ _ H U) as O. apply handle_tal_uri_S; [exact H| | |].
  - destruct (in_dec Nat.eq_dec uri (others (refs s) (next s))) as [Y|N]; [exact Y|]. exfalso. apply U.
    pose proof (cnt_others (refs s) (next s) uri) as C. destruct (Nat.ltb_spec uri (next s)); [|lia]. rewrite <- C.
    clear -N. induction (others (refs s) (next s)) as [|x l IH]; [reflexivity|]. cbn in *. rewrite one_other by (intros ->; tauto). apply IH. tauto.
  - split; [exact (proj1 (proj1 (proj2 (proj2 B)) uri))|exact O].
  - unfold balanced. destruct B as (-> & -> & _). reflexivity.
Qed.

(** No object is used, referenced or released after it's been freed, and no pr_crit() is reached: for any URI of the TAL that the caller holds, any results of the checks,
    any depth limit, and at any moment of the validation (the one at which [n] certificates have been taken from the stack). *)
Theorem C95_no_use_after_free answers max_depth n uri s : before s -> refs s uri <> O -> handle_tal_uri answers max_depth n uri s <> UB.
Proof. intros B U E. pose proof (run_S answers max_depth n uri s B U) as W. unfold wp in W. rewrite E in W. exact W. Qed.
Print Assumptions C95_no_use_after_free.

(** When the validation ends, everything it allocated has been freed, and everybody else's objects have as many references as they did. *)
Theorem C95_no_leak answers max_depth n uri s e s' : before s -> refs s uri <> O -> handle_tal_uri answers max_depth n uri s = Ok (e, s') ->
  (forall i, (i < next s)%nat -> refs s' i = refs s i) /\ (forall i, (next s <= i)%nat -> refs s' i = O) /\ defers s' = [] /\ metas s' = [].
Proof.
  intros B U E. pose proof (run_S answers max_depth n uri s B U) as W. unfold wp in W. rewrite E in W.
  assert (A : forall i, refs s' i = if Nat.ltb i (next s) then refs s i else O).
  { eapply moved_after; [reflexivity|reflexivity|exact W|]. intros p _. exact (proj1 (proj1 (proj2 (proj2 B)) p)). }
  split; [|split; [|split; [exact (v_d _ _ _ _ _ W)|exact (v_m _ _ _ _ _ W)]]]; intros i Hi; rewrite A; destruct (Nat.ltb_spec i (next s)); (reflexivity || lia).
Qed.
Print Assumptions C95_no_leak.

(** Examples. *)
Definition one_object (i : nat) : nat := if Nat.eqb i 0 then 1%nat else O.
Definition start : st := {| refs := one_object; point := fun _ => false; kids := fun _ => []; next := 1; defers := []; metas := []; asked := O |}.
Lemma start_before : before start /\ refs start 0 <> O.
Proof. split; [|discriminate]. split; [reflexivity|]. split; [reflexivity|]. split; [auto|]. intros i Hi. cbn in *. unfold one_object. destruct (Nat.eqb_spec i 0); [lia|reflexivity]. Qed.

(** A trust anchor whose manifest lists a CRL, a CA certificate and a ROA; the certificate's lists a CRL.  Everything's valid. *)
Definition ee_answers : list Z := [0; 0; 0; 3; 0; 0; 1; 1; 3; 2; 1; 3; 0; 0; 0; 0; 0].
Definition good_answers : list Z :=
  [0; 0; 0; 1; 2; 1; 3; 0; 1; 3; 0; 0; 0; 0; 0;                               (* the trust anchor's certificate *)
   0; 0; 0; 3; 0; 0; 2; 0; 0; 0; 0; 0; 1; 0; 0; 0; 0] ++ ee_answers ++         (* its manifest *)
  [0; 0; 0] ++ ee_answers ++                                                   (* the ROA *)
  [0; 0; 0; 3; 0; 0; 1; 1; 3; 2; 1; 3; 0; 1; 3; 0; 0; 0; 0; 0; 1;              (* the CA certificate *)
   0; 0; 0; 0; 1; 0; 0; 2; 0; 0; 0; 0] ++ ee_answers.
Definition answer (i : nat) : Z := nth i good_answers 99.
Definition summary (r : res (Z * st)) : option (Z * nat * nat * list nat) :=
  match r with Ok (e, s) => Some (e, next s, asked s, filter (fun i => negb (Nat.eqb (refs s i) 0)) (seq 0 (next s))) | _ => None end.
(** Forty-five objects have been allocated, all the answers have been used, and only the caller's URI is left. *)
Example C95_tree : summary (handle_tal_uri answer 32 10 0%nat start) = Some (0, 46%nat, length good_answers, [0%nat]).
Proof. vm_compute. reflexivity. Qed.
