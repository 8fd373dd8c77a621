(** C77: the properties. *)
From Coq Require Import String Permutation.
From Verif Require Import Base BaseLemmas CString Types DbTable Vrps VrpsSpec PathBuilder Manifest ManifestSpec ManifestProofs
  Resources ResourcesSpec ResourcesProofs4 ResourcesSim CertProfile Tree TreeSpec TreeExample TreeAloneSpec TreeAlone TreeAlone2 TreeAlone3.
Notation length := List.length.

Lemma with_own_rnd W : with_rnd W (w_rnd W) = W.
Proof. destruct W. reflexivity. Qed.

(** The VRPs found are those that the paths of certificates have by themselves:
    whatever else is published, whatever becomes of it, in whatever order the
    publication points are gone through. *)
Theorem C77_isolated W rnd fuel n u db db' ok : sane W -> still W -> handle_tal_uri (with_rnd W rnd) fuel n u db = Some (Ok (db', ok)) ->
  forall v, roas_of db' v <-> roas_of db v \/ exists s, alone W u s /\ roas_of (s_db s) v.
Proof.
  intros S Q H v. pose proof (with_own_rnd W) as EW. set (rnd2 := w_rnd W) in *.
  enough (G : roas_of db' v <-> roas_of db v \/ exists s, alone (with_rnd W rnd2) u s /\ roas_of (s_db s) v) by (rewrite EW in G; exact G).
  unfold handle_tal_uri in H. destruct (str_ends_with (u_global u) (cstr ".cer")) eqn:E; cbn [negb] in H.
  2:{ injection H as <- _. split; [auto|]. intros [?|(s & Ha & _)]; [assumption|]. apply alone_from in Ha. destruct Ha as (r & Hr & _). apply ends_with_iff in Hr. congruence. }
  destruct (certificate_traverse (with_rnd W rnd) None u (create n db)) as [[s1 b]| |] eqn:T; try discriminate H.
  assert (R0 : forall m d, reachable (s_heap (create m d), map me_resources (s_stack (create m d)))) by (intros; apply reach_init).
  destruct (traverse_sim W S Q rnd rnd2 None None u (create n db) (create 0 db_table_create) s1 b) as (s2 & T2 & Ch); [|exact I|exact T|].
  { constructor; [apply R0|apply R0|constructor]. }
  destruct b.
  2:{ injection H as <- _. destruct (ch_stacks _ _ _ _ _ Ch) as [(_ & _ & _ & _ & ->)|(K & _)]; [|discriminate K]. split; [auto|].
      intros [?|(s & Ha & _)]; [assumption|]. apply alone_from in Ha. destruct Ha as (r & _ & Tr & _). congruence. }
  assert (Ha : alone (with_rnd W rnd2) u s2) by (apply alone_root; [apply ends_with_iff; exact E|exact T2]).
  destruct (stage W rnd2 u (create n db) (create 0 db_table_create) s1 s2 [] true Ch eq_refl) as (L & K); [constructor|constructor|intros _; exact Ha|reflexivity|reflexivity|].
  destruct (tal_loop (with_rnd W rnd) fuel s1) as [[d| |]|] eqn:Lo; try discriminate H. injection H as <- _.
  pose proof (loop_alone W S Q rnd rnd2 u fuel s1 d L (al_reach1 _ _ (ch_alike _ _ _ _ _ Ch)) Lo) as So.
  destruct (loop_complete W S Q rnd rnd2 u fuel s1 d L (al_reach1 _ _ (ch_alike _ _ _ _ _ Ch)) Lo) as (Mono & Pend).
  destruct (ch_db _ _ _ _ _ Ch) as (A & A1 & A2). cbn [create s_db] in A1, A2.
  split.
  - intros Hv. destruct (So v Hv) as [K'|K']; [|auto]. destruct (K v K') as [?|(_ & ?)]; [auto|]. right. eauto.
  - intros [Hv|(s & Hs & Hv)]; [apply Mono, A1; auto|].
    apply alone_from in Hs. destruct Hs as (r & _ & Tr & Hr). assert (Er : r = s2) by congruence. subst r.
    destruct Hr as [->|(p & w & Hi & F)].
    + apply Mono, A1. right. apply A2 in Hv. destruct Hv as [[]|Hv]. exact Hv.
    + destruct Ch as [[Q1 Q2 Q3] X1 X2 _ St]. destruct St as [(_ & _ & D2 & _)|(_ & p1 & q2 & m1 & m2 & S1 & S2 & Pq & D1 & D2)]; rewrite D2 in Hi; [elim Hi|].
      apply in_app_or in Hi. destruct Hi as [Hi|[Hi|[]]]; [|discriminate Hi]. apply in_map_iff in Hi. destruct Hi as (w' & Ew & Hw). injection Ew as <- <-.
      eapply (Pend p1 w' (s_stack s1)); [|exact Q2|exact Q3|exact Pq|exact F|exact Hv].
      rewrite D1. apply pending_in. destruct Pq as (_ & Pc & _). eapply Permutation_in; [symmetry; exact Pc|exact Hw].
Qed.

(** So neither the order nor the number of rounds nor what was in the table matter. *)
Theorem C77_order W rnd1 rnd2 fuel1 fuel2 n1 n2 u db db1 ok1 db2 ok2 : sane W -> still W ->
  handle_tal_uri (with_rnd W rnd1) fuel1 n1 u db = Some (Ok (db1, ok1)) -> handle_tal_uri (with_rnd W rnd2) fuel2 n2 u db = Some (Ok (db2, ok2)) ->
  forall v, roas_of db1 v <-> roas_of db2 v.
Proof. intros S Q H1 H2 v. rewrite (C77_isolated W rnd1 _ _ _ _ _ _ S Q H1 v), (C77_isolated W rnd2 _ _ _ _ _ _ S Q H2 v). reflexivity. Qed.

(** In the small world there is a path of two certificates with a VRP. *)
Example C77_example : sane (toy "rsync://e/c/x.roa") /\ still (toy "rsync://e/c/x.roa") /\
  (exists db, handle_tal_uri (with_rnd (toy "rsync://e/c/x.roa") (fun _ _ => 7)) 5 3 ex_root_uri db_table_create = Some (Ok (db, true))) /\
  exists s v, alone (toy "rsync://e/c/x.roa") ex_root_uri s /\ roas_of (s_db s) v.
Proof.
  split; [apply toy_sane|]. split; [constructor; reflexivity|]. split; [eexists; vm_compute; reflexivity|].
  set (W := toy "rsync://e/c/x.roa").
  assert (K : match certificate_traverse W None ex_root_uri (create 0 db_table_create) with
              | Ok (a, true) => match s_defers a with
                  | Deferred p u :: _ => match certificate_traverse W (Some p) u (strip a) with Ok (s, true) => match t_roas (s_db s) with [] => False | _ => True end | _ => False end
                  | _ => False end
              | _ => False end) by (vm_compute; exact I).
  destruct (certificate_traverse W None ex_root_uri (create 0 db_table_create)) as [[a []]| |] eqn:T; try contradiction.
  destruct (s_defers a) as [|[|p u] l] eqn:D; try contradiction.
  destruct (certificate_traverse W (Some p) u (strip a)) as [[s []]| |] eqn:T'; try contradiction.
  destruct (t_roas (s_db s)) as [|v vs] eqn:V; [contradiction|]. exists s, v. split; [|unfold roas_of; rewrite V; left; reflexivity].
  eapply alone_next; [apply alone_root; [apply ends_with_iff; vm_compute; reflexivity|exact T]| |exact T']. rewrite D. left. reflexivity.
Qed.

Print Assumptions C77_isolated.
Print Assumptions C77_order.
