(** C75: the validation of a trust anchor ends. *)
From Coq Require Import String.
From Verif Require Import Base BaseLemmas CString Types DbTable Asn1 PathBuilder Manifest SArray Resources Roa Objects CertBytes SignedData Extensions CertProfile Tree.
From Verif Require CertStack.
Notation length := List.length.

Lemma fold_defers p l d : fold_left (fun d u => Deferred p u :: d) l d = map (Deferred p) (rev l) ++ d.
Proof.
  revert d. induction l as [|u l IH]; intros d; cbn [fold_left rev map]; [reflexivity|]. rewrite IH, map_app, <- app_assoc. reflexivity.
Qed.

Lemma CertStack_certype_cases t : t = CertStack.CERTYPE_BGPSEC \/ t = CertStack.CERTYPE_EE \/ (t = CertStack.CERTYPE_TA \/ t = CertStack.CERTYPE_CA).
Proof. destruct t; auto. Qed.

Section Total.
  Context (W : world).
  (** What a certificate does to the stacks. *)
  Lemma traverse_stacks parent u s s' b : certificate_traverse W parent u s = Ok (s', b) ->
    (s_defers s' = s_defers s /\ s_stack s' = s_stack s) \/
    ((length (s_stack s) < w_max_depth W)%nat /\ b = true /\ exists m p l, s_stack s' = m :: s_stack s /\ s_defers s' = map (Deferred p) l ++ Separator :: s_defers s).
  Proof.
    intros H. unfold certificate_traverse in H. cbn zeta in H. cbn [s_defers s_stack s_heap s_db s_clock] in H.
    destruct (Nat.leb_spec (w_max_depth W) (length (s_stack s))) as [|Hdepth]; [injection H as <- _; auto|].
    destruct (crl_of W (s_clock s) (s_stack s) (option_map pp_slot parent)) as [[sl crl]| |]; cbn [bind] in H; try discriminate H.
    destruct crl as [crl| |]; cbn [attempt] in H; [|injection H as <- _; auto|discriminate H].
    destruct (certificate_load W _ u) as [c| |]; cbn [attempt] in H; [|injection H as <- _; auto|discriminate H].
    destruct (certificate_validate_chain W _ (s_stack s) crl c) as [[]| |]; cbn [attempt] in H; [|injection H as <- _; auto|discriminate H].
    destruct (get_certificate_type c _) as [t| |]; cbn [attempt] in H; [|injection H as <- _; auto|discriminate H].
    destruct (CertStack_certype_cases t) as [->|[->|K]]; [injection H as <- _; auto..|].
    match type of H with match t with CertStack.CERTYPE_TA => ?body | _ => _ end = _ => assert (H' : body = Ok (s', b)) by (destruct K; subst t; exact H) end.
    clear H. rename H' into H.
    destruct (validate_rfc6487 W (s_stack s) c t) as [[]| |]; cbn [attempt] in H; [|injection H as <- _; auto|discriminate H].
    destruct (match parent with None => validate_ta W c | Some p => validate_ca W (s_stack s) (crl_uri (pp_files p)) c end) as [r| |]; cbn [attempt] in H; [|injection H as <- _; auto|discriminate H].
    destruct (download_rpp W _ (r_rpp r)) as [downloaded|]; [|injection H as <- _; auto].
    destruct (with_policy r) as [[r0 policy]| |]; cbn [bind] in H; try discriminate H.
    destruct (init_resources _ _ _ _ _) as [[[h1 rs] error]| |]; cbn [bind] in H; try discriminate H.
    destruct (error =? 0); cbn [negb] in H; [|injection H as <- _; auto].
    destruct (r_mft r) as [mft|]; [|discriminate H].
    destruct (handle_manifest W _ _ h1 mft _) as [[h2 p]| |]; [|injection H as <- _; auto|discriminate H].
    destruct (rpp_traverse W _ _ p) as [s1| |] eqn:Hr; cbn [bind] in H; try discriminate H. injection H as <- <-. right. split; [exact Hdepth|]. split; [reflexivity|].
    unfold rpp_traverse in Hr. destruct (roa_loop W _ _ _ _ _ _) as [[h db]| |]; cbn [bind] in Hr; try discriminate Hr. injection Hr as <-. cbn [s_stack s_defers].
    eexists _, p, _. split; [reflexivity|]. rewrite fold_defers. reflexivity.
  Qed.

  Definition st (d : list defer) (k : list meta) (h : heap) (db : db_table) (n : nat) : state :=
    {| s_defers := d; s_stack := k; s_heap := h; s_db := db; s_clock := n |}.
  Lemma st_eta s : s = st (s_defers s) (s_stack s) (s_heap s) (s_db s) (s_clock s).
  Proof. destruct s; reflexivity. Qed.
  Lemma separator_skip f d m k h db n : tal_loop W f (st (Separator :: d) (m :: k) h db n) = tal_loop W f (st d k h db n).
  Proof. destruct f; reflexivity. Qed.

  (** The deferred certificates on top of the stack are done with at some point, at
      which what is below is as it was. *)
  Lemma loop_ends : forall r l rest k h db n, (w_max_depth W - length k <= r)%nat -> Forall (fun e => e <> Separator) l ->
    (exists f x, forall g, tal_loop W (f + g) (st (l ++ rest) k h db n) = Some x) \/
    (exists f h' db' n', forall g, tal_loop W (f + g) (st (l ++ rest) k h db n) = tal_loop W g (st rest k h' db' n')).
  Proof.
    induction r as [r IHr] using lt_wf_ind. induction l as [|e l IHl]; intros rest k h db n Hr F; [right; exists 0%nat, h, db, n; reflexivity|].
    inversion F as [|? ? He Fl]; subst. destruct e as [|p u]; [contradiction|].
    assert (Step : forall g, tal_loop W (S g) (st ((Deferred p u :: l) ++ rest) k h db n) =
      match certificate_traverse W (Some p) u (st (l ++ rest) k h db n) with UB => Some UB | Err e => Some (Err e) | Ok (s, _) => tal_loop W g s end) by reflexivity.
    destruct (certificate_traverse W (Some p) u (st (l ++ rest) k h db n)) as [[s b]|e|] eqn:T;
      [|left; exists 1%nat; eexists; intros g; cbn [Nat.add]; rewrite Step; reflexivity..].
    destruct (traverse_stacks _ _ _ _ _ T) as [(D1 & D2)|(Hd & _ & m & p' & l' & D1 & D2)]; cbn [st s_defers s_stack] in *; rewrite (st_eta s), D1, D2 in Step; clear T.
    - destruct (IHl rest k (s_heap s) (s_db s) (s_clock s) Hr Fl) as [(f & x & E)|(f & h' & db' & n' & E)].
      + left. exists (S f), x. intros g. cbn [Nat.add]. rewrite Step. apply E.
      + right. exists (S f), h', db', n'. intros g. cbn [Nat.add]. rewrite Step. apply E.
    - assert (F' : Forall (fun e => e <> Separator) (map (Deferred p') l')) by (apply Forall_map, Forall_forall; discriminate).
      destruct (IHr (w_max_depth W - length (m :: k))%nat ltac:(cbn [length]; lia) (map (Deferred p') l') (Separator :: l ++ rest) (m :: k) (s_heap s) (s_db s) (s_clock s) (le_n _) F')
        as [(f & x & E)|(f & h' & db' & n' & E)].
      + left. exists (S f), x. intros g. cbn [Nat.add]. rewrite Step. apply E.
      + destruct (IHl rest k h' db' n' Hr Fl) as [(f2 & x & E2)|(f2 & h2 & db2 & n2 & E2)].
        * left. exists (S (f + f2)), x. intros g. cbn [Nat.add]. rewrite Step, <- Nat.add_assoc, E, separator_skip. apply E2.
        * right. exists (S (f + f2)), h2, db2, n2. intros g. cbn [Nat.add]. rewrite Step, <- Nat.add_assoc, E, separator_skip. apply E2.
  Qed.

  Lemma tree_ends n u db : exists fuel x, forall more, handle_tal_uri W (fuel + more) n u db = Some x.
  Proof.
    unfold handle_tal_uri. destruct (negb _); [exists 0%nat; eauto|].
    destruct (certificate_traverse W None u (create n db)) as [[s [|]]|e|] eqn:T; [|exists 0%nat; eauto..].
    assert (E : exists fuel x, forall more, tal_loop W (fuel + more) s = Some x).
    { destruct (traverse_stacks _ _ _ _ _ T) as [(D1 & D2)|(Hd & _ & m & p' & l' & D1 & D2)]; cbn [create s_defers s_stack] in *.
      - exists 1%nat. eexists. intros more. cbn [Nat.add tal_loop]. rewrite D1, D2. reflexivity.
      - assert (F' : Forall (fun e => e <> Separator) (map (Deferred p') l')) by (apply Forall_map, Forall_forall; discriminate).
        rewrite (st_eta s), D1, D2.
        destruct (loop_ends _ (map (Deferred p') l') [Separator] [m] (s_heap s) (s_db s) (s_clock s) (le_n _) F') as [H|(f & h' & db' & n' & E)]; [exact H|].
        exists (f + 1)%nat. eexists. intros more. rewrite <- Nat.add_assoc, E. reflexivity. }
    destruct E as (fuel & x & E). exists fuel. destruct x as [db'|e|]; eexists; intros more; rewrite E; reflexivity.
  Qed.
End Total.

(** What the validation does to the table is to add VRPs to it. *)
Inductive adds : db_table -> db_table -> Prop :=
| adds_none db : adds db db
| adds_one db v db' : adds (add_roa db v) db' -> adds db db'.
Lemma adds_trans a b c : adds a b -> adds b c -> adds a c.
Proof. intros H K. induction H; [exact K|]. eapply adds_one. auto. Qed.
Lemma addr_adds h r asn family : forall l db db' e, addr_loop h r db asn family l = Ok (db', e) -> adds db db'.
Proof.
  assert (One : forall a db db' e, handle_roa_addr h r db asn family a = Ok (db', e) -> adds db db').
  { intros a db db' e H. unfold handle_roa_addr, handle_roa_v4, handle_roa_v6 in H.
    repeat match type of H with
    | (if ?x then _ else _) = _ => destruct x
    | match ?x with _ => _ end = _ => destruct x; try discriminate H
    | bind ?x _ = _ => destruct x; cbn [bind] in H; try discriminate H
    | (let (_, _) := ?x in _) = _ => destruct x
    end; injection H as <- _; first [apply adds_none|eapply adds_one, adds_none]. }
  induction l as [|a l IH]; intros db db' e H; cbn [addr_loop] in H; [injection H as <- _; apply adds_none|].
  destruct (handle_roa_addr h r db asn family a) as [[db1 e1]| |] eqn:E; cbn [bind] in H; try discriminate H. apply One in E.
  destruct (negb (e1 =? 0)); [injection H as <- _; exact E|]. eapply adds_trans; eauto.
Qed.
Lemma roa_adds h r roa db db' e : handle_roa h r db roa = Ok (db', e) -> adds db db'.
Proof.
  unfold handle_roa. destruct (negb _); [intros H; injection H as <- _; apply adds_none|].
  destruct (asn_INTEGER2ulong _) as [asn|]; [|intros H; injection H as <- _; apply adds_none].
  destruct (UINT_MAX <? asn); [intros H; injection H as <- _; apply adds_none|].
  destruct (roa_blocks roa) as [l|]; [|intros H; injection H as <- _; apply adds_none].
  revert db. induction l as [|[b|] l IH]; intros db H; cbn [roa_block_loop] in H; [injection H as <- _; apply adds_none| |injection H as <- _; apply adds_none].
  destruct (rb_family b) as [|f0 [|f1 [|]]]; try (injection H as <- _; apply adds_none).
  destruct (negb (f0 =? 0)); [injection H as <- _; apply adds_none|]. destruct (negb (f1 =? 1) && negb (f1 =? 2)); [injection H as <- _; apply adds_none|].
  destruct (rb_addresses b) as [a|]; [|injection H as <- _; apply adds_none].
  destruct (addr_loop h r db asn f1 a) as [[db1 e1]| |] eqn:E; cbn [bind] in H; try discriminate H. apply addr_adds in E.
  destruct (negb (e1 =? 0)); [injection H as <- _; exact E|]. eapply adds_trans; eauto.
Qed.

Section Adds.
  Context (W : world).
  Lemma roa_loop_adds s p : forall l n h db h' db', roa_loop W n s p l h db = Ok (h', db') -> adds db db'.
  Proof.
    induction l as [|u l IH]; intros n h db h' db' H; cbn [roa_loop] in H; [injection H as <- <-; apply adds_none|].
    destruct (roa_traverse W n s p u h db) as [[[h1 db1] ok]| |] eqn:E; cbn [bind] in H; try discriminate H. apply (adds_trans _ db1); [|eauto]. clear H.
    unfold roa_traverse in E. match type of E with match ?x with _ => _ end = _ => destruct x as [[roa [refs [h2 r]]]| |] end; [|injection E as _ <- _; apply adds_none|discriminate E].
    destruct (handle_roa h2 r db roa) as [[db2 e]| |] eqn:E2; cbn [bind] in E; try discriminate E. apply roa_adds in E2.
    destruct (negb (e =? 0)); [injection E as _ <- _; exact E2|]. destruct (refs_validate_ee _ _ _); try discriminate E; injection E as _ <- _; exact E2.
  Qed.
  Lemma traverse_adds parent u s s' b : certificate_traverse W parent u s = Ok (s', b) -> adds (s_db s) (s_db s').
  Proof.
    intros H. unfold certificate_traverse in H. cbn zeta in H. cbn [s_defers s_stack s_heap s_db s_clock] in H.
    destruct (w_max_depth W <=? length (s_stack s))%nat; [injection H as <- _; apply adds_none|].
    destruct (crl_of W (s_clock s) (s_stack s) (option_map pp_slot parent)) as [[sl crl]| |]; cbn [bind] in H; try discriminate H.
    destruct crl as [crl| |]; cbn [attempt] in H; [|injection H as <- _; apply adds_none|discriminate H].
    destruct (certificate_load W _ u) as [c| |]; cbn [attempt] in H; [|injection H as <- _; apply adds_none|discriminate H].
    destruct (certificate_validate_chain W _ (s_stack s) crl c) as [[]| |]; cbn [attempt] in H; [|injection H as <- _; apply adds_none|discriminate H].
    destruct (get_certificate_type c _) as [t| |]; cbn [attempt] in H; [|injection H as <- _; apply adds_none|discriminate H].
    destruct (CertStack_certype_cases t) as [->|[->|K]]; [injection H as <- _; apply adds_none..|].
    match type of H with match t with CertStack.CERTYPE_TA => ?body | _ => _ end = _ => assert (H' : body = Ok (s', b)) by (destruct K; subst t; exact H) end.
    clear H. rename H' into H.
    destruct (validate_rfc6487 W (s_stack s) c t) as [[]| |]; cbn [attempt] in H; [|injection H as <- _; apply adds_none|discriminate H].
    destruct (match parent with None => validate_ta W c | Some p => validate_ca W (s_stack s) (crl_uri (pp_files p)) c end) as [r| |]; cbn [attempt] in H; [|injection H as <- _; apply adds_none|discriminate H].
    destruct (download_rpp W _ (r_rpp r)) as [downloaded|]; [|injection H as <- _; apply adds_none].
    destruct (with_policy r) as [[r0 policy]| |]; cbn [bind] in H; try discriminate H.
    destruct (init_resources _ _ _ _ _) as [[[h1 rs] error]| |]; cbn [bind] in H; try discriminate H.
    destruct (error =? 0); cbn [negb] in H; [|injection H as <- _; apply adds_none].
    destruct (r_mft r) as [mft|]; [|discriminate H].
    destruct (handle_manifest W _ _ h1 mft _) as [[h2 p]| |]; [|injection H as <- _; apply adds_none|discriminate H].
    destruct (rpp_traverse W _ _ p) as [s1| |] eqn:Hr; cbn [bind] in H; try discriminate H. injection H as <- <-.
    unfold rpp_traverse in Hr. destruct (roa_loop W _ _ _ _ _ _) as [[h db]| |] eqn:E; cbn [bind] in Hr; try discriminate Hr. injection Hr as <-. cbn [s_db].
    apply roa_loop_adds in E. exact E.
  Qed.
  Lemma tree_adds fuel n u db db' b : handle_tal_uri W fuel n u db = Some (Ok (db', b)) -> adds db db'.
  Proof.
    unfold handle_tal_uri. intros H. destruct (negb _); [injection H as <- _; apply adds_none|].
    destruct (certificate_traverse W None u (create n db)) as [[s [|]]|e|] eqn:T; try discriminate H; apply traverse_adds in T; cbn [create s_db] in T; [|injection H as <- _; exact T].
    destruct (tal_loop W fuel s) as [[db1| |]|] eqn:L; try discriminate H. injection H as <- _. eapply adds_trans; [exact T|]. clear T.
    revert s L. induction fuel as [|fuel IH]; intros s L; cbn [tal_loop] in L; [discriminate L|].
    destruct (pop_loop (s_defers s) (s_stack s)) as [[stack [[[p v] d]|]]| |]; try discriminate L; [|injection L as <-; apply adds_none].
    destruct (certificate_traverse W (Some p) v _) as [[s1 ?]| |] eqn:T; try discriminate L. apply traverse_adds in T. eapply adds_trans; [exact T|]. apply IH. exact L.
  Qed.
End Adds.
