(** C74: from the trust anchor to the table. *)
From Coq Require Import String Permutation.
From Verif Require Import Base BaseLemmas CString Types DbTable VrpsSpec PathBuilder Manifest ManifestSpec SArray Resources Roa RoaSpec Objects CertBytes SignedData Extensions CertProfile
  ExtensionsProps Tree TreeSpec TreeProofs TreeExample TreeTotal TreeCrash.
From Verif Require VrpsProofs.
Notation length := List.length.

(** Whatever the files contain and however they change meanwhile, whatever the
    clock and the downloads do: a VRP that the validation of a trust anchor adds to
    the table is announced by a ROA that a certificate path from that trust anchor
    authorises, and all of the path's certificates hold its prefix. *)
Theorem C74_sound W fuel n u db db' b : sane W -> handle_tal_uri W fuel n u db = Some (Ok (db', b)) ->
  forall v, roas_of db' v -> roas_of db v \/ authorised W (fun k => (n <= k)%nat) u v.
Proof. apply tree_sound. Qed.

Lemma sublist_in P l k u : sublist P l k -> In u k -> In u l /\ P u.
Proof. intros H. induction H; cbn; [contradiction| |]; intros K; [destruct K as [<-|K]; [auto|]|]; destruct (IHsublist K); auto. Qed.
Lemma present_in l u : In u (present l) -> In (Some u) l.
Proof. induction l as [|[a|] l IH]; cbn; [contradiction| |]; [intros [->|H]; auto|auto]. Qed.
Lemma Forall2_in_r {A B} (R : A -> B -> Prop) l k y : Forall2 R l k -> In y k -> exists x, In x l /\ R x y.
Proof. intros H. induction H; cbn; [contradiction|]. intros [<-|K]; [eauto|]. destruct (IHForall2 K) as (z & ? & ?). eauto. Qed.

(** If files don't change meanwhile, and hash mismatches are errors, the ROA is one
    whose hash the manifest of its issuer gives. *)
Theorem C74_hashed W fuel n u db db' b : sane W -> (forall i j p, w_read W i p = w_read W j p) -> w_not_match W = INAC_ERROR ->
  handle_tal_uri W fuel n u db = Some (Ok (db', b)) ->
  forall v, roas_of db' v -> roas_of db v \/
    exists chain r cu ee bytes h, roa_of_tree W (fun k => (n <= k)%nat) u chain r cu ee v /\
      file W (fun k => (n <= k)%nat) r bytes /\ w_sha256 W bytes = Some h /\ listed W (fun k => (n <= k)%nat) chain r h.
Proof.
  intros S K E H v Hv. destruct (C74_sound _ _ _ _ _ _ _ S H v Hv) as [|(chain & r & cu & ee & T)]; [auto|]. right.
  pose proof T as T'. destruct T' as (files & crl & fb & sd & body & ro & V & Pu & Hr & (k & Dk & Hf) & _).
  destruct (pu_manifest _ _ _ _ _ _ Pu) as (a & rest & mft & notif & mu & mb & msd & mee & mbody & m & hashed & us & now & A1 & A2 & A3 & A4 & A5 & _ & A6 & A7 & _ & _ & _ & _ & _ & _ & F2 & _ & _ & _ & (kl & Sk & Pk) & _).
  apply (Permutation_in _ Pk) in Hr. destruct (sublist_in _ _ _ _ Sk Hr) as (Hr' & _). apply present_in in Hr'.
  destruct (Forall2_in_r _ _ _ _ F2 Hr') as (f & Hin & Hok).
  inversion Hok as [f' u' U Z0 Hh|? ? ? ? ? ? N|]; [|congruence].
  unfold hash_file in Hh. rewrite (K hashed k), Hf in Hh. destruct (w_sha256 W fb) as [h|] eqn:Eh; [|discriminate Hh]. injection Hh as Hh.
  exists chain, r, cu, ee, fb, h. split; [exact T|]. split; [exists k; auto|]. split; [exact Eh|].
  exists a, rest, mft, notif, mu, mb, crl, msd, mee, mbody, m, f. repeat (split; [solve [assumption|congruence]|]). exact U.
Qed.

(** Nothing is lost, nor is anything repeated; and router keys are not touched. *)
Theorem C74_keeps W fuel n u db db' b : handle_tal_uri W fuel n u db = Some (Ok (db', b)) ->
  (forall v, roas_of db v -> roas_of db' v) /\ t_rks db' = t_rks db /\ (table_ok db -> table_ok db').
Proof.
  intros H. apply tree_adds in H. induction H as [|db v db' H IH]; [auto|]. destruct IH as (I1 & I2 & I3). split; [|split].
  - intros w Hw. apply I1. unfold roas_of, add_roa. cbn [t_roas]. apply (VrpsProofs.hs_add_In vrp_equals VrpsProofs.vrp_equals_eq). auto.
  - exact I2.
  - intros K. apply I3. apply VrpsProofs.table_ok_add_roa. exact K.
Qed.

(** A world in which there is something to conclude. *)
Example C74_example : sane (toy "rsync://e/c/x.roa") /\ (forall i j p, w_read (toy "rsync://e/c/x.roa") i p = w_read (toy "rsync://e/c/x.roa") j p) /\
  w_not_match (toy "rsync://e/c/x.roa") = INAC_ERROR /\
  exists db', run "rsync://e/c/x.roa" = Some (Ok (db', true)) /\ t_roas db' = [{| v_asn := 1; v_addr := 10 * 2 ^ 24 + 2 ^ 16; v_len := 16; v_max := 16; v_fam := AF_INET |}].
Proof. split; [apply toy_sane|]. split; [reflexivity|]. split; [reflexivity|]. eexists. split; [vm_compute; reflexivity|reflexivity]. Qed.

(** A ROA that is in the end rejected can leave its VRPs in the table: here there is
    one ROA, and no certificate that names it as its signed object. *)
Theorem C74_references_refuted : exists W roa db' v, sane W /\
  (forall n p b, w_read W n p = inr b -> ends_with p (cstr ".roa") -> p = u_local roa) /\
  (forall bytes c size e l a f, w_d2i_X509 W bytes = Some (c, size) -> In e (x_extensions (ct c)) -> e_value e = Some (V_access l) -> In a l ->
     ad_location a <> GN_uri (u_global roa) f) /\
  handle_tal_uri W 5 0 ex_root_uri db_table_create = Some (Ok (db', true)) /\ roas_of db' v.
Proof.
  exists (toy "rsync://e/c/y.roa"), {| u_global := cstr "rsync://e/c/x.roa"; u_local := cstr "/r/t/rsync/e/c/x.roa"; u_type := UT_RSYNC |}.
  eexists _, {| v_asn := 1; v_addr := 10 * 2 ^ 24 + 2 ^ 16; v_len := 16; v_max := 16; v_fam := AF_INET |}.
  split; [apply toy_sane|]. split.
  { intros n p b H Hend. apply ManifestProofs.ends_with_iff in Hend. cbn [toy world_of w_read] in H. unfold disk in H. cbn [u_local].
    repeat (cbn [read_from] in H; match type of H with (if list_eqb Z.eqb p ?x then _ else _) = _ => destruct (list_eqb Z.eqb p x) eqn:E;
      [apply (list_eqb_spec Z.eqb Z.eqb_eq) in E; subst p; first [reflexivity|exfalso; clear H; vm_compute in Hend; discriminate Hend]|clear E] end).
    discriminate H. }
  split.
  { intros bytes c size e l a f H He Hl Ha.
    assert (K : exists issuer parent cdp so' rs, c = c_ee issuer parent cdp so' rs /\ (so' = "rsync://e/d/m.mft" \/ so' = "rsync://e/c/m.mft" \/ so' = "rsync://e/c/y.roa")%string).
    { cbn [toy world_of w_d2i_X509] in H. repeat match type of H with match ?x with _ => _ end = _ => destruct x; try discriminate H end; injection H as <- _; eexists _, _, _, _, _; (split; [reflexivity|]); auto. }
    destruct K as (issuer & parent & cdp & so' & rs & -> & Hso). clear H.
    unfold c_ee in He. cbn [ct_of ct x x_extensions In] in He.
    repeat (destruct He as [<-|He]; [cbn in Hl; try discriminate Hl; injection Hl as <-; cbn in Ha; destruct Ha as [<-|[]]; cbn [ex_access ad_location ex_uri]; try (intros Q; injection Q as Q; clear - Q; vm_compute in Q; discriminate Q)|]); [|destruct He].
    intros Q. injection Q as Q _. destruct Hso as [-> |[-> | ->]]; vm_compute in Q; discriminate Q. }
  split; [vm_compute; reflexivity|left; reflexivity].
Qed.

(** Whatever the files contain, and however they change meanwhile, the validation
    comes to an end: also when certificates publish themselves or one another. *)
Theorem C75_terminates W n u db : exists fuel x, forall more, handle_tal_uri W (fuel + more) n u db = Some x.
Proof. apply tree_ends. Qed.

(** The result does not depend on the number of rounds allowed. *)
Theorem C75_deterministic W f g n u db x y : handle_tal_uri W f n u db = Some x -> handle_tal_uri W g n u db = Some y -> x = y.
Proof.
  assert (M : forall f s x, tal_loop W f s = Some x -> forall k, tal_loop W (f + k) s = Some x).
  { clear. induction f as [|f IH]; intros s x H k; cbn [tal_loop Nat.add] in *; [discriminate H|].
    destruct (pop_loop (s_defers s) (s_stack s)) as [[stack [[[p v] d]|]]| |]; try exact H.
    destruct (certificate_traverse W (Some p) v _) as [[s1 ?]| |]; try exact H. apply IH. exact H. }
  unfold handle_tal_uri. intros H K. destruct (negb _); [congruence|]. destruct (certificate_traverse W None u (create n db)) as [[s [|]]|e|]; try congruence.
  destruct (tal_loop W f s) as [a|] eqn:A; [|discriminate H]. destruct (tal_loop W g s) as [c|] eqn:C; [|discriminate K].
  assert (E : a = c).
  { destruct (Nat.le_ge_cases f g) as [L|L]; apply Nat.le_exists_sub in L; destruct L as (k & -> & _); rewrite Nat.add_comm in *.
    - rewrite (M _ _ _ A k) in C. congruence.
    - rewrite (M _ _ _ C k) in A. congruence. }
  subst c. congruence.
Qed.

(** *** C76 *)
(** No file is a manifest without entries. *)
Definition no_empty_manifest (W : world) : Prop := forall n u o body m, signed_object_decode W n u = Ok o -> sd_econtent (snd o) = Some body ->
  decode_manifest (w_nobuf W) (w_turns W) body = Some m -> m_files m <> [].
(** The trust anchor does not inherit resources. *)
Definition holds_its_own (W : world) (root : rpki_uri) : Prop := forall n b c, w_read W n (u_local root) = inr b -> w_load_X509 W b = Some c ->
  Forall (fun e => ~ ResourcesSpec.inherits e) (map (read_extension (w_nobuf W) (w_turns W)) (ct_resources c)).

(** Apart from these two, whatever the files contain and however they change
    meanwhile, nothing that is published crashes the validation. *)
Theorem C76_no_crash_partial W n u db : sane W -> no_empty_manifest W -> holds_its_own W u ->
  exists fuel db' ok, forall more, handle_tal_uri W (fuel + more) n u db = Some (Ok (db', ok)).
Proof.
  intros S N1 N2. destruct (tree_ends W n u db) as (fuel & x & H).
  destruct (tree_safe W (fuel + 0) n u db x S N1 N2 (H 0%nat)) as ([db' ok] & ->). exists fuel, db', ok. exact H.
Qed.

Definition entries (W : world) (b : list Z) : bool :=
  match bind (content_info_decode (decode_content_info (0 :: w_slack W) (w_nobuf W) (w_turns W)) b) (fun c =>
        bind (signed_data_decode (decode_signed_data (w_nobuf W) (w_turns W)) (decode_signed_data_pkcs7 (w_nobuf W) (w_turns W))
                (decode_octets (w_nobuf W) (w_turns W)) (firstn (snd c) (fst c))) (fun sd => Ok (fst c, snd c, sd))) with
  | Ok o => match sd_econtent (snd o) with
            | None => true
            | Some body => match decode_manifest (w_nobuf W) (w_turns W) body with None => true | Some m => match m_files m with [] => false | _ => true end end
            end
  | _ => true
  end.
Lemma not_empty files ta so : forallb (entries (world_of files ta so)) (map snd files) = true -> no_empty_manifest (world_of files ta so).
Proof.
  intros F n u o body m H Q D E. unfold signed_object_decode in H. destruct (w_read (world_of files ta so) n (u_local u)) as [|b] eqn:R; [discriminate H|].
  apply read_from_file in R. rewrite forallb_forall in F. specialize (F b R). unfold entries in F.
  rewrite H, Q, D, E in F. discriminate F.
Qed.

Lemma own l : existsb (fun e => match e with
    | ExtIP _ _ (Some bs) => existsb (fun b => match f_choice b with IPC_inherit => true | _ => false end) bs
    | ExtAS _ _ (Some ids) => match as_num ids with Some ASC_inherit => true | _ => false end
    | _ => false
    end) l = false -> Forall (fun e => ~ ResourcesSpec.inherits e) l.
Proof.
  induction l as [|e l IH]; cbn [existsb]; intros H; constructor.
  - apply Bool.orb_false_iff in H. destruct H as (H & _). intros K. unfold ResourcesSpec.inherits in K.
    destruct e as [v c [bs|]|v c [ids|]|]; try contradiction.
    + destruct K as (b & Hb & K). apply Bool.not_true_iff_false in H. apply H. apply existsb_exists. exists b. split; [exact Hb|rewrite K; reflexivity].
    + rewrite K in H. discriminate H.
  - apply IH. apply Bool.orb_false_iff in H. apply H.
Qed.
(** These two do. *)
Theorem C76_empty_refuted : exists W, sane W /\ holds_its_own W ex_root_uri /\ forall fuel, handle_tal_uri W fuel 0 ex_root_uri db_table_create = Some UB.
Proof.
  exists (world_of disk_empty (prefixes [10]) "rsync://e/c/x.roa"). split; [apply empty_sane|]. split; [|intros fuel; vm_compute; reflexivity].
  intros n b c H K. cbn in H. injection H as <-. cbn in K. injection K as <-. apply own. vm_compute. reflexivity.
Qed.
Theorem C76_inherit_refuted : exists W, sane W /\ no_empty_manifest W /\ forall fuel, handle_tal_uri W fuel 0 ex_root_uri db_table_create = Some UB.
Proof.
  exists (world_of disk inheriting "rsync://e/c/x.roa"). split; [apply inheriting_sane|]. split; [|intros fuel; vm_compute; reflexivity].
  apply not_empty. vm_compute. reflexivity.
Qed.
(** The small world is one that meets the hypotheses. *)
Example C76_example : no_empty_manifest (toy "rsync://e/c/x.roa") /\ holds_its_own (toy "rsync://e/c/x.roa") ex_root_uri.
Proof.
  split; [apply not_empty; vm_compute; reflexivity|]. intros n b c H K. cbn in H. injection H as <-. cbn in K. injection K as <-. apply own. vm_compute. reflexivity.
Qed.

Print Assumptions C74_sound.
Print Assumptions C76_no_crash_partial.
Print Assumptions C76_empty_refuted.
Print Assumptions C76_inherit_refuted.
Print Assumptions C74_keeps.
Print Assumptions C75_terminates.
Print Assumptions C75_deterministic.
Print Assumptions C74_hashed.
Print Assumptions C74_references_refuted.
