(** C90: from what is published to what routers are told. *)
From Coq Require Import String.
From Verif Require Import Base BaseLemmas CString Types DbTable PduWireSpec AddressSpec PathBuilder Tal TalSpec Slurm SlurmSpec SlurmProofs2 SlurmProps
  Vrps VrpsSpec VrpsProofs2 Tree TreeSpec TreeExample TreeAloneSpec PduHandler PduHandlerSpec PduHandlerProps Cycle CycleSpec CycleProofs CycleProofs2.
Notation length := List.length.

Section C90.
  Context (pton4 : list Z -> option Z) (pton6 : list Z -> option (list Z)) (b64url : list Z -> option (list Z)) (valid_spki : list Z -> bool).
  Notation history := (history pton4 pton6 b64url valid_spki).

  (** [t] is what the cycle that met [C], after the cycles [Cs] that published [cs],
      is to publish; [files]: the SLURM files in force. *)
  Record published (Cs : list surroundings) (cs : list cycle) (C : surroundings) (t : db_table) (files : list (option json)) : Prop := {
    pb_rules : rules pton4 pton6 b64url valid_spki C (slurm_history (Cs ++ [C]) (cs ++ [Validated t])) files;
    pb_vrps : forall v, roas_of t v -> to_publish pton4 pton6 (authorised_by C) files v;
    pb_asserted : forall v, asserted pton4 pton6 files v -> roas_of t v;
    pb_keys : forall k, rks_of t k <-> asserted_key b64url files k;
  }.
  Definition unchanged (t : db_table) (c : cycle) : Prop := match c with Validated t' => same_data t t' | _ => True end.

  (** Whatever the cycles met, no data is kept but that of one of them (the later ones
      failed, or found the same): its VRPs are authorised by a path of certificates
      from one of its TALs and not filtered, or asserted by SLURM; its router keys are
      those SLURM asserts. *)
  Theorem C90_authorised lifetime now Cs slurm cs s t :
    pton_ok pton4 pton6 -> (forall x, valid_spki x = true -> length x = 91%nat) -> 1 <= lifetime < 2147483648 ->
    (forall C, In C Cs -> plausible C) -> history Cs slurm cs ->
    vrps_run lifetime (vrps_init lifetime now) cs = Ok s -> s_base s = Some t ->
    exists Cs1 C Cs2 cs1 cs2 files, Cs = Cs1 ++ C :: Cs2 /\ cs = cs1 ++ Validated t :: cs2 /\ length Cs1 = length cs1 /\
      Forall (unchanged t) cs2 /\ published Cs1 cs1 C t files.
  Proof.
    intros PT SP HL P H R B. destruct (history_ok pton4 pton6 b64url valid_spki PT SP Cs slurm cs H P) as (K1 & K2).
    destruct (history_inv pton4 pton6 b64url valid_spki PT SP Cs slurm cs H P) as (L & _ & G).
    destruct (base_from lifetime cs now s t HL K1 R B) as (cs1 & cs2 & E & U).
    assert (X : exists Cs1 C Cs2, Cs = Cs1 ++ C :: Cs2 /\ length Cs1 = length cs1).
    { exists (firstn (length cs1) Cs). subst cs. rewrite app_length in L. cbn in L.
      destruct (skipn (length cs1) Cs) as [|C Cs2] eqn:Sk.
      - apply (f_equal (@length _)) in Sk. rewrite skipn_length in Sk. cbn in Sk. lia.
      - exists C, Cs2. split; [rewrite <- Sk; symmetry; apply firstn_skipn|]. rewrite firstn_length. lia. }
    destruct X as (Cs1 & C & Cs2 & EC & LC). destruct (G _ _ _ _ _ _ EC E LC) as (files & A1 & A2 & A3 & A4 & A5 & A6 & _).
    exists Cs1, C, Cs2, cs1, cs2, files. split; [exact EC|]. split; [exact E|]. split; [exact LC|]. split; [exact U|]. constructor; assumption.
  Qed.

  (** That is what routers have after a Reset Query, and after a Serial Query about
      the data of any recent cycle.  (The updates never crash.) *)
  Theorem C90_router lifetime now Cs slurm cs iv version raw :
    pton_ok pton4 pton6 -> (forall x, valid_spki x = true -> length x = 91%nat) -> 1 <= lifetime < 2147483648 ->
    (forall C, In C Cs -> plausible C) -> history Cs slurm cs -> version = 0 \/ version = 1 -> intervals_in_range iv ->
    exists s, vrps_run lifetime (vrps_init lifetime now) cs = Ok s /\ forall t, s_base s = Some t ->
      (exists Cs1 C Cs2 cs1 cs2 files, Cs = Cs1 ++ C :: Cs2 /\ cs = cs1 ++ Validated t :: cs2 /\ length Cs1 = length cs1 /\
         Forall (unchanged t) cs2 /\ published Cs1 cs1 C t files) /\
      let session := get_current_session_id s version in
      let ends_with_data sk (had_vrps : vrp -> Prop) (had_keys : router_key -> Prop) :=
        exists ps, rfc_stream version (sk_wire sk) (PCacheResponse session :: ps ++ [PEndOfData session (s_serial s) (timers version iv)]) /\
          client_run (vrp_events ps) had_vrps (roas_of t) /\ (version = 1 -> client_run (rk_events ps) had_keys (rks_of t)) /\ (version = 0 -> rk_events ps = []) in
      (exists sk, handle_reset_query_pdu iv s s true true fresh_socket version = Ok (sk, 0) /\ ends_with_data sk (fun _ => False) (fun _ => False)) /\
      exists h, VrpsSpec.publishes [] cs h /\ forall i old, nth_error h i = Some old -> Z.of_nat (length h) - Z.of_nat (i + 1) <= lifetime ->
        exists sk, handle_serial_query_pdu iv s true fresh_socket version session (Z.of_nat (i + 1) mod 4294967296) raw = Ok (sk, 0) /\
          ends_with_data sk (roas_of old) (rks_of old).
  Proof.
    intros PT SP HL P H Hv Hi. destruct (history_ok pton4 pton6 b64url valid_spki PT SP Cs slurm cs H P) as (K1 & K2).
    destruct (C50_serial_query_wire_converges lifetime now cs iv version raw HL K1 K2 Hv Hi) as (s & h & R & Pb & Q). exists s. split; [exact R|]. intros t B.
    split; [eapply C90_authorised; eassumption|]. cbn zeta. split.
    - destruct (C50_reset_query_wire_full_data lifetime now cs iv version s t K1 K2 HL Hv Hi R B) as (sk & ps & A1 & A2). exists sk. split; [exact A1|]. exists ps. exact A2.
    - exists h. split; [exact Pb|]. intros i old N W.
      destruct (converge_lem lifetime now cs HL K1) as (s' & h' & R' & Pb' & _ & B' & _). rewrite R in R'. injection R' as <-. rewrite (published_unique _ _ _ _ Pb' Pb) in B'. rewrite B in B'.
      destruct (Q i old t N (eq_sym B') W) as (sk & ps & A1 & A2). exists sk. split; [exact A1|]. exists ps. exact A2.
  Qed.

  (** If what a cycle met doesn't change meanwhile, no VRP of its trees is missing: for
      each TAL, its tree is that of the first of its URIs tried that works. *)
  Theorem C90_exact Cs slurm cs Cs1 C Cs2 cs1 t cs2 :
    pton_ok pton4 pton6 -> (forall x, valid_spki x = true -> length x = 91%nat) ->
    (forall C, In C Cs -> plausible C) -> history Cs slurm cs -> Cs = Cs1 ++ C :: Cs2 -> cs = cs1 ++ Validated t :: cs2 -> length Cs1 = length cs1 ->
    (forall path spki, tal_file (c_tals C) path -> still (world_of C path spki)) ->
    exists files keys, published Cs1 cs1 C t files /\
      (forall path, tal_file (c_tals C) path -> exists u, elected C path (keys path) u) /\
      forall v, roas_of t v <->
        to_publish pton4 pton6 (fun v => exists path u, tal_file (c_tals C) path /\ elected C path (keys path) u /\ of_tree (world_of C path (keys path)) u v) files v.
  Proof.
    intros PT SP P H EC E LC St. destruct (history_inv pton4 pton6 b64url valid_spki PT SP Cs slurm cs H P) as (_ & _ & G).
    destruct (G _ _ _ _ _ _ EC E LC) as (files & A1 & A2 & A3 & A4 & A5 & A6 & A7). exists files, (key_of_tal C). split; [constructor; assumption|].
    apply A7. intros path T. apply St. exact T.
  Qed.
End C90.

(** The TAL's name is its file's, without the directories; the world of a TAL is the one
    there is, with that name and the TAL's key. *)
Theorem C90_own_key C path spki W tal tal' spki' :
  (exists dir, path = dir ++ base_name path /\ (dir = [] \/ exists d, dir = d ++ [47])) /\ ~ In 47 (base_name path) /\
  w_spki (world_of C path spki) = spki /\ w_tal (world_of C path spki) = Some (base_name path) /\
  with_tal (with_tal W tal spki) tal' spki' = with_tal W tal' spki' /\ (w_tal W = Some tal -> with_tal W tal (w_spki W) = W).
Proof.
  assert (G : forall s, match strrchr 47 s with None => ~ In 47 s | Some t => exists d r, s = d ++ 47 :: r /\ t = 47 :: r /\ ~ In 47 r end).
  { induction s as [|c s IH]; cbn [strrchr]; [intros []|]. destruct (strrchr 47 s) as [t|].
    - destruct IH as (d & r & -> & -> & N). exists (c :: d), r. auto.
    - destruct (Z.eqb_spec c 47) as [->|NE]; [exists [], s; auto|]. intros [K|K]; auto. }
  specialize (G path). unfold base_name. split; [|split; [|split; [reflexivity|split; [reflexivity|split; [destruct W; reflexivity|]]]]].
  - destruct (strrchr 47 path) as [t|]; [|exists []; auto]. destruct G as (d & r & -> & -> & _). exists (d ++ [47]). cbn [tl]. rewrite <- app_assoc. split; [reflexivity|eauto].
  - destruct (strrchr 47 path) as [t|]; [|exact G]. destruct G as (d & r & -> & -> & N). exact N.
  - intros E. destruct W. cbn in *. subst. reflexivity.
Qed.

(** *** A process with two cycles: the TAL leads to a tree with one ROA; then there's a
    SLURM file that filters its VRP, and asserts others. *)
Definition ex_disk : list (string * list Z) := ("/r/t/rsync/e/ta.cer", [1])%string :: disk.
Definition ex_surroundings (slurm : option (res (list (list Z)) * list (option json))) : surroundings := {|
  c_tals := File (cstr "/tals/t"); c_realpath := fun _ => true; c_spawned := fun _ => true;
  c_file := fun _ => inr (cstr "rsync://e/none.cer" ++ [10] ++ cstr "rsync://e/ta.cer" ++ [13; 10; 10] ++ cstr "AQgI" ++ [10]);
  c_decode := fun s => if list_eqb Z.eqb s (cstr "AQgI" ++ [10; 0]) then Some [1; 8; 8] else None;
  c_world := fun _ => TreeExample.world_of ex_disk (prefixes [10]) "rsync://e/c/x.roa"; c_tried := fun _ => [(0, 0); (1, 2)]%nat;
  c_slurm := slurm |}.
Definition ex_thread : thread := match do_file_validation (ex_surroundings None) 5 (cstr "/tals/t") with Some (Ok t) => t | _ => NoThread end.
Definition ex_run (_ : list Z) : thread := ex_thread.

Lemma ex_plausible slurm : (forall cs files root, slurm = Some (cs, files) -> In (Some root) files -> json_ok root) -> plausible (ex_surroundings slurm).
Proof.
  intros J. constructor; [|exact J]. intros path spki T. cbn in T. subst path.
  assert (S : sane (TreeExample.world_of ex_disk (prefixes [10]) "rsync://e/c/x.roa")).
  { apply world_sane; [unfold ex_disk, disk; files_tac|apply prefixes_ok; [apply bytes_check|]; vm_compute; reflexivity]. }
  destruct S. constructor; assumption.
Qed.
Lemma ex_cycle slurm : becomes (ex_surroundings slurm) (cstr "/tals/t") ex_thread.
Proof. exists 5%nat. vm_compute. reflexivity. Qed.

Example C90_example : exists Cs slurm t1 t2, Cs = [ex_surroundings (Some (Ok [], [])); ex_surroundings (Some (Ok [[1]], [Some SlurmProps.ex_file]))] /\
  (forall C, In C Cs -> plausible C) /\ (forall C path spki, In C Cs -> still (world_of C path spki)) /\
  history ex_pton4 ex_pton6 ex_b64 ex_spki Cs slurm [Validated t1; Validated t2] /\
  t_roas t1 = [{| v_asn := 1; v_addr := 10 * 2 ^ 24 + 2 ^ 16; v_len := 16; v_max := 16; v_fam := AF_INET |}] /\ t_rks t1 = [] /\
  t_roas t2 <> [] /\ ~ In {| v_asn := 1; v_addr := 10 * 2 ^ 24 + 2 ^ 16; v_len := 16; v_max := 16; v_fam := AF_INET |} (t_roas t2) /\ t_rks t2 <> [].
Proof.
  eexists _, _, _, _. split; [reflexivity|]. split.
  { intros C [<-|[<-|[]]]; apply ex_plausible; intros cs files root E I; injection E as <- <-; [elim I|]. destruct I as [I|[]]. injection I as <-. apply json_okb_ok. vm_compute. reflexivity. }
  split. { intros C path spki [<-|[<-|[]]]; constructor; reflexivity. }
  split.
  { eapply (history_cycle _ _ _ _ [_] _ [_]) with (run := ex_run).
    - eapply (history_cycle _ _ _ _ [] _ []) with (run := ex_run); [constructor|intros path T; cbn in T; subst path; apply ex_cycle|vm_compute; reflexivity].
    - intros path T. cbn in T. subst path. apply ex_cycle.
    - vm_compute. reflexivity. }
  cbn [t_roas t_rks]. split; [reflexivity|]. split; [reflexivity|]. split; [discriminate|]. split; [|discriminate].
  cbn [In]. intuition discriminate.
Qed.

Print Assumptions C90_authorised.
Print Assumptions C90_router.
Print Assumptions C90_exact.
Print Assumptions C90_own_key.
