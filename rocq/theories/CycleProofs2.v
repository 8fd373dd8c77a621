(** C90: proofs, continued: SLURM, and the cycles. *)
From Coq Require Import String.
From Verif Require Import Base BaseLemmas CString CLib Types HashSet DbTable PduWireSpec Address AddressSpec PathBuilder Tal TalSpec
  Slurm SlurmSpec SlurmProofs SlurmProofs2 SlurmProofs3 SlurmProofs4 SlurmProps Vrps VrpsSpec VrpsProofs VrpsProofs2 Tree TreeSpec TreeAloneSpec
  PduHandler PduHandlerSpec PduHandlerProofs PduHandlerProps Cycle CycleSpec CycleProofs.
Notation length := List.length.

Section Slurm.
  Context (pton4 : list Z -> option Z) (pton6 : list Z -> option (list Z)) (b64url : list Z -> option (list Z)) (valid_spki : list Z -> bool).
  Context (PT : pton_ok pton4 pton6) (SPKI : forall x, valid_spki x = true -> length x = 91%nat).
  Notation history := (history pton4 pton6 b64url valid_spki).
  Notation one_cycle := (one_cycle pton4 pton6 b64url valid_spki).
  Notation rules := (rules pton4 pton6 b64url valid_spki).

  Lemma apply_lists_ok l t t' : table_ok t -> apply_lists t l = Ok t' -> table_ok t'.
  Proof.
    clear. intros H E. unfold apply_lists in E. cbn zeta in E.
    assert (A1 : table_ok (apply_pfx_filters l t)).
    { unfold apply_pfx_filters. generalize (t_roas t) as vs. revert H. generalize t as u. clear. intros u H vs. revert u H.
      induction vs as [|v vs IH]; intros u H; cbn [fold_left]; [exact H|]. apply IH. destruct (db_slurm_vrp_is_filtered l v); [apply table_ok_del_roa|]; exact H. }
    assert (A2 : forall ks u u', table_ok u -> bgpsec_filters_loop l ks u = Ok u' -> table_ok u').
    { clear. induction ks as [|k ks IH]; intros u u' H E; cbn [bgpsec_filters_loop] in E; [injection E as <-; exact H|].
      destruct (db_slurm_bgpsec_is_filtered l k) as [b| |]; cbn [bind] in E; try discriminate E. eapply IH; [|exact E]. destruct b; [apply table_ok_del_rk|]; exact H. }
    destruct (bgpsec_filters_loop l _ _) as [t2| |] eqn:E2; cbn [bind] in E; try discriminate E. apply A2 in E2; [|exact A1].
    assert (A3 : table_ok (fold_left pfx_assertion_add (assertion_pfx l) t2)).
    { clear E. revert E2. generalize (assertion_pfx l) as ps. intros ps. revert t2. induction ps as [|p ps IH]; intros t2 H2; cbn [fold_left]; [exact H2|].
      apply IH. unfold pfx_assertion_add. destruct (v_fam (sp_vrp p)); apply table_ok_add_roa; exact H2. }
    revert E A3. generalize (fold_left pfx_assertion_add (assertion_pfx l) t2) as u. generalize (assertion_bgps l) as bs. clear.
    induction bs as [|b bs IH]; intros u E H; cbn [bgpsec_assertions_loop] in E; [injection E as <-; exact H|].
    unfold bgpsec_assertion_add in E at 1. destruct (sb_ski b) as [ski|]; cbn [bind] in E; try discriminate E. destruct (sb_spk b) as [spk|]; cbn [bind] in E; try discriminate E.
    destruct (_ && _)%bool; cbn [bind] in E; try discriminate E. eapply IH; [exact E|]. apply table_ok_add_rk. exact H.
  Qed.

  Lemma asserted_range files l v : files_ok files -> loads pton4 pton6 b64url valid_spki files l -> asserted pton4 pton6 files v -> vrp_in_range v /\ canonical v.
  Proof.
    intros OK L (j & J & A1 & (s & M & R) & A3 & A4). pose proof J as J'. apply element_arrs in J'; [|exact OK].
    apply parse_files_spec in L. destruct L as (_ & fp & fb & ap & ab & _ & _ & F & _).
    destruct (Forall2_In_l _ _ _ _ F J') as (e & _ & E). pose proof (json_ok_arrs _ _ _ _ OK J') as Oj.
    assert (X : prefix_assertion_ok pton4 pton6 j) by (apply (prefix_iff pton4 pton6 PT true j Oj); eauto).
    destruct X as (_ & _ & U & _). destruct (U _ A1) as (n & En & Un). injection En as En. rewrite <- En in Un.
    pose proof (reads_canonical pton4 pton6 PT s _ _ _ (v_asn v) (v_max v) R) as Ca. destruct v as [asn addr len mx fam]. cbn [v_asn v_addr v_len v_max v_fam] in *.
    split; [|exact Ca]. destruct Ca as (C1 & C2 & _). cbn [v_asn v_addr v_len v_max v_fam] in *. split; [exact Un|]. unfold is_byte. destruct fam; cbn [width v_asn v_addr v_len v_max v_fam] in *; repeat split; lia.
  Qed.
  Lemma asserted_key_range files l k : files_ok files -> loads pton4 pton6 b64url valid_spki files l -> asserted_key b64url files k -> rk_in_range k.
  Proof.
    intros OK L (j & J & A1 & (s & M & R) & (s' & M' & R')). pose proof J as J'. apply element_arrs in J'; [|exact OK].
    apply parse_files_spec in L. destruct L as (_ & fp & fb & ap & ab & _ & _ & _ & F & _).
    destruct (Forall2_In_l _ _ _ _ F J') as (e & _ & E). pose proof (json_ok_arrs _ _ _ _ OK J') as Oj.
    assert (X : bgpsec_assertion_ok b64url valid_spki j) by (apply (bgpsec_iff b64url valid_spki true j Oj); eauto).
    destruct X as (_ & _ & U & _ & _ & (x & X1 & s1 & ski & -> & _ & X2 & X3) & (s2 & k2 & Y1 & _ & Y2 & Y3)).
    destruct (U _ A1) as (n & En & Un). injection En as En. rewrite <- En in Un.
    pose proof (member_fun _ _ _ _ Oj M X1) as Q. injection Q as ->. pose proof (member_fun _ _ _ _ Oj M' Y1) as Q. injection Q as ->.
    rewrite R in X2. injection X2 as X2. rewrite R' in Y2. injection Y2 as Y2. split; [exact Un|]. split; [congruence|]. apply SPKI. congruence.
  Qed.

  (** What a cycle makes of the tables of its trees. *)
  Definition good (C : surroundings) (h : list slurm_cycle) (t : db_table) : Prop :=
    exists files, rules C h files /\ table_ok t /\ table_in_range t /\
      (forall v, roas_of t v -> to_publish pton4 pton6 (authorised_by C) files v) /\
      (forall v, asserted pton4 pton6 files v -> roas_of t v) /\
      (forall k, rks_of t k <-> asserted_key b64url files k) /\
      ((forall path, tal_file (c_tals C) path -> still (world_of C path (key_of_tal C path))) ->
       (forall path, tal_file (c_tals C) path -> exists u, elected C path (key_of_tal C path) u) /\
       forall v, roas_of t v <-> to_publish pton4 pton6
         (fun v => exists path u, tal_file (c_tals C) path /\ elected C path (key_of_tal C path) u /\ of_tree (world_of C path (key_of_tal C path)) u v) files v).

  Lemma rules_files C h files : (forall c, In c h -> files_ok (snd c)) -> rules C h files ->
    files = [] \/ (files_ok files /\ exists l, loads pton4 pton6 b64url valid_spki files l).
  Proof.
    intros OK R. unfold CycleSpec.rules in R. destruct (c_slurm C); [|auto]. destruct R as [(-> & _)|(db & h1 & h0 & -> & _ & L & _)]; [auto|].
    right. split; [|eauto]. apply (OK (Ok (csums db), files)). apply in_app_iff. right. left. reflexivity.
  Qed.

  Lemma authorised_range C v : authorised_by C v -> canonical v /\ vrp_in_range v.
  Proof.
    intros (path & i & u & spki & n & _ & _ & _ & chain & r & cu & ee & files & crl & b & sd & body & ro & _ & _ & _ & _ & _ & _ & _ & _ & Ca & L & A & _).
    split; [exact Ca|]. destruct Ca as (C1 & C2 & _). split; [unfold is_u32; lia|]. unfold is_byte. destruct (v_fam v); cbn [width] in *; repeat split; lia.
  Qed.

  Lemma cycle_good C run h s t s' : plausible C -> (forall c, In c h -> files_ok (snd c)) ->
    (forall path, is_tal (c_tals C) path -> becomes C path (run path)) -> slurm_at pton4 pton6 b64url valid_spki h s ->
    one_cycle C run s = Ok (Validated t, s') ->
    good C (match c_slurm C with None => [] | Some x => [x] end ++ h) t.
  Proof.
    intros P OKh B AT H. unfold Cycle.one_cycle in H.
    destruct (perform_standalone_validation (c_realpath C) run (c_tals C)) as [db| |] eqn:PE; cbn [bind] in H; try discriminate H.
    destruct db as [t0|]; [|discriminate H].
    assert (BS : forall path, tal_file (c_tals C) path -> match run path with
      | NoThread => True | Failed e => e <> 0
      | Done db => (forall v, roas_of db v -> authorised_by C v) /\ t_rks db = [] /\ table_ok db /\
          (still (world_of C path (key_of_tal C path)) -> exists u, elected C path (key_of_tal C path) u /\
             forall v, roas_of db v <-> of_tree (world_of C path (key_of_tal C path)) u v)
      end).
    { intros path T. apply becomes_spec; [exact P|exact T|]. apply B, is_tal_file. exact T. }
    destruct (perform_lem (c_realpath C) run (c_tals C) t0 PE) as (Ex & Al & Ro & Rk & Ok0).
    { intros path T Q. specialize (BS path T). rewrite Q in BS. congruence. }
    assert (Au : forall v, roas_of t0 v -> authorised_by C v).
    { intros v Hv. apply Ro in Hv. destruct Hv as (path & d & T & Q & Hv). specialize (BS path T). rewrite Q in BS. apply BS. exact Hv. }
    assert (NoK : t_rks t0 = []).
    { destruct (t_rks t0) as [|k l] eqn:K; [reflexivity|]. exfalso. assert (Hk : rks_of t0 k) by (unfold rks_of; rewrite K; left; reflexivity).
      apply Rk in Hk. destruct Hk as (path & d & T & Q & Hk). specialize (BS path T). rewrite Q in BS. destruct BS as (_ & E & _). unfold rks_of in Hk. rewrite E in Hk. exact Hk. }
    assert (T0 : table_ok t0).
    { apply Ok0. intros path d T Q. specialize (BS path T). rewrite Q in BS. apply BS. }
    assert (Ca : Forall canonical (t_roas t0)) by (apply Forall_forall; intros v Hv; apply (authorised_range C); apply Au; exact Hv).
    assert (Exact : (forall path, tal_file (c_tals C) path -> still (world_of C path (key_of_tal C path))) ->
      (forall path, tal_file (c_tals C) path -> exists u, elected C path (key_of_tal C path) u) /\
      forall v, roas_of t0 v <-> exists path u, tal_file (c_tals C) path /\ elected C path (key_of_tal C path) u /\ of_tree (world_of C path (key_of_tal C path)) u v).
    { intros St. split.
      - intros path T. destruct (Al path T) as (d & Q). specialize (BS path T). rewrite Q in BS. destruct BS as (_ & _ & _ & X). destruct (X (St path T)) as (u & E & _). eauto.
      - intros v. rewrite Ro. split.
        + intros (path & d & T & Q & Hv). pose proof (BS path T) as X. rewrite Q in X. destruct X as (_ & _ & _ & X). destruct (X (St path T)) as (u & E & F). exists path, u. split; [exact T|]. split; [exact E|]. apply F. exact Hv.
        + intros (path & u & T & E & Hv). destruct (Al path T) as (d & Q). exists path, d. split; [exact T|]. split; [exact Q|]. pose proof (BS path T) as X. rewrite Q in X. destruct X as (_ & _ & _ & X).
          destruct (X (St path T)) as (u' & E' & F). rewrite (elected_unique _ _ _ _ _ E E') in Hv. apply F. exact Hv. }
    (* it is enough to know the SLURM files *)
    assert (Done : forall files, rules C (match c_slurm C with None => [] | Some x => [x] end ++ h) files -> table_ok t ->
      (forall v, roas_of t v <-> to_publish pton4 pton6 (roas_of t0) files v) -> (forall k, rks_of t k <-> asserted_key b64url files k) ->
      good C (match c_slurm C with None => [] | Some x => [x] end ++ h) t).
    { intros files R Tk Rv Rkk. exists files. split; [exact R|]. split; [exact Tk|].
      assert (Rg : files = [] \/ (files_ok files /\ exists l, loads pton4 pton6 b64url valid_spki files l)).
      { eapply rules_files; [|exact R]. intros c I. apply in_app_or in I. destruct I as [I|I]; [|apply OKh; exact I].
        destruct (c_slurm C) as [[cs fs]|] eqn:ES; [|elim I]. destruct I as [<-|[]]. intros r Hr. eapply (pl_slurm C P); eauto. }
      split.
      { split; apply Forall_forall.
        - intros v Hv. apply Rv in Hv. destruct Hv as [(Hv & _)|Hv]; [apply (authorised_range C); apply Au; exact Hv|].
          destruct Rg as [->|(Of & l & L)]; [destruct Hv as (j & (root & a & b & [] & _) & _)|]. eapply asserted_range; eauto.
        - intros k Hk. apply Rkk in Hk. destruct Rg as [->|(Of & l & L)]; [destruct Hk as (j & (root & a & b & [] & _) & _)|]. eapply asserted_key_range; eauto. }
      split; [intros v Hv; apply Rv in Hv; destruct Hv as [(Hv & Nf)|Hv]; [left; split; [apply Au; exact Hv|exact Nf]|right; exact Hv]|].
      split; [intros v Hv; apply Rv; right; exact Hv|]. split; [exact Rkk|].
      intros St. destruct (Exact St) as (X1 & X2). split; [exact X1|]. intros v. rewrite Rv. unfold to_publish. rewrite X2. reflexivity. }
    destruct (c_slurm C) as [[cs fs]|] eqn:ES.
    2:{ injection H as <- <-. apply (Done []); [unfold CycleSpec.rules; rewrite ES; reflexivity|exact T0| |].
        - intros v. split; [intros Hv; left; split; [exact Hv|]|intros [(Hv & _)|Hv]; [exact Hv|]].
          + intros (j & (root & a & b & [] & _) & _).
          + destruct Hv as (j & (root & a & b & [] & _) & _).
        - intros k. unfold rks_of. rewrite NoK. split; [intros []|intros (j & (root & a & b & [] & _) & _)]. }
    cbn [app] in *. destruct (slurm_apply pton4 pton6 b64url valid_spki t0 s cs fs) as [[t1 s1]| |] eqn:SA; try discriminate H. injection H as -> ->.
    unfold slurm_apply in SA. destruct (update_slurm pton4 pton6 b64url valid_spki s cs fs) as [s1| |] eqn:U; cbn [bind] in SA; try discriminate SA.
    assert (AT' : slurm_at pton4 pton6 b64url valid_spki ((cs, fs) :: h) s1) by (econstructor; eauto).
    pose proof (C26_history pton4 pton6 b64url valid_spki _ _ AT') as IFo.
    destruct s1 as [db|].
    2:{ injection SA as <- <-. apply (Done []); [unfold CycleSpec.rules; rewrite ES; left; auto|exact T0| |].
        - intros v. split; [intros Hv; left; split; [exact Hv|]|intros [(Hv & _)|Hv]; [exact Hv|]].
          + intros (j & (root & a & b & [] & _) & _).
          + destruct Hv as (j & (root & a & b & [] & _) & _).
        - intros k. unfold rks_of. rewrite NoK. split; [intros []|intros (j & (root & a & b & [] & _) & _)]. }
    destruct IFo as (h1 & f & h0 & E & A1 & A2 & A3 & A4).
    assert (OKf : files_ok f).
    { assert (IC : In (Ok (csums db), f) ((cs, fs) :: h)) by (rewrite E; apply in_app_iff; right; left; reflexivity).
      destruct IC as [IC|IC]; [|apply (OKh _ IC)]. injection IC as -> ->. intros r Hr. eapply (pl_slurm C P); eauto. }
    destruct (apply_lists_spec pton4 pton6 b64url valid_spki PT f (lists db) OKf A2 SPKI t0 Ca) as (t1 & E1 & R1 & R2); [rewrite NoK; constructor|].
    rewrite E1 in SA. cbn [bind] in SA. injection SA as SA _. subst t1.
    apply (Done f).
    - unfold CycleSpec.rules. rewrite ES. right. exists db, h1, h0. rewrite E. auto.
    - eapply apply_lists_ok; [exact T0|exact E1].
    - exact R1.
    - intros k. unfold rks_of. rewrite (R2 k), NoK. split; [intros [([] & _)|K]; exact K|auto].
  Qed.

  (** The SLURM kept, and what cycles do to the history. *)
  Lemma one_cycle_slurm C run h s c s' : slurm_at pton4 pton6 b64url valid_spki h s -> one_cycle C run s = Ok (c, s') ->
    slurm_at pton4 pton6 b64url valid_spki (match c, c_slurm C with ValidationFailed, _ | _, None => [] | _, Some x => [x] end ++ h) s'.
  Proof.
    intros AT H. unfold Cycle.one_cycle in H. destruct (perform_standalone_validation _ _ _) as [db| |]; cbn [bind] in H; try discriminate H.
    destruct db as [t0|]; [|injection H as <- <-; exact AT].
    destruct (c_slurm C) as [[cs fs]|]; [|injection H as <- <-; exact AT].
    destruct (slurm_apply pton4 pton6 b64url valid_spki t0 s cs fs) as [[t1 s1]|e|] eqn:SA; try discriminate H.
    - injection H as <- <-. cbn [app]. unfold slurm_apply in SA. destruct (update_slurm pton4 pton6 b64url valid_spki s cs fs) as [s2| |] eqn:U; cbn [bind] in SA; try discriminate SA.
      assert (E : s2 = s1) by (destruct s2; [destruct (apply_lists t0 _); cbn [bind] in SA; try discriminate SA|]; injection SA as _ <-; reflexivity). subst s2. econstructor; eauto.
    - injection H as <- <-. cbn [app]. unfold slurm_apply in SA. destruct (update_slurm pton4 pton6 b64url valid_spki s cs fs) as [s2|e2|] eqn:U; cbn [bind] in SA; try discriminate SA.
      + eapply sa_ok; eauto.
      + eapply sa_fail; eauto.
  Qed.

  Lemma slurm_history_snoc Cs : forall cs C c, length Cs = length cs ->
    slurm_history (Cs ++ [C]) (cs ++ [c]) = match c, c_slurm C with ValidationFailed, _ | _, None => [] | _, Some x => [x] end ++ slurm_history Cs cs.
  Proof.
    clear. induction Cs as [|D Cs IH]; intros [|d cs] C c L; try discriminate L; cbn [app slurm_history].
    - rewrite app_nil_r. reflexivity.
    - injection L as L. rewrite IH by exact L. rewrite app_assoc. reflexivity.
  Qed.
  Lemma slurm_history_files Cs : forall cs, (forall C, In C Cs -> plausible C) -> forall c, In c (slurm_history Cs cs) -> files_ok (snd c).
  Proof.
    clear. induction Cs as [|C Cs IH]; intros [|d cs] P c I; cbn [slurm_history] in I; try contradiction. apply in_app_or in I. destruct I as [I|I].
    - eapply IH; [intros; apply P; right; assumption|exact I].
    - assert (PC : plausible C) by (apply P; left; reflexivity). destruct d, (c_slurm C) as [[a b]|] eqn:E; cbn in I; try contradiction; destruct I as [<-|[]]; intros r Hr; eapply (pl_slurm C PC); eauto.
  Qed.

  Lemma history_inv Cs s cs : history Cs s cs -> (forall C, In C Cs -> plausible C) ->
    length Cs = length cs /\ slurm_at pton4 pton6 b64url valid_spki (slurm_history Cs cs) s /\
    forall Cs1 C Cs2 cs1 t cs2, Cs = Cs1 ++ C :: Cs2 -> cs = cs1 ++ Validated t :: cs2 -> length Cs1 = length cs1 ->
      good C (slurm_history (Cs1 ++ [C]) (cs1 ++ [Validated t])) t.
  Proof.
    intros H. induction H as [|Cs s cs C run c s' H IH B O]; intros P.
    - split; [reflexivity|]. split; [constructor|]. intros [|] ? ? ? ? ? E; discriminate E.
    - destruct IH as (L & AT & G); [intros; apply P; apply in_app_iff; left; assumption|].
      assert (PC : plausible C) by (apply P; apply in_app_iff; right; left; reflexivity).
      split; [rewrite !app_length; cbn; lia|]. split; [rewrite slurm_history_snoc by exact L; eapply one_cycle_slurm; eassumption|].
      intros Cs1 D Cs2 cs1 t cs2 E1 E2 L1.
      destruct Cs2 as [|X Cs2 _] using rev_ind; destruct cs2 as [|y cs2 _] using rev_ind.
      + apply app_inj_tail in E1. destruct E1 as (<- & <-). apply app_inj_tail in E2. destruct E2 as (<- & ->).
        rewrite slurm_history_snoc by exact L. eapply cycle_good; eauto. apply slurm_history_files. intros; apply P; apply in_app_iff; left; assumption.
      + exfalso. apply (f_equal (@length _)) in E1. apply (f_equal (@length _)) in E2. rewrite !app_length in *. cbn in *. rewrite !app_length in *. cbn in *. lia.
      + exfalso. apply (f_equal (@length _)) in E1. apply (f_equal (@length _)) in E2. rewrite !app_length in *. cbn in *. rewrite !app_length in *. cbn in *. lia.
      + change (Cs1 ++ D :: Cs2 ++ [X]) with (Cs1 ++ (D :: Cs2) ++ [X]) in E1. change (cs1 ++ Validated t :: cs2 ++ [y]) with (cs1 ++ (Validated t :: cs2) ++ [y]) in E2.
        rewrite app_assoc in E1, E2. apply app_inj_tail in E1. destruct E1 as (E1 & _). apply app_inj_tail in E2. destruct E2 as (E2 & _). eapply G; eassumption.
  Qed.

  Lemma history_ok Cs s cs : history Cs s cs -> (forall C, In C Cs -> plausible C) -> Forall cycle_ok cs /\ Forall cycle_in_range cs.
  Proof.
    intros H P. destruct (history_inv Cs s cs H P) as (L & _ & G).
    assert (K : forall c, In c cs -> cycle_ok c /\ cycle_in_range c).
    { intros c I. destruct c as [| |t]; [split; exact Logic.I|split; exact Logic.I|]. apply in_split in I. destruct I as (cs1 & cs2 & E).
      assert (X : exists Cs1 C Cs2, Cs = Cs1 ++ C :: Cs2 /\ length Cs1 = length cs1).
      { exists (firstn (length cs1) Cs). subst cs. rewrite app_length in L. cbn in L.
        destruct (skipn (length cs1) Cs) as [|C Cs2] eqn:Sk.
        - apply (f_equal (@length _)) in Sk. rewrite skipn_length in Sk. cbn in Sk. lia.
        - exists C, Cs2. split; [rewrite <- Sk; symmetry; apply firstn_skipn|]. rewrite firstn_length. lia. }
      destruct X as (Cs1 & C & Cs2 & EC & LC). destruct (G _ _ _ _ _ _ EC E LC) as (files & _ & A & B & _). split; [exact A|exact B]. }
    split; apply Forall_forall; intros c I; apply (K c I).
  Qed.

  (** The table a state has: that of the last cycle that changed it. *)
  Lemma base_from lifetime cs : forall now s t, 1 <= lifetime < 2147483648 -> Forall cycle_ok cs -> vrps_run lifetime (vrps_init lifetime now) cs = Ok s -> s_base s = Some t ->
    exists cs1 cs2, cs = cs1 ++ Validated t :: cs2 /\ Forall (fun c => match c with Validated t' => same_data t t' | _ => True end) cs2.
  Proof.
    intros now s t HL Hc R B. destruct (converge_lem lifetime now cs HL Hc) as (s' & h & R' & Pb & _ & B' & _). rewrite R in R'. injection R' as <-. rewrite B in B'. symmetry in B'.
    clear R B s Hc. assert (G : forall h0 cs h, VrpsSpec.publishes h0 cs h -> forall t, nth_error h (length h - 1) = Some t ->
      (nth_error h0 (length h0 - 1) = Some t /\ Forall (fun c => match c with Validated t' => same_data t t' | _ => True end) cs) \/
      exists cs1 cs2, cs = cs1 ++ Validated t :: cs2 /\ Forall (fun c => match c with Validated t' => same_data t t' | _ => True end) cs2).
    { clear. intros h0 cs h Pb. induction Pb as [h|h cs h' H IH|h e cs h' H IH|t cs h' H IH|h p t cs h' Hd H IH|h p t cs h' Hd H IH]; intros u N; cbn [app] in *.
      - left. split; [exact N|constructor].
      - destruct (IH u N) as [(A & B)|(c1 & c2 & -> & B)]; [left; split; [exact A|constructor; [exact I|exact B]]|right; exists (ValidationFailed :: c1), c2; auto].
      - destruct (IH u N) as [(A & B)|(c1 & c2 & -> & B)]; [left; split; [exact A|constructor; [exact I|exact B]]|right; exists (SlurmFailed e :: c1), c2; auto].
      - destruct (IH u N) as [(A & B)|(c1 & c2 & -> & B)]; [injection A as <-; right; exists [], cs; auto|right; exists (Validated t :: c1), c2; auto].
      - destruct (IH u N) as [(A & B)|(c1 & c2 & -> & B)]; [|right; exists (Validated t :: c1), c2; auto].
        left. split; [exact A|]. constructor; [|exact B]. rewrite app_length, nth_error_app2 in A by (cbn; lia). cbn in A. replace (length h + 1 - 1 - length h)%nat with 0%nat in A by lia. injection A as <-. exact Hd.
      - destruct (IH u N) as [(A & B)|(c1 & c2 & -> & B)]; [|right; exists (Validated t :: c1), c2; auto].
        right. change (h ++ p :: [t]) with (h ++ [p] ++ [t]) in A. rewrite app_assoc, app_length, nth_error_app2 in A by (cbn; lia). cbn [length] in A. replace (length (h ++ [p]) + 1 - 1 - length (h ++ [p]))%nat with 0%nat in A by lia. injection A as <-. exists [], cs. auto. }
    destruct (G _ _ _ Pb t B') as [(A & _)|X]; [discriminate A|exact X].
  Qed.
End Slurm.
