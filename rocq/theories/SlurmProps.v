(** C24-C26, C54, C55: SLURM. *)
From Coq Require Import String Permutation.
From Verif Require Import Base BaseLemmas Types HashSet DbTable CString CLib PduWireSpec Address AddressSpec AddressProofs
  VrpsProofs Slurm SlurmSpec SlurmProofs SlurmProofs2 SlurmProofs3 SlurmProofs4.
Notation length := List.length.

(** ** C24: filters remove exactly the matching entries. *)
Theorem C24_vrp pton4 pton6 b64url valid_spki files l v :
  pton_ok pton4 pton6 -> files_ok files -> loads pton4 pton6 b64url valid_spki files l -> canonical v ->
  (db_slurm_vrp_is_filtered l v = true <->
   exists j, prefix_filter files j /\ filter_matches_vrp pton4 pton6 j v).
Proof. intros PT OKF LOAD C. exact (vrp_filtered_iff pton4 pton6 b64url valid_spki PT files l OKF LOAD v C). Qed.

Theorem C24_key pton4 pton6 b64url valid_spki files l k :
  pton_ok pton4 pton6 -> files_ok files -> loads pton4 pton6 b64url valid_spki files l -> key_sized k ->
  exists b, db_slurm_bgpsec_is_filtered l k = Ok b /\
    (b = true <-> exists j, bgpsec_filter files j /\ filter_matches_key b64url j k).
Proof. intros PT OKF LOAD KS. eapply key_filtered_iff; eauto. Qed.

(** ** C26: which SLURM is in force. *)
Section History.
  Variable pton4 : list Z -> option Z.
  Variable pton6 : list Z -> option (list Z).
  Variable b64url : list Z -> option (list Z).
  Variable valid_spki : list Z -> bool.
  Notation update := (update_slurm pton4 pton6 b64url valid_spki).
  Notation unloadable := (unloadable pton4 pton6 b64url valid_spki).
  Notation loads := (loads pton4 pton6 b64url valid_spki).

  Lemma has_data_iff l : db_slurm_has_data l = false <-> no_rules l.
  Proof.
    unfold no_rules, db_slurm_has_data, slurm_lists_create. destruct l as [a b c d].
    cbn [filter_pfx filter_bgps assertion_pfx assertion_bgps].
    rewrite !orb_false_iff, !negb_false_iff, !Nat.eqb_eq. split.
    - destruct a, b, c, d; cbn; intros (((H1 & H2) & H3) & H4); congruence.
    - intros H. inversion H. auto.
  Qed.

  Lemma csums_same new old : are_csum_lists_equals new old = true -> same_files new old.
  Proof.
    intros H. split; [|split].
    - unfold are_csum_lists_equals in H. destruct (Nat.eqb (length new) (length old)) eqn:L; [|discriminate].
      apply Nat.eqb_eq in L. auto.
    - unfold are_csum_lists_equals in H. destruct (Nat.eqb (length new) (length old)) eqn:L; [|discriminate].
      cbn [negb] in H. rewrite forallb_forall in H. intros x Hx. specialize (H _ Hx). apply existsb_exists in H.
      destruct H as (y & Hy & E). apply keyeq in E. subst. auto.
    - intros ND. apply csums_equal_perm; auto.
  Qed.

  Lemma load_cases cs files : match load_slurm_files pton4 pton6 b64url valid_spki cs files with
    | Ok (Some db) => csums db = cs /\ loads files (lists db) /\ ~ no_rules (lists db)
    | Ok None => exists l, loads files l /\ no_rules l
    | Err _ => unloadable files
    | UB => True
    end.
  Proof.
    unfold load_slurm_files, unloadable, loads.
    destruct (parse_files _ _ _ _ files slurm_lists_create) as [l|e|]; cbn [bind]; eauto.
    destruct (db_slurm_has_data l) eqn:D.
    - cbn [csums lists]. split; auto. split; auto. rewrite <- has_data_iff. congruence.
    - exists l. split; auto. apply has_data_iff; auto.
  Qed.

  Notation in_force := (in_force pton4 pton6 b64url valid_spki).
  Notation keeps := (keeps pton4 pton6 b64url valid_spki).
  Lemma keep_step h s c : in_force h s -> keeps (option_map csums s) c -> in_force (c :: h) s.
  Proof.
    destruct s as [db|]; cbn [option_map].
    - intros (h1 & f & h0 & -> & A1 & A2 & A3 & A4) K. exists (c :: h1), f, h0. repeat split; auto.
    - intros [F|(h1 & cs & f & h0 & -> & A1 & A2)] K; [left; auto|].
      right. exists (c :: h1), cs, f, h0. repeat split; auto.
  Qed.
  Lemma update_step h s cs files s' : in_force h s -> update s cs files = Ok s' -> in_force ((cs, files) :: h) s'.
  Proof.
    intros IH U. unfold update_slurm in U. destruct cs as [cs|e|]; cbn [bind] in U; try discriminate.
    destruct (Nat.eqb (length cs) 0) eqn:L.
    { inversion U; subst s'. right. exists [], cs, files, h. split; auto. split; [|constructor].
      left. apply Nat.eqb_eq in L. destruct cs; auto; discriminate. }
    assert (NE : cs <> []) by (intros ->; discriminate). clear L.
    pose proof (load_cases cs files) as LC.
    assert (REST : match load_slurm_files pton4 pton6 b64url valid_spki cs files with
       | Ok n => Ok n | Err _ => Ok s | UB => UB end = Ok s' -> in_force ((Ok cs, files) :: h) s').
    { destruct (load_slurm_files _ _ _ _ cs files) as [n|e|]; intros E; inversion E; subst.
      - destruct s' as [db|].
        + destruct LC as (<- & L1 & L2). exists [], files, h. repeat split; auto.
        + right. exists [], cs, files, h. repeat split; auto.
      - apply keep_step; auto. split; auto. }
    destruct s as [o|]; auto.
    destruct (are_csum_lists_equals cs (csums o)) eqn:Q; auto. inversion U; subst s'.
    apply keep_step; auto. split; auto. left. apply csums_same; auto.
  Qed.

  (** After any history of cycles, the SLURM in force comes from the last cycle
      whose files were hashed, differed from those then in force, and loaded
      without error; a directory without files (or without rules) means no
      SLURM; files that fail to load change nothing. *)
  Theorem C26_history h s : slurm_at pton4 pton6 b64url valid_spki h s -> in_force h s.
  Proof.
    induction 1 as [|h s cs files s' R IH U|h s cs files e R IH U].
    - left. constructor.
    - eapply update_step; eauto.
    - apply keep_step; auto. unfold update_slurm in U. unfold keeps. cbn [fst snd].
      destruct cs as [cs|e'|]; cbn [bind] in U; auto. exfalso.
      destruct (Nat.eqb (length cs) 0); [discriminate|].
      destruct s as [o|]; [destruct (are_csum_lists_equals cs (csums o)); [discriminate|]|];
        destruct (load_slurm_files _ _ _ _ cs files); discriminate.
  Qed.

  (** When no two of the current files have the same content, the rules are read
      again exactly when the current files are not those of the rules in force. *)
  Theorem C26_reload db cs files : NoDup cs -> cs <> [] ->
    (Permutation cs (csums db) -> update (Some db) (Ok cs) files = Ok (Some db)) /\
    (~ Permutation cs (csums db) ->
       (forall l, loads files l -> ~ no_rules l ->
          update (Some db) (Ok cs) files = Ok (Some {| lists := l; csums := cs |})) /\
       (forall l, loads files l -> no_rules l -> update (Some db) (Ok cs) files = Ok None) /\
       (unloadable files -> update (Some db) (Ok cs) files = Ok (Some db))).
  Proof.
    intros ND NE. unfold update_slurm. cbn [bind].
    assert (L : Nat.eqb (length cs) 0 = false) by (destruct cs; [congruence|reflexivity]). rewrite L.
    pose proof (csums_equal_perm cs (csums db) ND) as Q. split; intros P.
    - apply Q in P. rewrite P. reflexivity.
    - destruct (are_csum_lists_equals cs (csums db)). { destruct P. apply Q. reflexivity. }
      unfold load_slurm_files, SlurmSpec.loads, SlurmSpec.unloadable. split; [|split].
      + intros l -> NR. cbn [bind]. destruct (db_slurm_has_data l) eqn:D; auto.
        apply has_data_iff in D. contradiction.
      + intros l -> NR. cbn [bind]. apply has_data_iff in NR. rewrite NR. reflexivity.
      + intros (e & ->). reflexivity.
  Qed.

  (** No files: no SLURM. *)
  Theorem C26_none s files : update s (Ok []) files = Ok None.
  Proof. reflexivity. Qed.

  (** ** C25: the data is what is not filtered plus what is asserted, by the
      files of the SLURM in force. *)
  Definition applied (files : list (option json)) (t t' : db_table) : Prop :=
    (forall v, In v (t_roas t') <->
       (In v (t_roas t) /\ ~ exists j, prefix_filter files j /\ filter_matches_vrp pton4 pton6 j v) \/
       exists j, prefix_assertion files j /\ asserts_vrp pton4 pton6 j v) /\
    (forall k, In k (t_rks t') <->
       (In k (t_rks t) /\ ~ exists j, bgpsec_filter files j /\ filter_matches_key b64url j k) \/
       exists j, bgpsec_assertion files j /\ asserts_key b64url j k).

  Theorem C25_apply h s t cs files t' s' :
    pton_ok pton4 pton6 -> (forall x, valid_spki x = true -> length x = 91%nat) ->
    (forall c, In c ((cs, files) :: h) -> files_ok (snd c)) ->
    Forall canonical (t_roas t) -> Forall key_sized (t_rks t) ->
    slurm_at pton4 pton6 b64url valid_spki h s ->
    slurm_apply pton4 pton6 b64url valid_spki t s cs files = Ok (t', s') ->
    slurm_at pton4 pton6 b64url valid_spki ((cs, files) :: h) s' /\
    match s' with
    | None => t' = t
    | Some db => exists c, In c ((cs, files) :: h) /\ fst c = Ok (csums db) /\
        loads (snd c) (lists db) /\ applied (snd c) t t'
    end.
  Proof.
    intros PT SPKI OKF CR CK AT AP. unfold slurm_apply in AP.
    destruct (update s cs files) as [s1| |] eqn:U; cbn [bind] in AP; try discriminate.
    assert (AT' : slurm_at pton4 pton6 b64url valid_spki ((cs, files) :: h) s1) by (econstructor; eauto).
    destruct s1 as [db|]; [|inversion AP; subst; auto].
    destruct (C26_history _ _ AT') as (h1 & f & h0 & E & A1 & A2 & A3 & A4).
    assert (IC : In (Ok (csums db), f) ((cs, files) :: h)) by (rewrite E; apply in_app_iff; right; left; auto).
    destruct (apply_lists_spec pton4 pton6 b64url valid_spki PT f (lists db) (OKF _ IC) A2 SPKI t CR CK)
      as (t1 & E1 & R1 & R2).
    rewrite E1 in AP. cbn [bind] in AP. inversion AP; subst t' s'. split; auto.
    exists (Ok (csums db), f). repeat split; auto; apply R1 || apply R2.
  Qed.

  (** ... and applying it cannot fail. *)
  Theorem C25_total h s t cs files s' :
    pton_ok pton4 pton6 -> (forall x, valid_spki x = true -> length x = 91%nat) ->
    (forall c, In c ((cs, files) :: h) -> files_ok (snd c)) ->
    Forall canonical (t_roas t) -> Forall key_sized (t_rks t) ->
    slurm_at pton4 pton6 b64url valid_spki h s -> update s cs files = Ok s' ->
    exists t', slurm_apply pton4 pton6 b64url valid_spki t s cs files = Ok (t', s').
  Proof.
    intros PT SPKI OKF CR CK AT U. unfold slurm_apply. rewrite U. cbn [bind].
    assert (AT' : slurm_at pton4 pton6 b64url valid_spki ((cs, files) :: h) s') by (econstructor; eauto).
    destruct s' as [db|]; eauto.
    destruct (C26_history _ _ AT') as (h1 & f & h0 & E & A1 & A2 & A3 & A4).
    assert (IC : In (Ok (csums db), f) ((cs, files) :: h)) by (rewrite E; apply in_app_iff; right; left; auto).
    destruct (apply_lists_spec pton4 pton6 b64url valid_spki PT f (lists db) (OKF _ IC) A2 SPKI t CR CK)
      as (t1 & E1 & R1 & R2).
    rewrite E1. cbn [bind]. eauto.
  Qed.
End History.

(** ** C54: the files that are accepted. *)
Theorem C54_grammar pton4 pton6 b64url valid_spki root :
  pton_ok pton4 pton6 -> json_ok root ->
  ((exists l, slurm_parse pton4 pton6 b64url valid_spki (Some root) slurm_lists_create = Ok l) <->
   slurm_file_ok pton4 pton6 b64url valid_spki root).
Proof. intros PT OK. apply file_iff; auto. Qed.

(** RFC 8416 section 4.2: no prefix of a file overlaps one of another file, and no
    AS number of a BGPsec rule appears in two files. *)
Theorem C54_conflicts pton4 pton6 b64url valid_spki f1 a f2 b f3 l :
  pton_ok pton4 pton6 -> files_ok (f1 ++ Some a :: f2 ++ Some b :: f3) ->
  loads pton4 pton6 b64url valid_spki (f1 ++ Some a :: f2 ++ Some b :: f3) l ->
  (forall fam a1 l1 a2 l2 ip, uses_prefix pton4 pton6 a fam a1 l1 -> uses_prefix pton4 pton6 b fam a2 l2 ->
     in_prefix (width fam) a1 l1 ip -> in_prefix (width fam) a2 l2 ip -> False) /\
  (forall n, uses_asn a n -> uses_asn b n -> False).
Proof. intros PT OKF LOAD. eapply no_conflict; eauto. Qed.

(** ** A concrete file. *)
Definition ex_pton4 (s : list Z) : option Z :=
  if list_eqb Z.eqb s (cstr "10.0.0.0") then Some (10 * 2 ^ 24)
  else if list_eqb Z.eqb s (cstr "192.0.2.0") then Some (192 * 2 ^ 24 + 2 * 2 ^ 8) else None.
Definition ex_pton6 (s : list Z) : option (list Z) :=
  if list_eqb Z.eqb s (cstr "2001:db8::") then Some ([32; 1; 13; 184] ++ repeat 0 12) else None.
(** A stand-in for the decoder: text of 'A's is zeros. *)
Definition ex_b64 (s : list Z) : option (list Z) :=
  if forallb (fun c => c =? 65) s then Some (repeat 0 (length s * 3 / 4)%nat) else None.
Definition ex_spki (s : list Z) : bool := Nat.eqb (length s) 91.
Definition o (l : list (string * json)) : json := JObj (map (fun p => (cstr (fst p), snd p)) l).
Definition str (s : string) : json := JStr (cstr s).
Definition ex_file : json :=
  o [("slurmVersion", JInt 1);
     ("validationOutputFilters", o [
        ("prefixFilters", JArr [o [("prefix", str "10.0.0.0/8"); ("comment", str "mine")]; o [("asn", JInt 64496)]]);
        ("bgpsecFilters", JArr [o [("asn", JInt 64500)]])]);
     ("locallyAddedAssertions", o [
        ("prefixAssertions", JArr [o [("asn", JInt 64497); ("prefix", str "10.0.0.0/16"); ("maxPrefixLength", JInt 24)]]);
        ("bgpsecAssertions", JArr [o [("asn", JInt 64498); ("SKI", JStr (repeat 65 27)); ("routerPublicKey", JStr (repeat 65 122))]])])]%string.
Definition ex_table : db_table :=
  {| t_roas := [{| v_asn := 64499; v_addr := 10 * 2 ^ 24 + 2 ^ 16; v_len := 16; v_max := 16; v_fam := AF_INET |};
                {| v_asn := 64499; v_addr := 192 * 2 ^ 24 + 2 * 2 ^ 8; v_len := 24; v_max := 24; v_fam := AF_INET |};
                {| v_asn := 64496; v_addr := 192 * 2 ^ 24 + 2 * 2 ^ 8; v_len := 24; v_max := 24; v_fam := AF_INET |}];
     t_rks := [] |}.

Lemma ex_pton_ok : pton_ok ex_pton4 ex_pton6.
Proof.
  split; intros s a; unfold ex_pton4, ex_pton6.
  - destruct (list_eqb _ _ _); [intros H; inversion H; lia|].
    destruct (list_eqb _ _ _); intros H; inversion H; lia.
  - destruct (list_eqb _ _ _); intros H; inversion H. split; auto. repeat constructor; unfold is_byte; lia.
Qed.
Fixpoint json_okb (j : json) : bool :=
  match j with
  | JObj m => (fix nd (l : list (list Z * json)) := match l with
                | [] => true
                | (k, v) :: t => negb (existsb (fun p => list_eqb Z.eqb k (fst p)) t) && json_okb v && nd t end) m
  | JArr l => forallb json_okb l
  | _ => true
  end.
Lemma json_okb_ok : forall j, json_okb j = true -> json_ok j.
Proof.
  fix IH 1. intros [m|l|s|n| |]; intros H; try constructor.
  - induction m as [|[k v] m IHm]; [constructor|]. cbn in H. rewrite !andb_true_iff in H. destruct H as [[H1 H2] H3].
    constructor; [|apply IHm; auto]. intros I. apply in_map_iff in I. destruct I as ([k' v'] & E & I). cbn [fst] in E. subst k'.
    apply negb_true_iff in H1. assert (existsb (fun p => list_eqb Z.eqb k (fst p)) m = true); [|congruence].
    apply existsb_exists. exists (k, v'). split; auto. apply keyeq. reflexivity.
  - assert (F : Forall (fun p => json_ok (snd p)) m).
    { revert H. induction m as [|[k v] m IHm]; intros H; [constructor|].
      cbn in H. apply andb_true_iff in H. destruct H as [H H3]. apply andb_true_iff in H. destruct H as [_ H2].
      constructor; [apply IH; exact H2|apply IHm; exact H3]. }
    intros k v I. rewrite Forall_forall in F. exact (F _ I).
  - assert (F : Forall json_ok l).
    { revert H. induction l as [|v l IHl]; intros H; [constructor|].
      cbn [json_okb forallb] in H. apply andb_true_iff in H. destruct H as [H1 H2].
      constructor; [apply IH; exact H1|apply IHl; exact H2]. }
    intros v I. rewrite Forall_forall in F. exact (F _ I).
Qed.

(** The file is accepted; applied to the table, 10.1.0.0/16 (inside 10.0.0.0/8)
    and the entry of AS 64496 go away, and the assertions come in although
    10.0.0.0/16 is inside a filter. *)
Example ex_apply : exists l t', loads ex_pton4 ex_pton6 ex_b64 ex_spki [Some ex_file] l /\
  slurm_apply ex_pton4 ex_pton6 ex_b64 ex_spki ex_table None (Ok [[1]]) [Some ex_file]
    = Ok (t', Some {| lists := l; csums := [[1]] |}) /\
  map v_asn (t_roas t') = [64499; 64497] /\ map rk_asn (t_rks t') = [64498] /\ files_ok [Some ex_file] /\
  (forall x, ex_spki x = true -> length x = 91%nat) /\
  Forall canonical (t_roas ex_table) /\ Forall key_sized (t_rks ex_table).
Proof.
  eexists _, _. split; [vm_compute; reflexivity|]. split; [vm_compute; reflexivity|].
  split; [reflexivity|]. split; [reflexivity|].
  split. { intros r [E|[]]. inversion E; subst. apply json_okb_ok. vm_compute. reflexivity. }
  split. { intros x H. apply Nat.eqb_eq. exact H. }
  split; [|constructor]. repeat constructor; cbn; try lia; try reflexivity.
Qed.
Example ex_grammar : slurm_file_ok ex_pton4 ex_pton6 ex_b64 ex_spki ex_file.
Proof.
  apply C54_grammar; [apply ex_pton_ok|apply json_okb_ok; vm_compute; reflexivity|].
  eexists. vm_compute. reflexivity.
Qed.
(** A history: loaded, then a broken file (kept), then an empty directory. *)
Example ex_history : exists db,
  slurm_at ex_pton4 ex_pton6 ex_b64 ex_spki [(Ok [[2]], [None]); (Ok [[1]], [Some ex_file])] (Some db) /\
  slurm_at ex_pton4 ex_pton6 ex_b64 ex_spki [(Ok [], []); (Ok [[2]], [None]); (Ok [[1]], [Some ex_file])] None.
Proof.
  assert (exists db, slurm_at ex_pton4 ex_pton6 ex_b64 ex_spki [(Ok [[2]], [None]); (Ok [[1]], [Some ex_file])] (Some db)) as (db & A).
  { eexists. eapply sa_ok; [eapply sa_ok; [apply sa_start|]|]; vm_compute; reflexivity. }
  exists db. split; auto. eapply sa_ok; eauto.
Qed.
(** Two files whose prefixes overlap are refused. *)
Definition ex_file2 (pfx : string) : json :=
  o [("slurmVersion", JInt 1);
     ("validationOutputFilters", o [
        ("prefixFilters", JArr [o [("prefix", str pfx)]]); ("bgpsecFilters", JArr [])]);
     ("locallyAddedAssertions", o [("prefixAssertions", JArr []); ("bgpsecAssertions", JArr [])])]%string.
Example ex_conflict :
  parse_files ex_pton4 ex_pton6 ex_b64 ex_spki [Some ex_file; Some (ex_file2 "10.0.0.0/24")] slurm_lists_create = Err EEXIST /\
  (exists l, loads ex_pton4 ex_pton6 ex_b64 ex_spki [Some ex_file; Some (ex_file2 "192.0.2.0/24")] l).
Proof. split; [vm_compute; reflexivity|]. eexists. vm_compute. reflexivity. Qed.

(** ** What is false. *)

(** C25: the sizes of router public keys are not checked; one of 59 bytes (an EC
    point in compressed form), acceptable to OpenSSL, is read out of bounds. *)
Theorem C25_short_key_refuted : exists valid_spki files,
  files_ok files /\ (forall x, valid_spki x = true -> length x = 59%nat) /\
  slurm_apply ex_pton4 ex_pton6 ex_b64 valid_spki {| t_roas := []; t_rks := [] |} None (Ok [[1]]) files = UB.
Proof.
  exists (fun x => Nat.eqb (length x) 59), [Some (
    o [("slurmVersion", JInt 1);
     ("validationOutputFilters", o [("prefixFilters", JArr []); ("bgpsecFilters", JArr [])]);
     ("locallyAddedAssertions", o [("prefixAssertions", JArr []);
        ("bgpsecAssertions", JArr [o [("asn", JInt 64498); ("SKI", JStr (repeat 65 27)); ("routerPublicKey", JStr (repeat 65 79))]])])]%string)].
  split. { intros r [E|[]]. inversion E; subst. apply json_okb_ok. vm_compute. reflexivity. }
  split. { intros x H. apply Nat.eqb_eq. exact H. }
  vm_compute. reflexivity.
Qed.

(** C26: replacing one of two files by a copy of the other is not noticed. *)
Theorem C26_duplicates_refuted : exists db cs files l,
  csums db = [[1]; [2]] /\ cs = [[1]; [1]] /\ ~ Permutation cs (csums db) /\
  loads ex_pton4 ex_pton6 ex_b64 ex_spki files l /\ l <> lists db /\
  slurm_at ex_pton4 ex_pton6 ex_b64 ex_spki
    [(Ok (csums db), [Some (ex_file2 "192.0.2.0/24"); Some (ex_file2 "10.0.0.0/8")])] (Some db) /\
  update_slurm ex_pton4 ex_pton6 ex_b64 ex_spki (Some db) (Ok cs) files = Ok (Some db).
Proof.
  eexists {| lists := _; csums := [[1]; [2]] |}, [[1]; [1]], [Some ex_file], _. split; [reflexivity|]. split; [reflexivity|].
  split. { intros P. apply Permutation_sym in P. apply (Permutation_in [2]) in P; [|cbn; auto].
           destruct P as [P|[P|[]]]; discriminate. }
  split; [vm_compute; reflexivity|]. split; [|split].
  2: { eapply sa_ok; [apply sa_start|]. vm_compute. reflexivity. }
  - discriminate.
  - reflexivity.
Qed.

(** C54: prefix texts are not those of the RFC. *)
Theorem C54_lax_prefix_refuted : exists s, s = cstr "10.0.0.0/8 (mine)/16" /\
  (forall f a l, ~ prefix_text ex_pton4 ex_pton6 s f a l) /\
  (exists l, loads ex_pton4 ex_pton6 ex_b64 ex_spki [Some (ex_file2 "10.0.0.0/8 (mine)/16")] l).
Proof.
  eexists. split; [reflexivity|]. split; [|eexists; vm_compute; reflexivity].
  intros f a l (x & t & E & NI & _ & (_ & D & _) & _).
  assert (I : In 32 t).
  { assert (IN : In 32 (x ++ [47] ++ t)) by (rewrite <- E; vm_compute; tauto).
    apply in_app_iff in IN. destruct IN as [IN|[IN|IN]]; [|discriminate|auto].
    exfalso. apply in_split in IN. destruct IN as (u & w & ->).
    assert (P : firstn (length u) (cstr "10.0.0.0/8 (mine)/16") = u).
    { rewrite E, <- !app_assoc. rewrite firstn_app, firstn_all, Nat.sub_diag. cbn [firstn]. apply app_nil_r. }
    assert (N : nth_error (cstr "10.0.0.0/8 (mine)/16") (length u) = Some 32).
    { rewrite E, <- !app_assoc. rewrite nth_error_app2, Nat.sub_diag; auto. }
    assert (U : ~ In 47 u) by (intros I; apply NI, in_app_iff; auto). rewrite <- P in U. clear P E NI D.
    remember (length u) as n. clear Heqn. do 22 (destruct n as [|n]; [first [discriminate N|apply U; vm_compute; tauto]|]).
    destruct n; discriminate N. }
  rewrite Forall_forall in D. specialize (D _ I). lia.
Qed.

(** Every RFC prefix text is read as what it denotes. *)
Theorem C54_prefix_text pton4 pton6 s f a l :
  prefix_text pton4 pton6 s f a l -> reads_prefix pton4 pton6 s f a l.
Proof. apply prefix_text_reads. Qed.

(** ** C55: reading a file never crashes, unless a prefix text consists of
    slashes only. *)
Lemma bind_UB {A B} (x : res A) (f : A -> res B) : bind x f = UB -> x = UB \/ exists a, x = Ok a /\ f a = UB.
Proof. destruct x; cbn [bind]; eauto; discriminate. Qed.
Ltac ubs H := apply bind_UB in H; destruct H as [H|(? & _ & H)].

Section NoCrash.
  Variable pton4 : list Z -> option Z.
  Variable pton6 : list Z -> option (list Z).
  Variable b64url : list Z -> option (list Z).
  Variable valid_spki : list Z -> bool.
  Definition slashes (s : list Z) : Prop := Forall (fun c => c = 47) s.

  Lemma strtok_None s r : strtok 47 s = (None, r) -> slashes s.
  Proof.
    unfold strtok. destruct (skip_delim 47 s) as [|c t] eqn:E.
    - intros _. revert E. induction s as [|x s IH]; intros E; constructor; cbn [skip_delim] in E;
        destruct (x =? 47) eqn:Q; try discriminate; [lia|apply IH; auto].
    - destruct (span_delim 47 (c :: t)). discriminate.
  Qed.
  Lemma get_str_UB j k : json_get_str j k <> UB.
  Proof. unfold json_get_str. destruct (json_object_get j k) as [[]|]; discriminate. Qed.
  Lemma get_u32_UB j k : json_get_u32 j k <> UB.
  Proof. unfold json_get_u32. destruct (json_object_get j k) as [[]|]; try discriminate. destruct (_ || _); discriminate. Qed.
  Lemma set_asn_UB j ia : set_asn j ia <> UB.
  Proof. intros H. unfold set_asn in H. ubs H; [eapply get_u32_UB; eauto|]. destruct x, ia; discriminate. Qed.
  Lemma set_comment_UB j : set_comment j <> UB.
  Proof. intros H. unfold set_comment in H. ubs H; [eapply get_str_UB; eauto|discriminate]. Qed.
  Lemma plp_UB t m : prefix_length_parse t m <> UB.
  Proof.
    unfold prefix_length_parse. destruct t; [|discriminate]. destruct (strtoul _) as [[? []] ?]; [discriminate|].
    destruct (_ <? _); discriminate.
  Qed.
  Lemma val4_UB a l : ipv4_prefix_validate a l <> UB.
  Proof. unfold ipv4_prefix_validate. destruct (_ =? _); cbn; discriminate. Qed.
  Lemma val6_UB a l : ipv6_prefix_validate a l <> UB.
  Proof. unfold ipv6_prefix_validate. destruct (addr6_bitwise_and _ _); discriminate. Qed.
  Lemma set_prefix_UB j ia : set_prefix pton4 pton6 j ia = UB ->
    exists s, json_object_get j (cstr "prefix") = Some (JStr s) /\ slashes s.
  Proof.
    intros H. unfold set_prefix in H. apply bind_UB in H. destruct H as [H|(r & G & H)]; [destruct (get_str_UB _ _ H)|].
    destruct r as [s|]; [|destruct ia; discriminate].
    unfold json_get_str in G. destruct (json_object_get j (cstr "prefix")) as [[| |s'| | |]|]; try discriminate. inversion G; subst s'.
    exists s. split; auto. destruct (strtok 47 s) as [[tok|] rest] eqn:E; [|eapply strtok_None; eauto]. exfalso.
    destruct (negb _).
    - destruct (pton4 tok); [|discriminate]. ubs H; [eapply plp_UB; eauto|]. ubs H; [eapply val4_UB; eauto|discriminate].
    - destruct (pton6 tok); [|discriminate]. ubs H; [eapply plp_UB; eauto|]. ubs H; [eapply val6_UB; eauto|discriminate].
  Qed.
  Lemma add_prefix_UB ia l c e : db_slurm_add_prefix ia l c e <> UB.
  Proof. unfold db_slurm_add_prefix. destruct (prefix_exists _ _); [discriminate|]. destruct ia; discriminate. Qed.
  Lemma add_bgpsec_UB ia l c e : db_slurm_add_bgpsec ia l c e <> UB.
  Proof. unfold db_slurm_add_bgpsec. destruct (bgpsec_exists _ _); [discriminate|]. destruct ia; discriminate. Qed.
  Lemma smax_UB j ia f : set_max_prefix_length j ia f <> UB.
  Proof.
    intros H. unfold set_max_prefix_length in H. ubs H; [eapply get_u32_UB; eauto|].
    destruct ia; cbn [negb] in H; destruct x; try discriminate. destruct (_ <? _); discriminate.
  Qed.
  Lemma load_single_prefix_UB l c ia j : load_single_prefix pton4 pton6 l c ia j = UB ->
    exists s, json_object_get j (cstr "prefix") = Some (JStr s) /\ slashes s.
  Proof.
    intros H. destruct j as [m| | | | |]; try discriminate. cbn [load_single_prefix] in H.
    ubs H; [destruct (set_asn_UB _ _ H)|]. ubs H; [eapply set_prefix_UB; eauto|]. exfalso.
    destruct x0 as [[[fam addr] len]|]; cbv zeta in H;
      (ubs H; [eapply smax_UB; eauto|]); (ubs H; [eapply set_comment_UB; eauto|]);
      (destruct (_ =? FLAG_COMMENT); [discriminate|]); (destruct (negb ia);
        [destruct (_ =? 0); [discriminate|]|destruct (_ && _); [discriminate|]];
        (destruct (negb _); [discriminate|]; eapply add_prefix_UB; eauto)).
  Qed.
  Lemma vb64_UB s : validate_base64url_encoded s <> UB.
  Proof. unfold validate_base64url_encoded. destruct (has_char 61 s); discriminate. Qed.
  Lemma load_single_bgpsec_UB l c ia j : load_single_bgpsec b64url valid_spki l c ia j <> UB.
  Proof.
    intros H. destruct j as [m| | | | |]; try discriminate. cbn [load_single_bgpsec] in H.
    ubs H; [destruct (set_asn_UB _ _ H)|]. ubs H.
    { unfold set_ski in H. ubs H; [eapply get_str_UB; eauto|]. destruct x0; [|destruct ia; discriminate].
      ubs H; [eapply vb64_UB; eauto|]. destruct (b64url l0); [|discriminate]. destruct (Nat.eqb _ _); discriminate. }
    ubs H.
    { unfold set_router_pub_key in H. ubs H; [eapply get_str_UB; eauto|]. destruct (negb ia); [destruct x1; discriminate|].
      destruct x1; [|discriminate]. ubs H; [eapply vb64_UB; eauto|]. destruct (b64url l0); [|discriminate].
      destruct (valid_spki _); discriminate. }
    ubs H; [eapply set_comment_UB; eauto|]. cbv zeta in H.
    destruct (_ =? FLAG_COMMENT); [discriminate|]. destruct (negb ia);
      [destruct (_ =? 0); [discriminate|]|]; (destruct (negb _); [discriminate|]; eapply add_bgpsec_UB; eauto).
  Qed.
  Lemma load_array_UB f c a : load_array f c a = UB -> exists c' x, In x a /\ f c' x = UB.
  Proof.
    revert c. induction a as [|x a IH]; intros c H; [discriminate|]. cbn [load_array] in H. apply bind_UB in H.
    destruct H as [H|(c' & _ & H)]; [exists c, x; split; [left|]; auto|].
    destruct (IH _ H) as (c2 & y & I & U). exists c2, y. split; [right|]; auto.
  Qed.
  Lemma load_section_UB ia so sp sb root l c :
    load_section pton4 pton6 b64url valid_spki ia so sp sb root l c = UB ->
    exists sec ps p s, json_object_get root so = Some sec /\ json_object_get sec sp = Some (JArr ps) /\
      In p ps /\ json_object_get p (cstr "prefix") = Some (JStr s) /\ slashes s.
  Proof.
    unfold load_section, json_get_object, json_get_array.
    destruct (json_object_get root so) as [[m| | | | |]|] eqn:G1; cbn [bind]; try discriminate.
    destruct (json_object_get (JObj m) sp) as [[|ps| | | |]|] eqn:G2; cbn [bind]; try discriminate.
    destruct (json_object_get (JObj m) sb) as [[|bs| | | |]|] eqn:G3; cbn [bind]; try discriminate.
    destruct (negb _); [discriminate|]. intros H. ubs H.
    - apply load_array_UB in H. destruct H as (c' & p & I & U). apply load_single_prefix_UB in U.
      destruct U as (s & G & S). exists (JObj m), ps, p, s. auto.
    - apply load_array_UB in H. destruct H as (c' & p & I & U). apply load_single_bgpsec_UB in U. destruct U.
  Qed.

  Theorem C55_no_crash_partial file l : (forall r, file = Some r -> json_ok r) ->
    slurm_parse pton4 pton6 b64url valid_spki file l = UB ->
    exists p s, (prefix_filter [file] p \/ prefix_assertion [file] p) /\ member p "prefix" (JStr s) /\ slashes s.
  Proof.
    destruct file as [root|]; [|discriminate]. intros OK. specialize (OK _ eq_refl). cbn [slurm_parse]. unfold handle_json.
    destruct root as [m| | | | |]; try discriminate. set (root := JObj m) in *. intros H.
    ubs H. { exfalso. unfold load_version in H. ubs H; [eapply get_u32_UB; eauto|]. destruct x; [|discriminate]. destruct (negb _); discriminate. }
    assert (K : forall ia so sp sb c, load_section pton4 pton6 b64url valid_spki ia (cstr so) (cstr sp) sb root l c = UB ->
      exists p s, element [Some root] so sp p /\ member p "prefix" (JStr s) /\ slashes s).
    { intros ia so sp sb c U. apply load_section_UB in U. destruct U as (sec & ps & p & s & G1 & G2 & I & G3 & S).
      pose proof (json_ok_get _ _ _ OK G1) as O1. pose proof (json_ok_get _ _ _ O1 G2) as O2. inversion O2; subst.
      exists p, s. split; [|split; auto; apply member_get; auto].
      exists root, sec, ps. split; [left; auto|]. split; [apply member_get; auto|]. split; auto. apply member_get; auto. }
    ubs H. { apply K in H. destruct H as (p & s & E & R). exists p, s. split; auto. }
    ubs H. { apply K in H. destruct H as (p & s & E & R). exists p, s. split; auto. }
    destruct (negb _); discriminate.
  Qed.
End NoCrash.

(** ... which does crash the validator (strchr(NULL)). *)
Theorem C55_empty_prefix_refuted pton4 pton6 l c : forall text, text = ""%string \/ text = "/"%string ->
  load_single_prefix pton4 pton6 l c false (o [("prefix"%string, str text)]) = UB.
Proof. intros text [->| ->]; reflexivity. Qed.
Example C55_nonvacuous : slurm_parse ex_pton4 ex_pton6 ex_b64 ex_spki (Some (ex_file2 "/")) slurm_lists_create = UB.
Proof. vm_compute. reflexivity. Qed.
