From Coq Require Import String Permutation.
From Verif Require Import Base BaseLemmas Types HashSet DbTable CString CLib PduWireSpec Address AddressSpec
  AddressProofs AddressProps Vrps VrpsSpec VrpsProofs Slurm SlurmSpec.
Notation length := List.length.

(** ** Objects. *)
Lemma keyeq k k' : list_eqb Z.eqb k k' = true <-> k = k'.
Proof. apply list_eqb_spec, Z_eqb_spec_iff. Qed.
Lemma assoc_In k m v : assoc k m = Some v -> In (k, v) m.
Proof.
  induction m as [|[k' v'] t IH]; cbn [assoc]; intros H; [discriminate|].
  destruct (list_eqb Z.eqb k k') eqn:E.
  - apply keyeq in E. inversion H; subst. left. reflexivity.
  - right. auto.
Qed.
Lemma assoc_None k m : assoc k m = None -> forall v, ~ In (k, v) m.
Proof.
  induction m as [|[k' v'] t IH]; cbn [assoc]; intros H v; [intros []|].
  destruct (list_eqb Z.eqb k k') eqn:E; [discriminate|].
  intros [X|X]; [|exact (IH H v X)]. inversion X; subst.
  assert (list_eqb Z.eqb k k = true) by (apply keyeq; reflexivity). congruence.
Qed.
Lemma NoDup_keys_fun {B} (m : list (list Z * B)) k v v' : NoDup (map fst m) -> In (k, v) m -> In (k, v') m -> v = v'.
Proof.
  induction m as [|[k0 v0] t IH]; cbn; intros ND H H'; [tauto|].
  inversion ND; subst.
  destruct H as [H|H], H' as [H'|H']; try congruence.
  - inversion H; subst. exfalso. apply H2. apply (in_map fst) in H'. exact H'.
  - inversion H'; subst. exfalso. apply H2. apply (in_map fst) in H. exact H.
  - auto.
Qed.
Lemma member_get j k v : json_ok j -> (member j k v <-> json_object_get j (cstr k) = Some v).
Proof.
  intros OK. split.
  - intros (m & -> & H). cbn [json_object_get]. inversion OK; subst.
    destruct (assoc (cstr k) m) eqn:E.
    + apply assoc_In in E. f_equal. eapply NoDup_keys_fun; eauto.
    + exfalso. exact (assoc_None _ _ E _ H).
  - destruct j; cbn [json_object_get]; intros H; try discriminate.
    exists members. split; auto. apply assoc_In; auto.
Qed.
Lemma get_absent j k : json_ok j -> (absent j k <-> json_object_get j (cstr k) = None).
Proof.
  intros OK. split.
  - intros H. destruct (json_object_get j (cstr k)) eqn:E; auto.
    apply member_get in E; auto. exfalso. exact (H _ E).
  - intros H v M. apply member_get in M; auto. congruence.
Qed.
Lemma json_ok_get j k v : json_ok j -> json_object_get j k = Some v -> json_ok v.
Proof.
  intros OK. destruct j; cbn [json_object_get]; intros H; try discriminate.
  apply assoc_In in H. inversion OK; subst. eauto.
Qed.

(** ** strtoul, strtok. *)
Lemma digits_nonneg s : forall acc n, 0 <= acc -> 0 <= fst (fst (digits acc n s)).
Proof.
  induction s as [|c t IH]; intros acc n H; cbn [digits]; [exact H|].
  destruct (isdigit c) eqn:E; [|exact H]. apply IH. unfold isdigit in E. lia.
Qed.
Lemma strtoul_nonneg s v b r : strtoul s = (v, b, r) -> 0 <= v.
Proof.
  unfold strtoul, ULONG_MAX.
  set (p := match skip_spaces s with [] => _ | _ => _ end). destruct p as [neg s2].
  pose proof (digits_nonneg s2 0 0 ltac:(lia)) as D.
  destruct (digits 0 0 s2) as [[w n] rest]. cbn [fst] in D.
  destruct n; [intros E; inversion E; subst; apply Z.le_refl|].
  destruct (_ <? w); [intros E; inversion E; subst; discriminate|].
  intros E; inversion E; subst. destruct neg; [|auto]. apply Z.mod_pos_bound. lia.
Qed.

Lemma digits_all s : forall acc n, Forall (fun c => 48 <= c <= 57) s ->
  digits acc n s = (fold_left (fun a c => 10 * a + (c - 48)) s acc, (n + length s)%nat, []).
Proof.
  induction s as [|c t IH]; intros acc n F; cbn [digits fold_left length].
  - rewrite Nat.add_0_r. reflexivity.
  - inversion F; subst. replace (isdigit c) with true by (unfold isdigit; symmetry; lia).
    rewrite IH by auto. replace (n + S (length t))%nat with (S n + length t)%nat by lia. reflexivity.
Qed.
Lemma strtoul_decimal s n : decimal s n -> 0 <= n <= ULONG_MAX -> strtoul s = (n, false, []).
Proof.
  intros (N & F & E) R. unfold strtoul. destruct s as [|c t]; [congruence|].
  inversion F as [|? ? Hc Ft]. clear H H0.
  cbn [skip_spaces].
  replace (isspace c) with false by (unfold isspace; symmetry; lia).
  replace (c =? 45) with false by (symmetry; lia). replace (c =? 43) with false by (symmetry; lia).
  rewrite digits_all by auto. rewrite <- E. cbn [length]. rewrite Nat.add_0_l.
  replace (ULONG_MAX <? n) with false by (symmetry; lia). reflexivity.
Qed.

Lemma span_delim_noc d s : ~ In d s -> span_delim d s = (s, []).
Proof.
  induction s as [|c t IH]; cbn; intros H; auto.
  destruct (c =? d) eqn:E; [exfalso; apply H; left; lia|]. rewrite IH by tauto. reflexivity.
Qed.
Lemma span_delim_app d a b : ~ In d a -> span_delim d (a ++ d :: b) = (a, b).
Proof.
  induction a as [|c t IH]; cbn; intros H.
  - rewrite Z.eqb_refl. reflexivity.
  - destruct (c =? d) eqn:E; [exfalso; apply H; left; lia|]. rewrite IH by tauto. reflexivity.
Qed.
Lemma skip_delim_head d c t : c <> d -> skip_delim d (c :: t) = c :: t.
Proof. intros H. cbn. replace (c =? d) with false by (symmetry; lia). reflexivity. Qed.
Lemma strtok_app d a b : a <> [] -> ~ In d a -> strtok d (a ++ d :: b) = (Some a, b).
Proof.
  intros N H. unfold strtok. destruct a as [|c t]; [congruence|].
  assert (c <> d) by (intros ->; apply H; left; reflexivity).
  cbn [app]. rewrite skip_delim_head by auto.
  change (c :: t ++ d :: b) with ((c :: t) ++ d :: b). rewrite span_delim_app by auto. reflexivity.
Qed.
Lemma strtok_last d a : a <> [] -> ~ In d a -> strtok d a = (Some a, []).
Proof.
  intros N H. unfold strtok. destruct a as [|c t]; [congruence|].
  assert (c <> d) by (intros ->; apply H; left; reflexivity).
  rewrite skip_delim_head by auto. rewrite span_delim_noc by auto. reflexivity.
Qed.

Lemma has_char_In c s : has_char c s = true <-> In c s.
Proof.
  unfold has_char. rewrite existsb_exists. split.
  - intros (x & H & E). apply Z.eqb_eq in E. subst. auto.
  - intros H. exists c. split; auto. apply Z.eqb_refl.
Qed.
Lemma has_char_notIn c s : has_char c s = false <-> ~ In c s.
Proof. rewrite <- has_char_In. destruct (has_char c s); split; congruence. Qed.

Lemma validate4 a len : 0 <= len <= 32 -> (ipv4_prefix_validate a len = Ok tt <-> a mod 2 ^ (32 - len) = 0).
Proof.
  intros L. unfold ipv4_prefix_validate. rewrite u32_suffix_mask_spec, land_mask by lia.
  destruct (_ =? 0) eqn:E; cbn [negb]; split; intros H; try congruence; lia.
Qed.
Lemma validate6 b len : 0 <= len <= 128 -> length b = 16%nat -> Forall is_byte b ->
  (ipv6_prefix_validate b len = Ok tt <-> be b mod 2 ^ (128 - len) = 0).
Proof.
  intros L LB FB.
  pose proof (be_bound b FB) as HB. rewrite LB in HB.
  assert (HB' : 0 <= be b < 2 ^ 128) by (change (2 ^ 128) with (256 ^ Z.of_nat 16); exact HB).
  destruct C17_prefix_validate_exact as [_ Q].
  destruct (be_to_bytes (be b) HB') as (E1 & E2 & E3).
  assert (X : to_bytes 16 (be b) = b) by (apply be_inj; auto; congruence).
  specialize (Q (be b) len L HB'). rewrite X in Q. exact Q.
Qed.

Lemma reads_prefix_fun p4 p6 s f a l f' a' l' :
  reads_prefix p4 p6 s f a l -> reads_prefix p4 p6 s f' a' l' -> f = f' /\ a = a' /\ l = l'.
Proof.
  intros (x & r & t & r' & e & T1 & T2 & U & _ & _ & F) (x' & r1 & t1 & r1' & e1 & T1' & T2' & U' & _ & _ & F').
  assert (x' = x /\ r1 = r) as [-> ->] by (split; congruence).
  assert (t1 = t) as -> by congruence.
  assert (l' = l) as -> by congruence.
  destruct f, f'; cbn in *.
  - destruct F as [_ F], F' as [_ F']. repeat split; congruence.
  - destruct F as [F _], F' as [F' _]. tauto.
  - destruct F as [F _], F' as [F' _]. tauto.
  - destruct F as (_ & b & F & ->), F' as (_ & b' & F' & ->). assert (b' = b) by congruence. subst. auto.
Qed.
Lemma prefix_text_reads p4 p6 s f a l : prefix_text p4 p6 s f a l -> reads_prefix p4 p6 s f a l.
Proof.
  intros (x & t & -> & N & NE & D & L & M & F).
  assert (N47 : ~ In 47 t).
  { destruct D as (_ & D & _). intros H. rewrite Forall_forall in D. specialize (D _ H). lia. }
  exists x, t, t, [], []. repeat split; auto; try lia.
  - apply strtok_app; auto.
  - apply strtok_last; [apply D|auto].
  - apply strtoul_decimal; auto. unfold ULONG_MAX. destruct f; cbn [width] in L; lia.
Qed.

Section Oracles.
  Variable pton4 : list Z -> option Z.
  Variable pton6 : list Z -> option (list Z).
  Variable b64url : list Z -> option (list Z).
  Variable valid_spki : list Z -> bool.
  Hypothesis PT : pton_ok pton4 pton6.
  Notation set_prefix := (set_prefix pton4 pton6).
  Notation reads := (reads_prefix pton4 pton6).

  Lemma reads_canonical s f a l asn mx : reads s f a l ->
    canonical {| v_asn := asn; v_addr := a; v_len := l; v_max := mx; v_fam := f |}.
  Proof using PT. clear b64url valid_spki.
    intros (x & r & t & r' & e & _ & _ & _ & L & M & F). unfold canonical. cbn. repeat split; try lia; auto.
    - destruct f; [destruct F as [_ F]; apply (proj1 PT) in F; cbn; lia|].
      destruct F as (_ & b & F & ->). apply (proj2 PT) in F. destruct F as [LB FB].
      pose proof (be_bound b FB). lia.
    - destruct f; [destruct F as [_ F]; apply (proj1 PT) in F; cbn; lia|].
      destruct F as (_ & b & F & ->). apply (proj2 PT) in F. destruct F as [LB FB].
      pose proof (be_bound b FB) as HB. rewrite LB in HB. change (width AF_INET6) with 128.
      change (2 ^ 128) with (256 ^ Z.of_nat 16). lia.
  Qed.

  Lemma set_prefix_spec o ia r : json_ok o -> set_prefix o ia = Ok r ->
    match r with
    | Some (f, a, l) => exists s, member o "prefix" (JStr s) /\ reads s f a l
    | None => absent o "prefix" /\ ia = false
    end.
  Proof using PT. clear b64url valid_spki.
    intros OK. unfold Slurm.set_prefix, json_get_str.
    destruct (json_object_get o (cstr "prefix")) as [j|] eqn:G; cbn [bind].
    2:{ destruct ia; intros E; inversion E; subst. split; auto. apply get_absent; auto. }
    destruct j as [| |str| | |]; cbn [bind]; try discriminate.
    apply (member_get o "prefix") in G; auto.
    destruct (strtok 47 str) as [[tok|] rest] eqn:T; [|discriminate].
    destruct (strtok 47 rest) as [tok2 rest2] eqn:T2. cbn [fst].
    destruct (has_char 58 tok) eqn:HC; cbn [negb].
    - destruct (pton6 tok) as [b|] eqn:P; [|discriminate].
      destruct tok2 as [tok2|]; cbn [prefix_length_parse bind]; [|discriminate].
      destruct (strtoul tok2) as [[len er] e] eqn:U. destruct er; cbn [bind]; [discriminate|].
      destruct (128 <? len) eqn:L; cbn [bind]; [discriminate|].
      pose proof (strtoul_nonneg _ _ _ _ U).
      destruct (ipv6_prefix_validate b len) eqn:V; cbn [bind]; try discriminate.
      intros E; inversion E; subst. exists str. split; auto.
      exists tok, rest, tok2, rest2, e. destruct (proj2 PT _ _ P) as [LB FB].
      repeat split; auto; cbn [width]; try lia.
      + apply (validate6 b len); auto; [lia|]. destruct a; auto.
      + apply has_char_In; auto.
      + exists b. auto.
    - destruct (pton4 tok) as [b|] eqn:P; [|discriminate].
      destruct tok2 as [tok2|]; cbn [prefix_length_parse bind]; [|discriminate].
      destruct (strtoul tok2) as [[len er] e] eqn:U. destruct er; cbn [bind]; [discriminate|].
      destruct (32 <? len) eqn:L; cbn [bind]; [discriminate|].
      pose proof (strtoul_nonneg _ _ _ _ U).
      destruct (ipv4_prefix_validate b len) eqn:V; cbn [bind]; try discriminate.
      intros E; inversion E; subst. exists str. split; auto.
      exists tok, rest, tok2, rest2, e.
      repeat split; auto; cbn [width]; try lia.
      + apply (validate4 b len); [lia|]. destruct a; auto.
      + apply has_char_notIn; auto.
  Qed.

  Lemma get_u32_spec o k r : json_ok o -> json_get_u32 o (cstr k) = Ok r ->
    match r with Some n => member o k (JInt n) /\ 0 <= n <= UINT_MAX | None => absent o k end.
  Proof.
    intros OK. unfold json_get_u32. destruct (json_object_get o (cstr k)) as [j|] eqn:G.
    - destruct j; try discriminate. destruct ((_ <? 0) || _) eqn:B; [discriminate|].
      intros E; inversion E; subst. apply member_get in G; auto. split; auto. lia.
    - intros E; inversion E; subst. apply get_absent; auto.
  Qed.
  Lemma get_str_spec o k r : json_ok o -> json_get_str o (cstr k) = Ok r ->
    match r with Some s => member o k (JStr s) | None => absent o k end.
  Proof.
    intros OK. unfold json_get_str. destruct (json_object_get o (cstr k)) as [j|] eqn:G.
    - destruct j; try discriminate.
      intros E; inversion E; subst. apply member_get in G; auto.
    - intros E; inversion E; subst. apply get_absent; auto.
  Qed.

  (** ** One prefix entry. *)
  Definition parse_prefix (ia : bool) (o : json) : res slurm_prefix :=
    match o with
    | JObj _ =>
        bind (set_asn o ia) (fun asn =>
        bind (set_prefix o ia) (fun pfx =>
        let '(fam, addr, len) := match pfx with Some p => p | None => (AF_INET, 0, 0) end in
        bind (set_max_prefix_length o ia fam) (fun max =>
        bind (set_comment o) (fun comment =>
        let fl := Z.lor (Z.lor (opt_flag asn FLAG_ASN) (opt_flag pfx FLAG_PREFIX))
                    (Z.lor (opt_flag max FLAG_MAX_LENGTH) (if comment then FLAG_COMMENT else 0)) in
        let members := (opt_count asn + opt_count pfx + opt_count max + (if comment then 1 else 0))%nat in
        let result := {| sp_flag := fl;
                         sp_vrp := {| v_asn := match asn with Some n => n | None => 0 end; v_addr := addr;
                                      v_len := len; v_max := match max with Some n => n | None => 0 end;
                                      v_fam := fam |} |} in
        if fl =? FLAG_COMMENT then Err EINVAL
        else if negb ia then
          if Z.land fl (Z.lor FLAG_ASN FLAG_PREFIX) =? 0 then Err EINVAL
          else if negb (json_valid_members_count o members) then Err EINVAL
          else Ok result
        else
          if flag_on fl FLAG_MAX_LENGTH && (v_max (sp_vrp result) <? len) then Err EINVAL
          else if negb (json_valid_members_count o members) then Err EINVAL
          else Ok result))))
    | _ => Err EINVAL
    end.
  Lemma load_single_prefix_eq l c ia o : load_single_prefix pton4 pton6 l c ia o =
    bind (parse_prefix ia o) (db_slurm_add_prefix ia l c).
  Proof.
    unfold load_single_prefix, parse_prefix. destruct o; auto.
    destruct (set_asn _ ia); cbn [bind]; auto.
    destruct (set_prefix _ ia) as [pfx| |]; cbn [bind]; auto.
    destruct pfx as [[[f ad] le]|]; cbv beta iota zeta;
    (destruct (set_max_prefix_length _ ia _); cbn [bind]; auto;
     destruct (set_comment _); cbn [bind]; auto;
     destruct (_ =? FLAG_COMMENT); cbn [bind]; auto;
     destruct ia; cbn [negb];
     [ destruct (flag_on _ _ && _); cbn [bind]; auto
     | destruct (Z.land _ _ =? 0); cbn [bind]; auto ];
     destruct (json_valid_members_count _ _); cbn [bind negb]; auto).
  Qed.

  Definition has_asn (e : slurm_prefix) := flag_on (sp_flag e) FLAG_ASN.
  Definition has_pfx (e : slurm_prefix) := flag_on (sp_flag e) FLAG_PREFIX.

  (** What an accepted entry says. *)
  Definition entry_p (ia : bool) (o : json) (e : slurm_prefix) : Prop :=
    (if has_asn e then member o "asn" (JInt (v_asn (sp_vrp e))) else absent o "asn") /\
    (if has_pfx e then exists s, member o "prefix" (JStr s) /\
        reads s (v_fam (sp_vrp e)) (v_addr (sp_vrp e)) (v_len (sp_vrp e)) else absent o "prefix") /\
    (if flag_on (sp_flag e) FLAG_MAX_LENGTH
     then member o "maxPrefixLength" (JInt (v_max (sp_vrp e))) /\
          v_len (sp_vrp e) <= v_max (sp_vrp e) <= width (v_fam (sp_vrp e))
     else absent o "maxPrefixLength") /\
    (if ia then has_asn e = true /\ has_pfx e = true
     else (has_asn e = true \/ has_pfx e = true) /\ flag_on (sp_flag e) FLAG_MAX_LENGTH = false) /\
    (In (no_comment (sp_flag e)) (if ia then [5; 13] else [1; 4; 5])).

  Lemma parse_prefix_spec ia o e : json_ok o -> parse_prefix ia o = Ok e -> entry_p ia o e.
  Proof using PT. clear b64url valid_spki.
    intros OK. unfold parse_prefix. destruct o as [mem| | | | |] eqn:EO; try discriminate.
    rewrite <- EO in *. clear EO.
    unfold set_asn. destruct (json_get_u32 o (cstr "asn")) as [ra| |] eqn:GA; cbn [bind]; try discriminate.
    apply get_u32_spec in GA; auto.
    set (A := match ra with Some n => Ok (Some n) | None => if ia then Err EINVAL else Ok None end).
    assert (HA : forall x, A = Ok x -> x = ra /\ (ra = None -> ia = false)).
    { intros x. unfold A. destruct ra, ia; intros E; inversion E; subst; split; auto; discriminate. }
    clearbody A. destruct A as [a'| |]; cbn [bind]; try discriminate.
    destruct (HA a' eq_refl) as (-> & HA2). clear HA.
    destruct (set_prefix o ia) as [rp| |] eqn:GP; cbn [bind]; try discriminate.
    apply set_prefix_spec in GP; auto.
    remember (match rp with Some p => p | None => (AF_INET, 0, 0) end) as P eqn:EP.
    destruct P as [[fam addr] len].
    unfold set_max_prefix_length.
    destruct (json_get_u32 o (cstr "maxPrefixLength")) as [rm| |] eqn:GM; cbn [bind]; try discriminate.
    apply get_u32_spec in GM; auto.
    set (M := if negb ia then _ else _).
    assert (HM : forall x, M = Ok x -> x = rm /\ (ia = false -> rm = None) /\
       match rm with Some u => u <= width fam | None => True end).
    { intros x. unfold M. destruct ia, rm; cbn [negb]; try discriminate;
        try (intros E; inversion E; subst; repeat split; auto; discriminate).
      destruct (_ <? z) eqn:Q; [discriminate|]. intros E; inversion E; subst. repeat split; auto; [discriminate|].
      destruct fam; cbn [width]; lia. }
    clearbody M. destruct M as [m1| |]; cbn [bind]; try discriminate.
    destruct (HM _ eq_refl) as (-> & HM1 & HM2). clear HM.
    unfold set_comment. destruct (json_get_str o (cstr "comment")) as [rc| |]; cbn [bind]; try discriminate.
    set (cm := match rc with None => false | Some _ => true end). clearbody cm. clear rc.
    destruct ra as [asn|], rp as [[[fam' addr'] len']|], rm as [mx|]; inversion EP; subst fam' addr' len' || subst;
      try (specialize (HM1 eq_refl); discriminate);
      cbn [opt_flag opt_count]; destruct cm; cbn [v_max sp_vrp];
      repeat match goal with |- context [Z.lor ?a ?b] => let v := eval vm_compute in (Z.lor a b) in
                                                         change (Z.lor a b) with v end.
    all: destruct ia; try (specialize (HA2 eq_refl); discriminate); try (destruct GP as [_ GP]; discriminate);
      try (specialize (HM1 eq_refl); discriminate).
    all: cbn [Z.eqb FLAG_COMMENT negb Pos.eqb]; try discriminate.
    all: repeat match goal with |- context [Z.land ?a ?b =? 0] => let v := eval vm_compute in (Z.land a b =? 0) in
                                                         change (Z.land a b =? 0) with v end; cbv iota; try discriminate.
    all: repeat match goal with |- context [flag_on ?a ?b] => let v := eval vm_compute in (flag_on a b) in
                                                         change (flag_on a b) with v end; cbn [andb].
    all: try (destruct (mx <? len) eqn:ML; [discriminate|]).
    all: destruct (json_valid_members_count _ _); cbn [negb]; [|discriminate].
    all: intros E; inversion E; subst e; clear E.
    all: unfold entry_p, has_asn, has_pfx; cbn [sp_flag sp_vrp v_asn v_addr v_len v_max v_fam].
    all: repeat match goal with |- context [flag_on ?a ?b] => let v := eval vm_compute in (flag_on a b) in
                                                         change (flag_on a b) with v end; cbv iota.
    all: repeat match goal with |- context [no_comment ?a] => let v := eval vm_compute in (no_comment a) in
                                                         change (no_comment a) with v end.
    all: cbn [In]; try (destruct GA); try (destruct GM); try (destruct GP).
    all: repeat split; auto; try lia; try (eexists; eauto; fail); try tauto.
  Qed.

  (** ** One BGPsec entry. *)
  Definition parse_bgpsec (ia : bool) (o : json) : res slurm_bgpsec :=
    match o with
    | JObj _ =>
        bind (set_asn o ia) (fun asn =>
        bind (set_ski b64url o ia) (fun ski =>
        bind (set_router_pub_key b64url valid_spki o ia) (fun spk =>
        bind (set_comment o) (fun comment =>
        let fl := Z.lor (Z.lor (opt_flag asn FLAG_ASN) (opt_flag ski FLAG_PREFIX))
                    (Z.lor (opt_flag spk FLAG_MAX_LENGTH) (if comment then FLAG_COMMENT else 0)) in
        let members := (opt_count asn + opt_count ski + opt_count spk + (if comment then 1 else 0))%nat in
        let result := {| sb_flag := fl; sb_asn := match asn with Some n => n | None => 0 end;
                         sb_ski := ski; sb_spk := spk |} in
        if fl =? FLAG_COMMENT then Err EINVAL
        else if negb ia then
          if Z.land fl (Z.lor FLAG_ASN FLAG_PREFIX) =? 0 then Err EINVAL
          else if negb (json_valid_members_count o members) then Err EINVAL
          else Ok result
        else
          if negb (json_valid_members_count o members) then Err EINVAL
          else Ok result))))
    | _ => Err EINVAL
    end.
  Lemma load_single_bgpsec_eq l c ia o : load_single_bgpsec b64url valid_spki l c ia o =
    bind (parse_bgpsec ia o) (db_slurm_add_bgpsec ia l c).
  Proof.
    unfold load_single_bgpsec, parse_bgpsec. destruct o; auto.
    destruct (set_asn _ ia); cbn [bind]; auto.
    destruct (set_ski _ _ ia); cbn [bind]; auto.
    destruct (set_router_pub_key _ _ _ ia); cbn [bind]; auto.
    destruct (set_comment _); cbn [bind]; auto. cbv zeta.
    destruct (_ =? FLAG_COMMENT); cbn [bind]; auto.
    destruct ia; cbn [negb]; [|destruct (Z.land _ _ =? 0); cbn [bind]; auto];
     destruct (json_valid_members_count _ _); cbn [bind negb]; auto.
  Qed.

  Definition entry_b (ia : bool) (o : json) (e : slurm_bgpsec) : Prop :=
    (if flag_on (sb_flag e) FLAG_ASN then member o "asn" (JInt (sb_asn e)) else absent o "asn") /\
    (if flag_on (sb_flag e) FLAG_PREFIX
     then exists s ski, member o "SKI" (JStr s) /\ b64url s = Some ski /\ sb_ski e = Some ski /\ length ski = 20%nat
     else absent o "SKI") /\
    (if ia then exists s spk, member o "routerPublicKey" (JStr s) /\ b64url s = Some spk /\ valid_spki spk = true /\
                    sb_spk e = Some spk
     else absent o "routerPublicKey" /\ sb_spk e = None) /\
    (if ia then flag_on (sb_flag e) FLAG_ASN = true /\ flag_on (sb_flag e) FLAG_PREFIX = true
     else flag_on (sb_flag e) FLAG_ASN = true \/ flag_on (sb_flag e) FLAG_PREFIX = true) /\
    (In (no_comment (sb_flag e)) (if ia then [13] else [1; 4; 5])).

  Lemma parse_bgpsec_spec ia o e : json_ok o -> parse_bgpsec ia o = Ok e -> entry_b ia o e.
  Proof.
    intros OK. unfold parse_bgpsec. destruct o as [mem| | | | |] eqn:EO; try discriminate.
    rewrite <- EO in *. clear EO.
    unfold set_asn. destruct (json_get_u32 o (cstr "asn")) as [ra| |] eqn:GA; cbn [bind]; try discriminate.
    apply get_u32_spec in GA; auto.
    set (A := match ra with Some n => Ok (Some n) | None => if ia then Err EINVAL else Ok None end).
    assert (HA : forall x, A = Ok x -> x = ra /\ (ra = None -> ia = false)).
    { intros x. unfold A. destruct ra, ia; intros E; inversion E; subst; split; auto; discriminate. }
    clearbody A. destruct A as [a'| |]; cbn [bind]; try discriminate.
    destruct (HA a' eq_refl) as (-> & HA2). clear HA.
    assert (HS : forall r, set_ski b64url o ia = Ok r -> match r with
      | Some ski => exists s, member o "SKI" (JStr s) /\ b64url s = Some ski /\ length ski = 20%nat
      | None => absent o "SKI" /\ ia = false end).
    { intros r. unfold set_ski. destruct (json_get_str o (cstr "SKI")) as [rs| |] eqn:GS; cbn [bind]; try discriminate.
      apply get_str_spec in GS; auto. destruct rs as [s|].
      - unfold validate_base64url_encoded. destruct (has_char 61 s); cbn [bind]; try discriminate.
        destruct (b64url s) eqn:B; try discriminate. destruct (Nat.eqb (length l) 20) eqn:N; try discriminate.
        intros E; inversion E; subst. exists s. repeat split; auto. apply Nat.eqb_eq; auto.
      - destruct ia; intros E; inversion E; auto. }
    destruct (set_ski b64url o ia) as [rs| |]; cbn [bind]; try discriminate. specialize (HS rs eq_refl).
    assert (HK : forall r, set_router_pub_key b64url valid_spki o ia = Ok r -> match r with
      | Some spk => ia = true /\ exists s, member o "routerPublicKey" (JStr s) /\ b64url s = Some spk /\ valid_spki spk = true
      | None => absent o "routerPublicKey" /\ ia = false end).
    { intros r. unfold set_router_pub_key. destruct (json_get_str o (cstr "routerPublicKey")) as [rk| |] eqn:GS; cbn [bind]; try discriminate.
      apply get_str_spec in GS; auto. destruct ia; cbn [negb]; destruct rk as [s|]; try discriminate.
      - unfold validate_base64url_encoded. destruct (has_char 61 s); cbn [bind]; try discriminate.
        destruct (b64url s) eqn:B; try discriminate. destruct (valid_spki l) eqn:N; try discriminate.
        intros E; inversion E; subst. split; auto. exists s. auto.
      - intros E; inversion E; auto. }
    destruct (set_router_pub_key b64url valid_spki o ia) as [rk| |]; cbn [bind]; try discriminate.
    specialize (HK rk eq_refl).
    unfold set_comment. destruct (json_get_str o (cstr "comment")) as [rc| |]; cbn [bind]; try discriminate.
    set (cm := match rc with None => false | Some _ => true end). clearbody cm. clear rc.
    destruct ra as [asn|], rs as [ski|], rk as [spk|];
      cbn [opt_flag opt_count]; destruct cm;
      repeat match goal with |- context [Z.lor ?a ?b] => let v := eval vm_compute in (Z.lor a b) in
                                                         change (Z.lor a b) with v end.
    all: destruct ia; try (specialize (HA2 eq_refl); discriminate); try (destruct HS as [_ HS]; discriminate);
      try (destruct HK as [? HK]; discriminate).
    all: cbn [Z.eqb FLAG_COMMENT negb Pos.eqb]; try discriminate.
    all: repeat match goal with |- context [Z.land ?a ?b =? 0] => let v := eval vm_compute in (Z.land a b =? 0) in
                                                         change (Z.land a b =? 0) with v end; cbv iota; try discriminate.
    all: destruct (json_valid_members_count _ _); cbn [negb]; [|discriminate].
    all: intros E; inversion E; subst e; clear E.
    all: unfold entry_b; cbn [sb_flag sb_asn sb_ski sb_spk].
    all: repeat match goal with |- context [flag_on ?a ?b] => let v := eval vm_compute in (flag_on a b) in
                                                         change (flag_on a b) with v end; cbv iota.
    all: repeat match goal with |- context [no_comment ?a] => let v := eval vm_compute in (no_comment a) in
                                                         change (no_comment a) with v end.
    all: cbn [In]; try (destruct GA as [GA _]); try (destruct HK as [? HK]).
    all: try (destruct HK as (s1 & HK1 & HK2 & HK3)); try (destruct HS as (s2 & HS1 & HS2 & HS3)); try (destruct HS as [HS _]).
    all: repeat split; auto; try tauto; try (do 2 eexists; eauto; fail).
  Qed.
End Oracles.
