(** Proofs for C102. *)
From Coq Require Import String Lia.
From Verif Require Import Base BaseLemmas CString Slurm Oid Ntop NtopSpec NtopProofs PduWireSpec Address AddressSpec AddressProofs BerSpec JsonEncSpec JsonEnc
  JsonEncProofs JsonEncProofs3 JsonEncProofs4 JsonEncProofs6 CertJsonTypes CertJson CertJsonSpec.
Notation length := List.length.
Open Scope list_scope.
Open Scope Z_scope.

(** ** Structures *)

Lemma outcome_conv r (P Q : json -> Prop) : outcome r P -> (forall j, P j <-> Q j) -> outcome r Q.
Proof. intros H E. eapply outcome_impl; eassumption. Qed.

Lemma fold_err {A} (f : A -> res json) l e : fold_left (fun m x => bind m (fun m => json_array_add m (f x))) l (Err e) = Err e.
Proof. induction l as [|x l IH]; [reflexivity|exact IH]. Qed.
Lemma arr_loop {A} (f : A -> res json) (P : A -> json -> Prop) l : Forall (fun x => outcome (f x) (P x)) l -> forall acc,
  match fold_left (fun m x => bind m (fun m => json_array_add m (f x))) l (Ok acc) with
  | Ok r => exists js, r = acc ++ js /\ Forall2 P l js
  | Err _ => forall js, ~ Forall2 P l js
  | UB => False
  end.
Proof.
  induction 1 as [|x l Hx _ IH]; intros acc.
  - cbn. exists []. rewrite app_nil_r. split; [reflexivity|constructor].
  - cbn [fold_left bind]. destruct (f x) as [j|e|]; cbn [outcome json_array_add] in *; [| |contradiction].
    + specialize (IH (acc ++ [j])). destruct (fold_left _ l _) as [r|e|]; [| |assumption].
      * destruct IH as (js & -> & F). exists (j :: js). split; [rewrite <- app_assoc; reflexivity|constructor; assumption].
      * intros js K. inversion K; subst. eapply IH. eassumption.
    + rewrite fold_err. intros js K. inversion K; subst. eapply Hx. eassumption.
Qed.
Lemma outcome_arr {A} (f : A -> res json) (P : A -> json -> Prop) l : Forall (fun x => outcome (f x) (P x)) l -> outcome (arr f l) (each P l).
Proof.
  intros H. unfold arr. pose proof (arr_loop f P l H []) as L. destruct (fold_left _ l _) as [r|e|]; cbn [finish_array outcome]; [| |assumption].
  - destruct L as (js & -> & F). exists js. split; [reflexivity|assumption].
  - intros j (js & -> & F). exact (L js F).
Qed.

Lemma fold_obj_err (l : list (string * res json)) e : fold_left (fun m p => bind m (fun m => json_object_add m (cstr (fst p)) (snd p))) l (Err e) = Err e.
Proof. induction l as [|x l IH]; [reflexivity|exact IH]. Qed.
Definition agrees (r : string * res json) (p : string * (json -> Prop)) : Prop := fst r = fst p /\ outcome (snd r) (snd p).
Lemma distinct_app l m : distinct (l ++ m) = true -> forall x, In x l -> ~ In x m.
Proof.
  induction l as [|y l IH]; intros D x Hx; [contradiction|]. cbn [app] in D. apply distinct_cons in D. destruct D as (N & D).
  destruct Hx as [<-|Hx]; [|apply IH; assumption]. intros K. apply N. apply in_or_app. right. assumption.
Qed.
Lemma obj_loop l ps : Forall2 agrees l ps -> forall acc, distinct (map fst acc ++ map (fun p => cstr (fst p)) ps) = true ->
  match fold_left (fun m p => bind m (fun m => json_object_add m (cstr (fst p)) (snd p))) l (Ok acc) with
  | Ok r => exists js, r = acc ++ combine (map (fun p => cstr (fst p)) ps) js /\ Forall2 (fun p j => snd p j) ps js
  | Err _ => forall js, ~ Forall2 (fun (p : string * (json -> Prop)) j => snd p j) ps js
  | UB => False
  end.
Proof.
  induction 1 as [|r p l ps (E & O) _ IH]; intros acc D.
  - cbn. exists []. rewrite app_nil_r. split; [reflexivity|constructor].
  - cbn [fold_left bind]. destruct (snd r) as [j|e|]; cbn [outcome json_object_add] in *; [| |contradiction].
    + rewrite E. rewrite set_new.
      2:{ intros K. eapply distinct_app; [exact D|exact K|]. left. reflexivity. }
      specialize (IH (acc ++ [(cstr (fst p), j)])). rewrite map_app, <- app_assoc in IH. specialize (IH D).
      destruct (fold_left _ l _) as [m|e|]; [| |assumption].
      * destruct IH as (js & -> & F). exists (j :: js). split; [rewrite <- app_assoc; reflexivity|constructor; assumption].
      * intros js K. inversion K; subst. eapply IH. eassumption.
    + rewrite fold_obj_err. intros js K. inversion K; subst. eapply O. eassumption.
Qed.
Lemma outcome_obj l ps : Forall2 agrees l ps -> distinct (map (fun p => cstr (fst p)) ps) = true -> outcome (obj l) (fields ps).
Proof.
  intros H D. unfold obj. pose proof (obj_loop l ps H [] D) as L. destruct (fold_left _ l _) as [r|e|]; cbn [finish outcome]; [| |assumption].
  - destruct L as (js & -> & F). exists js. split; [reflexivity|assumption].
  - intros j (js & -> & F). exact (L js F).
Qed.
Ltac struct := apply outcome_obj; [repeat (apply Forall2_cons; [split; [reflexivity|cbn [snd]]|]); [..|apply Forall2_nil]|vm_compute; reflexivity].
Ltac all_of H := apply outcome_arr; let x := fresh "x" in let K := fresh "K" in eapply Forall_impl; [|exact H]; intros x K; cbv beta in K.

Lemma outcome_or_null {A} (f : A -> res json) (P : A -> json -> Prop) o : (forall x, o = Some x -> outcome (f x) (P x)) -> outcome (or_null f o) (absent_or P o).
Proof. intros H. destruct o as [x|]; cbn [or_null absent_or]; [apply H; reflexivity|reflexivity]. Qed.

(** ** Texts *)

Lemma text_outcome s : bytes s -> outcome (json_strn_new s) (shows_text s).
Proof.
  intros H. pose proof (strn_spec s H) as S0. destruct (json_strn_new s) as [j|e|]; cbn [outcome]; [| |assumption].
  - destruct S0 as (-> & U). split; [assumption|reflexivity].
  - intros j (U & _). contradiction.
Qed.
Lemma ascii_ok s : Forall (fun c => 0 <= c < 128) s -> outcome (json_strn_new s) (is (JStr s)).
Proof. intros H. rewrite strn_ascii by assumption. reflexivity. Qed.
Ltac literal := apply ascii_ok; vm_compute; repeat (constructor; [split; [discriminate|reflexivity]|]); constructor.
Lemma not_implemented_ok there : outcome (unimplemented there) (not_implemented there).
Proof. destruct there; cbn [unimplemented not_implemented]; [unfold text, json_str_new, NOT_IMPLEMENTED; literal|reflexivity]. Qed.
Lemma some_text_outcome s : (forall t, s = Some t -> bytes t) -> outcome (json_str_or_null s) (shows_some_text s).
Proof.
  intros H. destruct s as [t|]; cbn [json_str_or_null].
  - eapply outcome_conv; [apply text_outcome; apply H; reflexivity|]. intros j. split; [intros K; exists t; split; [reflexivity|assumption]|].
    intros (t' & [= <-] & K). assumption.
  - cbn [outcome]. intros j (t & E & _). discriminate.
Qed.
Lemma bio_outcome s : bytes s -> outcome (bio2json s) (fun j => s <> [] /\ shows_text s j).
Proof.
  intros H. destruct s as [|c s]; cbn [bio2json]; [cbn; intros j (N & _); apply N; reflexivity|].
  eapply outcome_conv; [apply text_outcome; assumption|]. intros j. split; [intros K; split; [discriminate|assumption]|intros (_ & K); assumption].
Qed.
Lemma written_outcome s : (forall t, s = Some t -> bytes t) -> outcome (match s with Some t => bio2json t | None => Err EINVAL end) (shows_written s).
Proof.
  intros H. destruct s as [t|].
  - eapply outcome_conv; [apply bio_outcome; apply H; reflexivity|]. intros j. split; [intros (N & K); exists t; repeat split; try assumption; apply K|].
    intros (t' & [= <-] & K). assumption.
  - cbn [outcome]. intros j (t & E & _). discriminate.
Qed.
Lemma bytes_outcome b : bytes b -> outcome (asn1str2json b) (shows_bytes b).
Proof.
  intros H. unfold asn1str2json. destruct b as [|x b]; [cbn; intros j (N & _); apply N; reflexivity|].
  pose proof (hex_text_of (x :: b) H) as T. unfold bio2json. destruct (hex_of (x :: b)) as [|c s] eqn:E; [inversion T|].
  rewrite strn_ascii by (eapply hex_text_bytes; eassumption). cbn [outcome]. split; [discriminate|]. exists (c :: s). split; [assumption|reflexivity].
Qed.

(** ** Integers *)

Lemma upper_ok d : 0 <= d < 16 -> upper_digit (upper_hex d) = true /\ upper_value (upper_hex d) = d /\ 0 <= upper_hex d < 128.
Proof.
  intros H. assert (E : forallb (fun d => upper_digit (upper_hex d) && (upper_value (upper_hex d) =? d) && (0 <=? upper_hex d) && (upper_hex d <? 128)) (map Z.of_nat (seq 0 16)) = true) by (vm_compute; reflexivity).
  rewrite forallb_forall in E. specialize (E d). cbv beta in E.
  assert (I0 : In d (map Z.of_nat (seq 0 16))) by (apply in_map_iff; exists (Z.to_nat d); split; [lia|apply in_seq; lia]).
  specialize (E I0). rewrite !andb_true_iff in E. destruct E as (((E1 & E2) & E3) & E4). repeat split; [assumption|lia|lia|lia].
Qed.
Definition uval (s : list Z) (n : Z) : Z := fold_left (fun n c => 16 * n + upper_value c) s n.
Lemma bn_loop fuel : forall n acc, 0 < n < 256 ^ Z.of_nat fuel ->
  exists a b s, bn_bytes fuel n acc = (a :: b :: s) ++ acc /\ Forall (fun c => upper_digit c = true /\ 0 <= c < 128) (a :: b :: s) /\
    Nat.even (length s) = true /\ 0 < 16 * upper_value a + upper_value b /\ (forall m, uval (a :: b :: s) m = m * 16 ^ Z.of_nat (length (a :: b :: s)) + n).
Proof.
  induction fuel as [|fuel IH]; intros n acc H; [cbn in H; lia|]. cbn [bn_bytes]. destruct (n =? 0) eqn:E0; [lia|].
  assert (D1 : 0 <= n mod 256 / 16 < 16) by (pose proof (Z.mod_pos_bound n 256 ltac:(lia)); split; [apply Z.div_pos; lia|apply Z.div_lt_upper_bound; lia]).
  assert (D2 : 0 <= n mod 16 < 16) by (apply Z.mod_pos_bound; lia).
  assert (EQ : n mod 256 = 16 * (n mod 256 / 16) + n mod 16).
  { replace (n mod 16) with (n mod 256 mod 16) by (symmetry; apply Znumtheory.Zmod_div_mod; [lia|lia|exists 16; reflexivity]). apply Z.div_mod. lia. }
  destruct (upper_ok _ D1) as (U1 & V1 & B1). destruct (upper_ok _ D2) as (U2 & V2 & B2).
  set (h := upper_hex (n mod 256 / 16)) in *. set (l := upper_hex (n mod 16)) in *.
  pose proof (Z.div_mod n 256 ltac:(lia)) as DM.
  destruct (Z.eq_dec (n / 256) 0) as [Q|Q].
  - rewrite Q. exists h, l, []. assert (EB : bn_bytes fuel 0 (h :: l :: acc) = h :: l :: acc) by (destruct fuel; reflexivity). rewrite EB. split; [reflexivity|].
    split; [repeat (apply Forall_cons; [split; assumption|]); apply Forall_nil|]. split; [reflexivity|]. split; [lia|]. intros m. unfold uval. cbn [fold_left length]. change (16 ^ Z.of_nat 2) with 256. lia.
  - destruct (IH (n / 256) (h :: l :: acc)) as (a & b & s & E & F & Ev & P & V).
    { split; [pose proof (Z.div_pos n 256 ltac:(lia) ltac:(lia)); lia|]. apply Z.div_lt_upper_bound; [lia|]. rewrite Nat2Z.inj_succ, Z.pow_succ_r in H by lia. lia. }
    exists a, b, (s ++ [h; l]). rewrite E. split; [cbn [app]; rewrite <- app_assoc; reflexivity|]. split.
    + inversion F as [|? ? F1 F']; subst. inversion F' as [|? ? F2 F3]; subst. constructor; [assumption|]. constructor; [assumption|]. apply Forall_app. split; [assumption|]. repeat (apply Forall_cons; [split; assumption|]); apply Forall_nil.
    + split; [rewrite app_length; cbn [length]; rewrite Nat.even_add, Ev; reflexivity|]. split; [assumption|]. intros m.
      change (a :: b :: s ++ [h; l]) with ((a :: b :: s) ++ [h; l]). unfold uval. rewrite fold_left_app. fold (uval (a :: b :: s) m). rewrite V.
      cbn [fold_left]. rewrite V1, V2, app_length, Nat2Z.inj_add, Z.pow_add_r by lia. change (16 ^ Z.of_nat (length [h; l])) with 256. lia.
Qed.
Lemma bn_positive n : 0 < n -> let s := bn_bytes (S (Z.to_nat (Z.log2 n))) n [] in integer_text s n /\ Forall (fun c => 0 <= c < 128) s.
Proof.
  intros H s. destruct (bn_loop (S (Z.to_nat (Z.log2 n))) n []) as (a & b & t & E & F & Ev & P & V).
  - split; [assumption|]. pose proof (Z.log2_spec n H) as (_ & L). rewrite Nat2Z.inj_succ, Z2Nat.id by apply Z.log2_nonneg.
    eapply Z.lt_le_trans; [exact L|]. apply Z.pow_le_mono_l. lia.
  - unfold s. rewrite E, app_nil_r. split; [|eapply Forall_impl; [|exact F]; cbn; intros c (_ & K); exact K].
    specialize (V 0). cbn [Z.mul Z.add] in V. rewrite <- V. unfold uval. constructor; [eapply Forall_impl; [|exact F]; cbn; intros c (K & _); exact K|assumption|assumption].
Qed.
Lemma int_outcome n : outcome (asn1int2json n) (shows_int n).
Proof.
  assert (T : integer_text (BN_bn2hex n) n /\ Forall (fun c => 0 <= c < 128) (BN_bn2hex n)).
  { unfold BN_bn2hex. destruct (n =? 0) eqn:E0; [assert (n = 0) by lia; subst; split; [constructor|repeat constructor; lia]|].
    destruct (bn_positive (Z.abs n) ltac:(lia)) as (T & F). destruct (n <? 0) eqn:En; cbn [app].
    - split; [|constructor; [lia|assumption]]. assert (EN : n = - Z.abs n) by lia. rewrite EN at 3. refine (it_negative _ _ _ T). lia.
    - replace (Z.abs n) with n in * by lia. split; assumption. }
  destruct T as (T & F). unfold asn1int2json, json_str_new. rewrite strn_ascii by assumption. exists (BN_bn2hex n). split; [assumption|reflexivity].
Qed.
Lemma maybe_int o : outcome (or_null asn1int2json o) (absent_or shows_int o).
Proof. apply outcome_or_null. intros x _. apply int_outcome. Qed.
Lemma maybe_bytes o : some_bytes o -> outcome (or_null asn1str2json o) (absent_or shows_bytes o).
Proof. intros H. apply outcome_or_null. intros x ->. apply bytes_outcome. exact H. Qed.

(** ** General names *)
Lemma gn_outcome g : gn_bytes g -> outcome (gn2json g) (shows_general_name g).
Proof. intros H. destruct g as [s|]; cbn [gn2json shows_general_name]; [apply text_outcome; exact H|]. exact (not_implemented_ok true). Qed.
Lemma gns_outcome l : Forall gn_bytes l -> outcome (gns2json l) (each shows_general_name l).
Proof. intros H. unfold gns2json. all_of H. apply gn_outcome. assumption. Qed.

(** ** Key usages *)
Lemma land_testbit x k : 0 <= k -> negb (Z.land x (2 ^ k) =? 0) = Z.testbit x k.
Proof.
  intros H. destruct (Z.testbit x k) eqn:E.
  - apply Bool.negb_true_iff, Z.eqb_neq. intros K. assert (C : Z.testbit (Z.land x (2 ^ k)) k = false) by (rewrite K; apply Z.bits_0).
    rewrite Z.land_spec, E, Z.pow2_bits_true in C by assumption. discriminate.
  - apply Bool.negb_false_iff, Z.eqb_eq. apply Z.bits_inj'. intros i Hi. rewrite Z.land_spec, Z.bits_0. destruct (Z.eq_dec i k) as [->|N]; [rewrite E; reflexivity|].
    rewrite Z.pow2_bits_false by lia. apply Bool.andb_false_r.
Qed.
Lemma usage_outcome b : outcome (ku2json (XKeyUsage b)) (shows_usage b).
Proof.
  unfold ku2json. destruct ((length b <? 1)%nat || (2 <? length b)%nat) eqn:E.
  - cbn [outcome]. intros j (L & _). apply Bool.orb_prop in E. destruct E as [E|E]; apply Nat.ltb_lt in E; lia.
  - apply Bool.orb_false_elim in E. destruct E as (E1 & E2). apply Nat.ltb_ge in E1, E2.
    assert (L : (length b = 1 \/ length b = 2)%nat) by lia.
    eapply outcome_conv.
    2:{ intros j. split; [intros K; split; [exact L|exact K]|intros (_ & K); exact K]. }
    assert (B : forall n, nth n (zero_padded 2 b) 0 = nth n b 0).
    { intros n. destruct b as [|x [|y [|z b]]]; cbn in E1, E2; try lia; [|reflexivity]. unfold zero_padded. cbn. destruct n as [|[|[|n]]]; reflexivity. }
    cbn [map combine seq usages].
    apply outcome_obj; [|vm_compute; reflexivity].
    repeat (apply Forall2_cons; [split; [reflexivity|cbn [snd]; unfold json_boolean, is; cbn [outcome]; f_equal; rewrite B; exact (land_testbit _ _ ltac:(lia)) || idtac]|]); [..|apply Forall2_nil].
    all: unfold usage_bit; cbn [Nat.div Nat.divmod fst Nat.modulo snd Nat.sub Z.of_nat].
    all: match goal with |- negb (Z.land _ ?m =? 0) = _ => let k := eval vm_compute in (Z.log2 m) in change m with (2 ^ k); rewrite land_testbit by lia; reflexivity end.
Qed.
