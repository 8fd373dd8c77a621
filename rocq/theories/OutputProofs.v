(** Proofs for C83. *)
From Coq Require Import String.
From Verif Require Import Base BaseLemmas CString Types DbTable Oid OidSpec OidProofs Ntop NtopSpec NtopProofs Output OutputSpec JsonProofs Vrps VrpsSpec.
Notation length := List.length.

Lemma same_refl a : same a a = true.
Proof. unfold same. apply (list_eqb_spec Z.eqb Z.eqb_eq). reflexivity. Qed.
Lemma all_some_map {A} (l : list A) : all_some (map Some l) = Some l.
Proof. induction l as [|a l IH]; [reflexivity|]. cbn. rewrite IH. reflexivity. Qed.
Lemma existsb_in c s : existsb (Z.eqb c) s = true <-> In c s.
Proof. rewrite existsb_exists. split; [intros (x & Hx & E); apply Z.eqb_eq in E; subst; exact Hx|intros H; exists c; split; [exact H|apply Z.eqb_refl]]. Qed.

(** *** Fields *)
Lemma read_asn_ok n : is_u32 n -> read_asn (65 :: 83 :: udec n) = Some n.
Proof. intros H. unfold read_asn. apply dec_udec. exact H. Qed.
Definition fits (f : family) (a : Z) : Prop := match f with AF_INET => 0 <= a < 2 ^ 32 | AF_INET6 => 0 <= a < 2 ^ 128 end.
Lemma ntop_chars f a : Forall addrchar (ntop f a).
Proof.
  destruct f; cbn [ntop]; [|apply ntop6_chars]. eapply Forall_impl; [|apply ntop4_chars]. cbn. unfold addrchar, hexchar. lia.
Qed.
Lemma ntop_not f a c : ~ addrchar c -> ~ In c (ntop f a).
Proof. intros N K. pose proof (ntop_chars f a) as F. rewrite Forall_forall in F. exact (N (F _ K)). Qed.
Lemma read_prefix_ok f a l : fits f a -> is_u32 l -> read_prefix (ntop f a ++ 47 :: udec l) = Some (f, a, l).
Proof.
  intros Hf Hl. unfold read_prefix. rewrite split_app by (apply ntop_not; unfold addrchar, hexchar; lia). rewrite split_all by (apply udec_not; [exact Hl|lia]).
  rewrite dec_udec by exact Hl. destruct f; cbn [ntop fits] in *.
  - destruct (existsb (Z.eqb 58) (ntop4 a)) eqn:E.
    + apply existsb_in in E. pose proof (ntop4_chars a) as F. rewrite Forall_forall in F. specialize (F _ E). cbn in F. lia.
    + rewrite read4_ntop4; [reflexivity|]. unfold is_u32. change (2 ^ 32) with 4294967296 in Hf. lia.
  - pose proof (ntop6_colon a) as K. apply existsb_in in K. rewrite K. pose proof (read6_ntop6 a Hf) as R. destruct (read6 (ntop6 a)) as [w|]; [|discriminate]. cbn [option_map] in R |- *. injection R as R. rewrite R. reflexivity.
Qed.
Lemma byte_is_u32 n : is_byte n -> is_u32 n.
Proof. unfold is_byte, is_u32. lia. Qed.

(** *** CSV *)
Lemma split_lines {A} (line : A -> list Z) l : (forall x, In x l -> ~ In 10 (line x)) ->
  split 10 (flat_map (fun x => line x ++ [10]) l) = map line l ++ [[]].
Proof.
  induction l as [|x l IH]; intros H; [reflexivity|]. cbn [flat_map map]. rewrite <- app_assoc. cbn [app].
  rewrite split_app by (apply H; left; reflexivity). rewrite IH by (intros y Hy; apply H; right; exact Hy). reflexivity.
Qed.
Lemma read_csv_ok {A} (record : list (list Z) -> option A) header (line : A -> list Z) l :
  ~ In 10 (cstr header) -> (forall x, In x l -> ~ In 10 (line x) /\ record (split 44 (line x)) = Some x) ->
  read_csv record header (cstr header ++ [10] ++ flat_map (fun x => line x ++ [10]) l) = Some l.
Proof.
  intros Hh Hl. unfold read_csv. cbn [app]. rewrite split_app by exact Hh. rewrite split_lines by (intros x Hx; apply (Hl x Hx)).
  rewrite same_refl, last_last, removelast_last, map_map. cbn [same list_eqb andb].
  rewrite (map_ext_in _ Some) by (intros x Hx; apply (Hl x Hx)). apply all_some_map.
Qed.
Lemma each_csv {A} (f : A -> res (list Z)) (line : A -> list Z) l : (forall x, In x l -> f x = Ok (line x ++ [10])) -> forall b,
  each (fun _ x => f x) b l = Ok (flat_map (fun x => line x ++ [10]) l).
Proof.
  induction l as [|x l IH]; intros H b; [reflexivity|]. cbn [each flat_map]. rewrite (H x) by (left; reflexivity). cbn [bind].
  rewrite IH by (intros y Hy; apply H; right; exact Hy). reflexivity.
Qed.
Definition roa_line (v : vrp) : list Z :=
  (65 :: 83 :: udec (v_asn v)) ++ 44 :: (ntop (v_fam v) (v_addr v) ++ 47 :: udec (v_len v)) ++ 44 :: udec (v_max v).
Lemma roa_csv_line v : print_roa_csv v = roa_line v ++ [10].
Proof. unfold print_roa_csv, roa_line. cbn [cstr list_ascii_of_string map app]. repeat (rewrite <- app_assoc; cbn [app]). reflexivity. Qed.
Lemma not_in_app {A} (x : A) a b : ~ In x a -> ~ In x b -> ~ In x (a ++ b).
Proof. rewrite in_app_iff. tauto. Qed.
Lemma not_in_cons {A} (x y : A) b : y <> x -> ~ In x b -> ~ In x (y :: b).
Proof. cbn. intuition. Qed.
Ltac notin := repeat match goal with
  | |- ~ In _ (_ ++ _) => apply not_in_app
  | |- ~ In _ (_ :: _) => apply not_in_cons; [lia|]
  | |- ~ In _ [] => exact (fun K => K)
  | |- ~ In _ (ntop _ _) => apply ntop_not; unfold addrchar, hexchar; lia
  | |- ~ In _ (udec _) => apply udec_not; [try assumption; try (apply byte_is_u32; assumption)|lia]
  end.
Lemma roa_line_ok v : valid_vrp v -> ~ In 10 (roa_line v) /\ csv_roa (split 44 (roa_line v)) = Some v.
Proof.
  intros (Ha & Hl & Hm & Hf). unfold roa_line. split; [notin|].
  rewrite split_app by notin. rewrite split_app by notin. rewrite split_all by notin. cbn [csv_roa]. rewrite read_asn_ok by exact Ha.
  rewrite read_prefix_ok; [|exact Hf|apply byte_is_u32; exact Hl]. rewrite dec_udec by (apply byte_is_u32; exact Hm). destruct v; reflexivity.
Qed.
Lemma print_roas_csv_eq t : print_roas OFM_CSV t = Ok (cstr "ASN,Prefix,Max prefix length" ++ [10] ++ flat_map (fun v => roa_line v ++ [10]) (t_roas t)).
Proof.
  unfold print_roas. rewrite (each_csv (fun v => Ok (print_roa_csv v)) roa_line) by (intros x _; rewrite roa_csv_line; reflexivity). reflexivity.
Qed.
Lemma roas_csv_ok t : Forall valid_vrp (t_roas t) -> exists s, print_roas OFM_CSV t = Ok s /\ roas_csv s = Some (t_roas t).
Proof.
  intros H. eexists. split; [apply print_roas_csv_eq|]. unfold roas_csv. apply read_csv_ok.
  - vm_compute. intuition discriminate.
  - rewrite Forall_forall in H. intros x Hx. apply roa_line_ok. apply H. exact Hx.
Qed.

(** *** Base 64 *)
Definition url (c : Z) : Z := if c =? 43 then 45 else if c =? 47 then 95 else c.
Definition urlchar (c : Z) : Prop := 48 <= c <= 57 \/ 65 <= c <= 90 \/ 97 <= c <= 122 \/ c = 45 \/ c = 95.
Lemma b64char_range n : 0 <= n < 64 -> b64char n <> 61 /\ b64val (url (b64char n)) = n /\ urlchar (url (b64char n)).
Proof.
  intros H. assert (E : exists m, n = Z.of_nat m /\ (m < 64)%nat) by (exists (Z.to_nat n); lia). destruct E as (m & -> & Hm). clear H.
  do 64 (destruct m as [|m]; [vm_compute; repeat split; try congruence; try intuition congruence; tauto|]). lia.
Qed.
Lemma before_cons n s : 0 <= n < 64 -> before 61 (b64char n :: s) = match before 61 s with Some p => Some (b64char n :: p) | None => None end.
Proof. intros H. cbn [before]. destruct (Z.eqb_spec (b64char n) 61) as [E|_]; [|reflexivity]. destruct (b64char_range n H) as (N & _). contradiction. Qed.
Lemma list_ind3 (P : list Z -> Prop) : P [] -> (forall a, P [a]) -> (forall a b, P [a; b]) -> (forall a b c l, P l -> P (a :: b :: c :: l)) -> forall l, P l.
Proof.
  intros H0 H1 H2 H3 l. assert (G : forall n l, (length l <= n)%nat -> P l).
  { induction n as [|n IH]; intros [|a [|b [|c m]]] Hn; auto; cbn in Hn; try lia. apply H3. apply IH. lia. }
  apply (G (length l)). lia.
Qed.
Ltac range := solve [Z.to_euclidean_division_equations; lia].
Lemma base64_spec l : Forall is_byte l ->
  ((length l mod 3 = 0)%nat -> before 61 (base64 l) = None) /\
  ((length l mod 3 <> 0)%nat -> exists s, before 61 (base64 l) = Some s /\ unbase64url (map url s) = l /\ Forall urlchar (map url s)).
Proof.
  induction l as [|a|a b|a b c l IH] using list_ind3; intros F.
  - split; [reflexivity|]. intros H. exfalso. apply H. reflexivity.
  - split; [intros K; discriminate K|]. intros _. inversion F as [|? ? Ha _]; subst. unfold is_byte in Ha. cbn [base64].
    rewrite !before_cons by range. cbn [before Z.eqb Pos.eqb]. eexists. split; [reflexivity|]. unfold unbase64url. cbn [map].
    destruct (b64char_range (a / 4) ltac:(range)) as (_ & V1 & U1). destruct (b64char_range (a mod 4 * 16) ltac:(range)) as (_ & V2 & U2).
    rewrite V1, V2. split; [cbn [unbits]; f_equal; range|]. repeat (constructor; try assumption).
  - split; [intros K; discriminate K|]. intros _. inversion F as [|? ? Ha F']; subst. inversion F' as [|? ? Hb _]; subst. unfold is_byte in Ha, Hb. cbn [base64].
    rewrite !before_cons by range. cbn [before Z.eqb Pos.eqb]. eexists. split; [reflexivity|]. unfold unbase64url. cbn [map].
    destruct (b64char_range (a / 4) ltac:(range)) as (_ & V1 & U1). destruct (b64char_range (a mod 4 * 16 + b / 16) ltac:(range)) as (_ & V2 & U2).
    destruct (b64char_range (b mod 16 * 4) ltac:(range)) as (_ & V3 & U3).
    rewrite V1, V2, V3. split; [cbn [unbits]; f_equal; [range|f_equal; range]|]. repeat (constructor; try assumption).
  - inversion F as [|? ? Ha F']; subst. inversion F' as [|? ? Hb F'']; subst. inversion F'' as [|? ? Hc F3]; subst. unfold is_byte in Ha, Hb, Hc. cbn [base64].
    destruct (IH F3) as (I0 & I1). clear IH.
    assert (L : (length (a :: b :: c :: l) mod 3 = length l mod 3)%nat).
    { cbn [length]. replace (S (S (S (length l)))) with (length l + 1 * 3)%nat by lia. apply Nat.mod_add. lia. }
    rewrite L. rewrite !before_cons by range.
    split; [intros H; rewrite I0 by exact H; reflexivity|]. intros H. destruct (I1 H) as (s & E & D & C). rewrite E. eexists. split; [reflexivity|].
    destruct (b64char_range (a / 4) ltac:(range)) as (_ & V1 & U1). destruct (b64char_range (a mod 4 * 16 + b / 16) ltac:(range)) as (_ & V2 & U2).
    destruct (b64char_range (b mod 16 * 4 + c / 64) ltac:(range)) as (_ & V3 & U3). destruct (b64char_range (c mod 64) ltac:(range)) as (_ & V4 & U4).
    unfold unbase64url in *. cbn [map]. rewrite V1, V2, V3, V4. split; [|repeat (constructor; try assumption)].
    cbn [unbits]. rewrite D. f_equal; [range|f_equal; [range|f_equal; range]].
Qed.
Lemma encode_ok l : Forall is_byte l -> (length l mod 3 <> 0)%nat -> exists s, base64url_encode l = Ok s /\ unbase64url s = l /\ Forall urlchar s.
Proof.
  intros F H. destruct (base64_spec l F) as (_ & I). destruct (I H) as (s & E & D & C). exists (map url s).
  unfold base64url_encode, to_base64url. rewrite E. auto.
Qed.
Lemma encode_overread l : Forall is_byte l -> (length l mod 3 = 0)%nat -> base64url_encode l = UB.
Proof. intros F H. destruct (base64_spec l F) as (I & _). unfold base64url_encode, to_base64url. rewrite I by exact H. reflexivity. Qed.

Definition url_of (l : list Z) : list Z := match base64url_encode l with Ok s => s | _ => [] end.
Lemma encode_key k : valid_key k -> base64url_encode (rk_ski k) = Ok (url_of (rk_ski k)) /\ unbase64url (url_of (rk_ski k)) = rk_ski k /\ Forall urlchar (url_of (rk_ski k)) /\
  base64url_encode (rk_spk k) = Ok (url_of (rk_spk k)) /\ unbase64url (url_of (rk_spk k)) = rk_spk k /\ Forall urlchar (url_of (rk_spk k)).
Proof.
  intros (_ & L1 & F1 & L2 & F2). unfold url_of.
  destruct (encode_ok (rk_ski k) F1 ltac:(rewrite L1; discriminate)) as (s1 & -> & D1 & C1).
  destruct (encode_ok (rk_spk k) F2 ltac:(rewrite L2; discriminate)) as (s2 & -> & D2 & C2). auto 10.
Qed.
Definition key_line (k : router_key) : list Z := (65 :: 83 :: udec (rk_asn k)) ++ 44 :: url_of (rk_ski k) ++ 44 :: url_of (rk_spk k).
Lemma url_not c s : Forall urlchar s -> ~ urlchar c -> ~ In c s.
Proof. intros F N K. rewrite Forall_forall in F. exact (N (F _ K)). Qed.
Lemma key_csv_line k : valid_key k -> print_router_key_csv k = Ok (key_line k ++ [10]) /\ ~ In 10 (key_line k) /\ csv_key (split 44 (key_line k)) = Some k.
Proof.
  intros H. destruct (encode_key k H) as (E1 & D1 & C1 & E2 & D2 & C2). destruct H as (Ha & _).
  assert (N1 : ~ In 44 (url_of (rk_ski k))) by (apply url_not; [exact C1|unfold urlchar; lia]).
  assert (N2 : ~ In 44 (url_of (rk_spk k))) by (apply url_not; [exact C2|unfold urlchar; lia]).
  assert (M1 : ~ In 10 (url_of (rk_ski k))) by (apply url_not; [exact C1|unfold urlchar; lia]).
  assert (M2 : ~ In 10 (url_of (rk_spk k))) by (apply url_not; [exact C2|unfold urlchar; lia]).
  split; [|split].
  - unfold print_router_key_csv. rewrite E1. cbn [bind]. rewrite E2. cbn [bind]. f_equal. unfold key_line. cbn [cstr list_ascii_of_string map app]. repeat (rewrite <- app_assoc; cbn [app]). reflexivity.
  - unfold key_line. notin; assumption.
  - unfold key_line. rewrite split_app by notin. rewrite split_app by assumption. rewrite split_all by assumption. cbn [csv_key]. rewrite read_asn_ok by exact Ha.
    rewrite D1, D2. destruct k; reflexivity.
Qed.
Lemma keys_csv_ok t : Forall valid_key (t_rks t) -> exists s, print_router_keys OFM_CSV t = Ok s /\ keys_csv s = Some (t_rks t).
Proof.
  intros H. rewrite Forall_forall in H. eexists. split.
  - unfold print_router_keys. rewrite (each_csv print_router_key_csv key_line) by (intros x Hx; apply key_csv_line; apply H; exact Hx). reflexivity.
  - unfold keys_csv. apply read_csv_ok; [vm_compute; intuition discriminate|]. intros x Hx. apply key_csv_line. apply H. exact Hx.
Qed.

(** *** JSON *)
Lemma quoted_of s : Forall (fun c => 32 <= c /\ c <> 34 /\ c <> 92) s -> quoted s.
Proof. induction 1 as [|c s (H1 & H2 & H3) _ IH]; constructor; assumption. Qed.
Lemma ws_nil : ws [].
Proof. constructor. Qed.
Lemma ws_space : ws [32].
Proof. constructor; [auto|constructor]. Qed.
Lemma ws_line : ws [10; 32; 32].
Proof. repeat (constructor; [auto|]). constructor. Qed.
Lemma ws_nl : ws [10].
Proof. constructor; [auto|constructor]. Qed.
Lemma obj3 k1 v1 t1 k2 v2 t2 k3 v3 t3 : quoted k1 -> quoted k2 -> quoted k3 -> text v1 t1 -> text v2 t2 -> text v3 t3 ->
  text (JObj [(k1, v1); (k2, v2); (k3, v3)])
    (123 :: 32 :: 34 :: k1 ++ 34 :: 58 :: 32 :: t1 ++ 44 :: 32 :: 34 :: k2 ++ 34 :: 58 :: 32 :: t2 ++ 44 :: 32 :: 34 :: k3 ++ 34 :: 58 :: 32 :: t3 ++ [32; 125]).
Proof.
  intros K1 K2 K3 T1 T2 T3.
  pose proof (members_one [32] k3 [] [32] v3 t3 [32] ws_space K3 ws_nil ws_space T3 ws_space) as M3.
  pose proof (members_more [32] k2 [] [32] v2 t2 [] _ _ ws_space K2 ws_nil ws_space T2 ws_nil M3 ltac:(discriminate)) as M2.
  pose proof (members_more [32] k1 [] [32] v1 t1 [] _ _ ws_space K1 ws_nil ws_space T1 ws_nil M2 ltac:(discriminate)) as M1.
  pose proof (text_obj _ _ M1) as R. cbn [app] in R. repeat (rewrite <- app_assoc in R; cbn [app] in R). exact R.
Qed.
Lemma text_string s : quoted s -> text (JStr s) (34 :: s ++ [34]).
Proof. apply text_str. Qed.

Definition numbered (b : bool) : list Z := if b then [] else [44].
Lemma json_items {A} (f : bool -> A -> res (list Z)) (val : A -> json) (txt : A -> list Z) l :
  (forall x, In x l -> (forall b, f b x = Ok (numbered b ++ [10; 32; 32] ++ txt x)) /\ text (val x) (txt x)) ->
  exists s, each f true l = Ok s /\ elements (map val l) (s ++ [10]).
Proof.
  destruct l as [|x l]; intros H; [exists []; split; [reflexivity|apply elements_none; apply ws_nl]|].
  assert (G : forall l x, (forall y, In y (x :: l) -> (forall b, f b y = Ok (numbered b ++ [10; 32; 32] ++ txt y)) /\ text (val y) (txt y)) ->
    exists s, each f false l = Ok s /\ elements (map val (x :: l)) ([10; 32; 32] ++ txt x ++ s ++ [10])).
  { clear x l H. induction l as [|y l IH]; intros x H.
    - exists []. split; [reflexivity|]. cbn [map app]. apply (elements_one [10; 32; 32]); [apply ws_line|apply (H x); left; reflexivity|apply ws_nl].
    - destruct (IH y) as (s & E & M); [intros z Hz; apply H; right; exact Hz|]. destruct (H y) as (Ey & _); [right; left; reflexivity|].
      exists (44 :: [10; 32; 32] ++ txt y ++ s). split.
      + cbn [each]. rewrite (Ey false). cbn [bind]. rewrite E. cbn [bind numbered app]. reflexivity.
      + pose proof (elements_more [10; 32; 32] (val x) (txt x) [] (map val (y :: l)) _ ws_line ltac:(apply (H x); left; reflexivity) ws_nil M ltac:(discriminate)) as R.
        cbn [map app] in *. rewrite <- !app_assoc. exact R. }
  destruct (G l x H) as (s & E & M). destruct (H x ltac:(left; reflexivity)) as (Ex & _).
  exists ([10; 32; 32] ++ txt x ++ s). split; [cbn [each]; rewrite (Ex true); cbn [bind]; rewrite E; reflexivity|].
  rewrite <- !app_assoc. exact M.
Qed.
Lemma json_object name l s : quoted name -> elements l s -> document (JObj [(name, JArr l)]) (123 :: 32 :: 34 :: name ++ 34 :: 32 :: 58 :: 32 :: 91 :: s ++ [93; 125; 10]).
Proof.
  intros Q M. pose proof (members_one [32] name [32] [32] (JArr l) _ [] ws_space Q ws_space ws_space (text_arr _ _ M) ws_nil) as R.
  exists [], (123 :: (32 :: 34 :: name ++ 34 :: 32 :: 58 :: 32 :: 91 :: s ++ [93]) ++ [125]), [10].
  split; [apply ws_nil|]. split; [|split; [apply ws_nl|]].
  - apply text_obj. cbn [app] in R. repeat (rewrite <- app_assoc in R; cbn [app] in R). exact R.
  - cbn [app]. repeat (rewrite <- app_assoc; cbn [app]). reflexivity.
Qed.

Definition as_text (n : Z) : list Z := 65 :: 83 :: udec n.
Definition prefix_text (v : vrp) : list Z := ntop (v_fam v) (v_addr v) ++ 47 :: udec (v_len v).
Definition roa_value (v : vrp) : json := JObj [(cstr "asn", JStr (as_text (v_asn v))); (cstr "prefix", JStr (prefix_text v)); (cstr "maxLength", JWord (udec (v_max v)))].
Definition roa_text (v : vrp) : list Z :=
  123 :: 32 :: 34 :: cstr "asn" ++ 34 :: 58 :: 32 :: (34 :: as_text (v_asn v) ++ [34]) ++
  44 :: 32 :: 34 :: cstr "prefix" ++ 34 :: 58 :: 32 :: (34 :: prefix_text v ++ [34]) ++
  44 :: 32 :: 34 :: cstr "maxLength" ++ 34 :: 58 :: 32 :: udec (v_max v) ++ [32; 125].
Lemma roa_json_text b v : print_roa_json b v = numbered b ++ [10; 32; 32] ++ roa_text v.
Proof.
  unfold print_roa_json, roa_text, as_text, prefix_text, q. change (if b then [] else cstr ",") with (numbered b).
  f_equal. cbn [cstr list_ascii_of_string map app]. repeat (rewrite <- app_assoc; cbn [app]). reflexivity.
Qed.
Ltac keyq := apply quoted_of; apply Forall_forall; vm_compute; intuition subst; discriminate.
Lemma as_quoted n : is_u32 n -> quoted (as_text n).
Proof.
  intros H. apply quoted_of. unfold as_text. constructor; [lia|]. constructor; [lia|]. eapply Forall_impl; [|apply udec_chars; exact H]. cbn. lia.
Qed.
Lemma roa_value_text v : valid_vrp v -> text (roa_value v) (roa_text v) /\ json_roa (roa_value v) = Some v.
Proof.
  intros (Ha & Hl & Hm & Hf). split.
  - apply obj3; try keyq.
    + apply text_str. apply as_quoted. exact Ha.
    + apply text_str. apply quoted_of. unfold prefix_text. apply Forall_app. split.
      * eapply Forall_impl; [|apply ntop_chars]. unfold addrchar, hexchar. lia.
      * constructor; [lia|]. eapply Forall_impl; [|apply udec_chars; apply byte_is_u32; exact Hl]. cbn. lia.
    + apply text_word; [apply udec_nonempty; apply byte_is_u32; exact Hm|]. eapply Forall_impl; [|apply udec_chars; apply byte_is_u32; exact Hm]. unfold wordchar. lia.
  - unfold roa_value, json_roa. rewrite !same_refl. unfold as_text, prefix_text. rewrite read_asn_ok by exact Ha. rewrite read_prefix_ok; [|exact Hf|apply byte_is_u32; exact Hl].
    rewrite dec_udec by (apply byte_is_u32; exact Hm). destruct v; reflexivity.
Qed.
Lemma roas_json_ok t : Forall valid_vrp (t_roas t) -> exists s, print_roas OFM_JSON t = Ok s /\ roas_json s (t_roas t).
Proof.
  intros H. rewrite Forall_forall in H. destruct (json_items (fun f v => Ok (print_roa_json f v)) roa_value roa_text (t_roas t)) as (s & E & M).
  { intros x Hx. split; [intros b; rewrite roa_json_text; reflexivity|apply roa_value_text; apply H; exact Hx]. }
  unfold print_roas. rewrite E. eexists. split; [reflexivity|]. exists (map roa_value (t_roas t)). split.
  - pose proof (json_object (cstr "roas") (map roa_value (t_roas t)) (s ++ [10]) ltac:(keyq) M) as R.
    rewrite <- app_assoc in R. exact R.
  - rewrite map_map. rewrite (map_ext_in _ Some) by (intros x Hx; apply roa_value_text; apply H; exact Hx). apply all_some_map.
Qed.
Definition key_value (k : router_key) : json := JObj [(cstr "asn", JStr (as_text (rk_asn k))); (cstr "ski", JStr (url_of (rk_ski k))); (cstr "spki", JStr (url_of (rk_spk k)))].
Definition key_text (k : router_key) : list Z :=
  123 :: 32 :: 34 :: cstr "asn" ++ 34 :: 58 :: 32 :: (34 :: as_text (rk_asn k) ++ [34]) ++
  44 :: 32 :: 34 :: cstr "ski" ++ 34 :: 58 :: 32 :: (34 :: url_of (rk_ski k) ++ [34]) ++
  44 :: 32 :: 34 :: cstr "spki" ++ 34 :: 58 :: 32 :: (34 :: url_of (rk_spk k) ++ [34]) ++ [32; 125].
Lemma url_quoted s : Forall urlchar s -> quoted s.
Proof. intros H. apply quoted_of. eapply Forall_impl; [|exact H]. unfold urlchar. lia. Qed.
Lemma key_json_text k : valid_key k -> (forall b, print_router_key_json b k = Ok (numbered b ++ [10; 32; 32] ++ key_text k)) /\ text (key_value k) (key_text k) /\ json_key (key_value k) = Some k.
Proof.
  intros H. destruct (encode_key k H) as (E1 & D1 & C1 & E2 & D2 & C2). destruct H as (Ha & _). split; [|split].
  - intros b. unfold print_router_key_json. rewrite E1. cbn [bind]. rewrite E2. cbn [bind]. f_equal. unfold key_text, as_text, q. change (if b then [] else cstr ",") with (numbered b).
    f_equal. cbn [cstr list_ascii_of_string map app]. repeat (rewrite <- app_assoc; cbn [app]). reflexivity.
  - apply obj3; try keyq; apply text_str; [apply as_quoted; exact Ha|apply url_quoted; exact C1|apply url_quoted; exact C2].
  - unfold key_value, json_key. rewrite !same_refl. unfold as_text. rewrite read_asn_ok by exact Ha. rewrite D1, D2. destruct k; reflexivity.
Qed.
Lemma keys_json_ok t : Forall valid_key (t_rks t) -> exists s, print_router_keys OFM_JSON t = Ok s /\ keys_json s (t_rks t).
Proof.
  intros H. rewrite Forall_forall in H. destruct (json_items print_router_key_json key_value key_text (t_rks t)) as (s & E & M).
  { intros x Hx. destruct (key_json_text x (H x Hx)) as (A & B & _). auto. }
  unfold print_router_keys. rewrite E. eexists. split; [reflexivity|]. exists (map key_value (t_rks t)). split.
  - pose proof (json_object (cstr "router-keys") (map key_value (t_rks t)) (s ++ [10]) ltac:(keyq) M) as R.
    rewrite <- app_assoc in R. exact R.
  - rewrite map_map. rewrite (map_ext_in _ Some) by (intros x Hx; apply key_json_text; apply H; exact Hx). apply all_some_map.
Qed.

Lemma json_file_unique {A} (record : json -> option A) name file l l' : json_file record name file l -> json_file record name file l' -> l = l'.
Proof.
  intros (vs & D & E) (vs' & D' & E'). pose proof (document_unique _ _ _ D D') as K. injection K as <-. congruence.
Qed.
Lemma json_file_truncated {A} (record : json -> option A) name file l l' room : json_file record name file l -> json_file record name (kept room file) l' -> l = l'.
Proof.
  intros (vs & D & E) (vs' & D' & E'). unfold kept in D'. pose proof D as D0. rewrite <- (firstn_skipn room file) in D. pose proof (document_prefix _ _ _ _ D D') as W.
  pose proof (document_ws _ _ _ D' W) as R. rewrite firstn_skipn in R. pose proof (document_unique _ _ _ D0 R) as K. injection K as <-. congruence.
Qed.

(** *** The files and what routers get *)
From Verif Require Import VrpsProofs VrpsProofs2.
Lemma print_data_ok fmt t : valid_table t -> exists a b, output_print_data fmt t = Ok (a, b) /\ lists_roas fmt a (t_roas t) /\ lists_keys fmt b (t_rks t).
Proof.
  intros (V & K & _). unfold output_print_data. destruct fmt; cbn [lists_roas lists_keys].
  - destruct (roas_csv_ok t V) as (a & -> & A). destruct (keys_csv_ok t K) as (b & -> & B). exists a, b. auto.
  - destruct (roas_json_ok t V) as (a & -> & A). destruct (keys_json_ok t K) as (b & -> & B). exists a, b. auto.
Qed.
Lemma print_run_snoc fmt lifetime c : forall cs p, print_run fmt lifetime p (cs ++ [c]) = bind (print_run fmt lifetime p cs) (fun p => update_and_print fmt lifetime p c).
Proof.
  induction cs as [|d cs IH]; intros p; cbn [app print_run].
  - cbn [bind]. destruct (update_and_print fmt lifetime p c); reflexivity.
  - destruct (update_and_print fmt lifetime p d); cbn [bind]; [apply IH|reflexivity|reflexivity].
Qed.
Lemma vrps_run_snoc lifetime c : forall cs s, vrps_run lifetime s (cs ++ [c]) = bind (vrps_run lifetime s cs) (fun s => bind (vrps_update lifetime s c) (fun o => Ok (u_state o))).
Proof.
  induction cs as [|d cs IH]; intros s; cbn [app vrps_run].
  - cbn [bind]. destruct (vrps_update lifetime s c); reflexivity.
  - destruct (vrps_update lifetime s d); cbn [bind]; [apply IH|reflexivity|reflexivity].
Qed.
Lemma valid_cycle_ok c : valid_cycle c -> cycle_ok c.
Proof. destruct c; cbn; auto. intros (_ & _ & H). exact H. Qed.
Lemma files_current fmt lifetime now ra rb cs : 1 <= lifetime < 2147483648 -> Forall valid_cycle cs ->
  exists p, print_run fmt lifetime {| p_state := vrps_init lifetime now; p_roas := ra; p_keys := rb |} cs = Ok p /\
    vrps_run lifetime (vrps_init lifetime now) cs = Ok (p_state p) /\
    match s_base (p_state p) with
    | None => p_roas p = ra /\ p_keys p = rb
    | Some t => exists vs ks, lists_roas fmt (p_roas p) vs /\ lists_keys fmt (p_keys p) ks /\ NoDup vs /\ NoDup ks /\
                  (forall v, In v vs <-> roas_of t v) /\ (forall k, In k ks <-> rks_of t k)
    end.
Proof.
  intros Hl. induction cs as [|c cs IH] using rev_ind; intros H.
  - eexists. split; [reflexivity|]. split; [reflexivity|]. cbn. auto.
  - apply Forall_app in H. destruct H as (H & Hc). inversion Hc as [|? ? Vc _]; subst. destruct (IH H) as (p & E & R & B).
    rewrite print_run_snoc, E. cbn [bind]. rewrite vrps_run_snoc, R. cbn [bind].
    destruct (update_cases_lem lifetime now cs c Hl (Forall_impl _ valid_cycle_ok H) (valid_cycle_ok c Vc)) as (s & o & R' & U & C). rewrite R in R'. injection R' as <-.
    unfold update_and_print. destruct c as [| e|t]; cbn [bind].
    + rewrite U. cbn [bind]. destruct C as [(_ & S0 & _)|(t & K & _)]; [|discriminate K]. eexists. split; [reflexivity|]. cbn [p_state p_roas p_keys fst snd]. rewrite S0. auto.
    + rewrite U. cbn [bind]. destruct C as [(_ & S0 & _)|(t & K & _)]; [|discriminate K]. eexists. split; [reflexivity|]. cbn [p_state p_roas p_keys fst snd]. rewrite S0. auto.
    + destruct (print_data_ok fmt t Vc) as (a & b & Ep & La & Lb). rewrite Ep. cbn [bind]. rewrite U. cbn [bind]. eexists. split; [reflexivity|]. cbn [p_state p_roas p_keys fst snd].
      split; [reflexivity|]. cbn in Vc. destruct Vc as (_ & _ & N1 & N2). destruct C as [(_ & S0 & _ & q & Bq & Sq)|(t' & K & _ & _ & Bt & _)].
      * rewrite S0, Bq. exists (t_roas t), (t_rks t). destruct Sq as (S1 & S2). repeat (split; [assumption|]). split; intros x; [rewrite (S1 x)|rewrite (S2 x)]; reflexivity.
      * injection K as <-. rewrite Bt. exists (t_roas t), (t_rks t). repeat (split; [assumption|]). split; intros x; reflexivity.
Qed.
