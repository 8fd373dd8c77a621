(** Proofs for C67: DER encodings are encodings (Asn1DecSpec.enc). *)
From Coq Require Import Lia.
From Verif Require Import Base BaseLemmas Ber BerSpec BerProofs BerProofs4 Address Resources Roa Manifest SignedData.
From Verif Require Import Asn1Dec Asn1DecSpec Asn1Types Asn1Check Asn1Constraints Asn1CheckSpec Asn1CheckProofs Objects ObjectsSpec.
Notation length := List.length.

(** ** Lengths *)
Lemma be256_cons d acc : be256 (d :: acc) = d * 256 ^ Z.of_nat (length acc) + be256 acc.
Proof.
  unfold be256. cbn [fold_left]. replace d with (0 * 256 + d) at 2 by lia.
  enough (E : forall acc v, fold_left (fun v b => v * 256 + b) acc v = v * 256 ^ Z.of_nat (length acc) + fold_left (fun v b => v * 256 + b) acc 0)
    by apply E.
  clear. induction acc as [|x acc IH]; intros v; [cbn [fold_left length]; change (256 ^ Z.of_nat 0) with 1; lia|].
  cbn [fold_left length]. rewrite IH. rewrite (IH (0 * 256 + x)). rewrite Nat2Z.inj_succ, Z.pow_succ_r by lia. ring.
Qed.

Lemma digits256_value fuel : forall n acc, 0 <= n < 256 ^ Z.of_nat fuel ->
  be256 (digits256 fuel n acc) = n * 256 ^ Z.of_nat (length acc) + be256 acc.
Proof.
  induction fuel as [|fuel IH]; intros n acc Hn.
  - change (256 ^ Z.of_nat 0) with 1 in Hn. assert (n = 0) by lia. subst. cbn [digits256]. lia.
  - cbn [digits256]. destruct (Z.eqb_spec n 0) as [->|Hz]; [lia|].
    rewrite Nat2Z.inj_succ, Z.pow_succ_r in Hn by lia.
    rewrite IH by (split; [apply Z.div_pos; lia|apply Z.div_lt_upper_bound; lia]).
    rewrite be256_cons. cbn [length]. rewrite Nat2Z.inj_succ, Z.pow_succ_r by lia.
    rewrite (Z.div_mod n 256) at 3 by lia. ring.
Qed.

Lemma digits256_bytes fuel : forall n acc, bytes acc -> bytes (digits256 fuel n acc).
Proof.
  induction fuel as [|fuel IH]; intros n acc H; cbn [digits256]; [assumption|].
  destruct (n =? 0); [assumption|]. apply IH. constructor; [|assumption]. unfold is_byte. pose proof (Z.mod_pos_bound n 256). lia.
Qed.

Lemma digits256_length fuel : forall n acc, (length acc <= length (digits256 fuel n acc) <= fuel + length acc)%nat.
Proof.
  induction fuel as [|fuel IH]; intros n acc; cbn [digits256]; [lia|].
  destruct (n =? 0); [lia|]. specialize (IH (n / 256) (n mod 256 :: acc)). cbn [length] in IH. lia.
Qed.

Lemma len_octets_ok c n : 0 <= n < 4611686018427387904 -> length_octets c (len_octets n) (Some n).
Proof.
  intros Hn. unfold len_octets. destruct (Z.ltb_spec n 128).
  - constructor. lia.
  - cbn zeta. replace (Some n) with (Some (be256 (digits256 8 n []))).
    + constructor; [apply digits256_bytes; constructor|].
      pose proof (digits256_length 8 n []) as L. cbn [length] in L.
      assert (L1 : (1 <= length (digits256 8 n []))%nat).
      { cbn [digits256]. destruct (Z.eqb_spec n 0); [lia|].
        pose proof (digits256_length 7 (n / 256) [n mod 256]). cbn [length] in *. exact (proj1 H0). }
      lia.
    + f_equal. rewrite digits256_value by (cbn; lia). cbn. lia.
Qed.

Lemma len_octets_bytes n : 0 <= n -> bytes (len_octets n).
Proof.
  intros Hn. unfold len_octets. destruct (Z.ltb_spec n 128).
  - constructor; [unfold is_byte; lia|constructor].
  - cbn zeta. pose proof (digits256_length 8 n []) as L. cbn [length] in L.
    constructor; [unfold is_byte; lia|]. apply digits256_bytes. constructor.
Qed.

Lemma tlv_length t body : (length body + 2 <= length (tlv t body))%nat.
Proof.
  unfold tlv. cbn [length]. rewrite app_length. enough (1 <= length (len_octets (Z.of_nat (length body))))%nat by lia.
  unfold len_octets. destruct (Z.of_nat (length body) <? 128); cbn [length]; lia.
Qed.

Lemma tlv_bytes t body : is_byte t -> bytes body -> bytes (tlv t body).
Proof.
  intros Ht Hb. constructor; [assumption|]. apply Forall_app. split; [apply len_octets_bytes; lia|assumption].
Qed.

(** ** Headers *)
Lemma hdr_low e cl (c : bool) num len : 0 <= cl < 4 -> 0 <= num < 31 -> 0 <= len < 4611686018427387904 ->
  (forall t, e = Some t -> num * 4 + cl = t) ->
  hdr e c (Some len) ((cl * 64 + (if c then 32 else 0) + num) :: len_octets len).
Proof.
  intros Hcl Hnum Hlen He. exists [cl * 64 + (if c then 32 else 0) + num], (len_octets len), cl, num.
  split; [reflexivity|]. split; [constructor; assumption|]. split; [unfold tag_fits; lia|]. split; [assumption|].
  split; [left; apply len_octets_ok; assumption|]. unfold length_fits. lia.
Qed.

Lemma leading_low cl (c : bool) num t body T : 0 <= cl < 4 -> 0 <= num < 31 -> T = cl * 64 + (if c then 32 else 0) + num ->
  t = num * 4 + cl -> leading t (tlv T body).
Proof.
  intros Hcl Hnum -> ->. exists [cl * 64 + (if c then 32 else 0) + num], cl, c, num, (len_octets (Z.of_nat (length body)) ++ body).
  split; [reflexivity|]. split; [constructor; assumption|]. split; [unfold tag_fits; lia|reflexivity].
Qed.

(** Tags by identifier octet. *)
Definition tag_of (T : Z) : Z := (T mod 32) * 4 + T / 64.
Definition low (T : Z) : Prop := 0 <= T < 256 /\ T mod 32 < 31.
Definition constructed_octet (T : Z) : bool := (T / 32) mod 2 =? 1.

Lemma octet_split T : low T -> T = T / 64 * 64 + (if constructed_octet T then 32 else 0) + T mod 32 /\ 0 <= T / 64 < 4 /\ 0 <= T mod 32 < 31.
Proof.
  intros (HT & HL). unfold constructed_octet.
  destruct (Z.eqb_spec ((T / 32) mod 2) 1); (split; [|split; [|pose proof (Z.mod_pos_bound T 32); lia]]);
    Z.div_mod_to_equations; lia.
Qed.

Lemma hdr_tlv e T len : low T -> 0 <= len < 4611686018427387904 -> (forall t, e = Some t -> tag_of T = t) ->
  hdr e (constructed_octet T) (Some len) (T :: len_octets len).
Proof.
  intros HT Hlen He. destruct (octet_split T HT) as (E & Hcl & Hnum). rewrite E at 2. apply hdr_low; assumption.
Qed.

Lemma leading_tlv T body t : low T -> tag_of T = t -> leading t (tlv T body).
Proof.
  intros HT <-. destruct (octet_split T HT) as (E & Hcl & Hnum).
  eapply leading_low; [eassumption..|reflexivity].
Qed.

Lemma tlv_app T body : tlv T body = (T :: len_octets (Z.of_nat (length body))) ++ body.
Proof. reflexivity. Qed.

Ltac lowtag := split; [lia|reflexivity].

(** A definite header in front of a body. *)
Lemma dchain_one e T body : low T -> reasonable (tlv T body) -> (forall t, e = Some t -> tag_of T = t) ->
  dchain [e] (constructed_octet T) (Z.of_nat (length body)) (T :: len_octets (Z.of_nat (length body))).
Proof.
  intros HT Hr He. constructor. apply hdr_tlv; [assumption| |assumption].
  unfold reasonable in Hr. pose proof (tlv_length T body). lia.
Qed.

Lemma chain_one t mode T : mode <> 1 -> (mode = 0 -> tag_of T = t) ->
  exists e, chain [t] mode = [e] /\ forall t', e = Some t' -> tag_of T = t'.
Proof.
  intros Hm Ht. unfold chain. destruct (Z.eqb_spec mode 1); [contradiction|].
  eexists. split; [reflexivity|]. destruct (Z.eqb_spec mode 0); [|discriminate]. intros t' E. injection E as <-. auto.
Qed.

(** [mode] is 0 or -1 (IMPLICIT). *)
Lemma enc_prim_tlv t mode T body : mode <> 1 -> (mode = 0 -> tag_of T = t) -> low T -> constructed_octet T = false ->
  reasonable (tlv T body) -> enc (TPrim [t]) mode (tlv T body) (VBytes body).
Proof.
  intros Hm Ht HT Hc Hr. rewrite tlv_app. constructor. destruct (chain_one t mode T Hm Ht) as (e & -> & He).
  rewrite <- Hc. apply dchain_one; assumption.
Qed.

Lemma enc_octets_tlv t all mode T body : mode <> 1 -> (mode = 0 -> tag_of T = t) -> low T -> constructed_octet T = false ->
  reasonable (tlv T body) -> enc (TString STR [t] all) mode (tlv T body) (VBytes body).
Proof.
  intros Hm Ht HT Hc Hr. rewrite tlv_app. constructor.
  - destruct (chain_one t mode T Hm Ht) as (e & -> & He). rewrite <- Hc. apply dchain_one; assumption.
  - unfold small, reasonable in *. pose proof (tlv_length T body). lia.
Qed.

Lemma der_bits_string s : der_bits s -> Asn1DecSpec.bit_string (bs_buf s) (bs_unused s) (bs_buf s).
Proof.
  destruct s as [buf u]. unfold der_bits. cbn [bs_buf bs_unused]. intros (_ & Hu & H).
  destruct (rev buf) as [|b rbuf] eqn:E.
  - apply (f_equal (@rev Z)) in E. rewrite rev_involutive in E. subst. constructor.
  - apply (f_equal (@rev Z)) in E. rewrite rev_involutive in E. cbn [rev] in E. rewrite E.
    assert (P : 0 < 2 ^ u) by (apply Z.pow_pos_nonneg; lia).
    pose proof (bits_some (rev rbuf) b u Hu) as B.
    replace (b / 2 ^ u * 2 ^ u) with b in B; [exact B|]. rewrite (Z.div_mod b (2 ^ u)) at 1 by lia. lia.
Qed.

Lemma enc_bits_tlv s : der_bits s -> reasonable (BIT_STRING s) ->
  enc (TString BIT [12] [12]) 0 (BIT_STRING s) (VBits (bs_buf s) (bs_unused s)).
Proof.
  intros Hs Hr. unfold BIT_STRING in *. rewrite tlv_app.
  change (bs_unused s) with (hd 0 (bs_unused s :: bs_buf s)) at 3. constructor.
  - change (chain [12] 0) with [Some 12]. change false with (constructed_octet 3). apply dchain_one; [lowtag|assumption|].
    intros t E. injection E as <-. reflexivity.
  - cbn [tl]. unfold small, reasonable in *. pose proof (tlv_length 3 (bs_unused s :: bs_buf s)). cbn [length] in *. lia.
  - cbn [tl hd]. apply der_bits_string. assumption.
Qed.

Lemma enc_null_tlv : enc (TNull [20]) 0 NULL VNull.
Proof.
  unfold NULL, tlv. cbn [length]. constructor. change (chain [20] 0) with [Some 20].
  apply (dchain_one (Some 20) 5 []); [lowtag|unfold reasonable; cbn; lia|]. intros t E. injection E as <-. reflexivity.
Qed.

Lemma enc_seq_tlv t t2e ms mode T body vs : mode <> 1 -> (mode = 0 -> tag_of T = t) -> low T -> constructed_octet T = true ->
  reasonable (tlv T body) -> enc_members false ms body vs -> enc (TSeq [t] t2e ms) mode (tlv T body) (VSeq vs).
Proof.
  intros Hm Ht HT Hc Hr H. eapply enc_seq; [|eassumption]. rewrite tlv_app. constructor.
  destruct (chain_one t mode T Hm Ht) as (e & -> & He). rewrite <- Hc. apply dchain_one; assumption.
Qed.

Lemma enc_of_tlv t etag elem mode T body vs : mode <> 1 -> (mode = 0 -> tag_of T = t) -> low T -> constructed_octet T = true ->
  reasonable (tlv T body) -> enc_elements false etag elem body vs -> enc (TOf [t] etag elem) mode (tlv T body) (VOf vs).
Proof.
  intros Hm Ht HT Hc Hr H. eapply enc_of; [|eassumption]. rewrite tlv_app. constructor.
  destruct (chain_one t mode T Hm Ht) as (e & -> & He). rewrite <- Hc. apply dchain_one; assumption.
Qed.

(** One EXPLICIT tag around a value of a primitive type. *)
Lemma dchain_two t T1 T2 body : low T1 -> constructed_octet T1 = true -> low T2 -> tag_of T2 = t ->
  reasonable (tlv T1 (tlv T2 body)) ->
  dchain [None; Some t] (constructed_octet T2) (Z.of_nat (length body))
    ((T1 :: len_octets (Z.of_nat (length (tlv T2 body)))) ++ (T2 :: len_octets (Z.of_nat (length body)))).
Proof.
  intros H1 Hc H2 Ht Hr. constructor.
  - replace (Z.of_nat (length (T2 :: len_octets (Z.of_nat (length body)))) + Z.of_nat (length body))
      with (Z.of_nat (length (tlv T2 body))) by (rewrite tlv_app, app_length; lia).
    rewrite <- Hc. apply hdr_tlv; [assumption| |discriminate]. unfold reasonable in Hr. pose proof (tlv_length T1 (tlv T2 body)). lia.
  - apply dchain_one; [assumption| |].
    + unfold reasonable in *. pose proof (tlv_length T1 (tlv T2 body)). lia.
    + intros t' E. injection E as <-. assumption.
Qed.

Lemma tlv_tlv T1 T2 body : tlv T1 (tlv T2 body)
  = ((T1 :: len_octets (Z.of_nat (length (tlv T2 body)))) ++ (T2 :: len_octets (Z.of_nat (length body)))) ++ body.
Proof. rewrite tlv_app at 1. rewrite (tlv_app T2) at 2. rewrite <- app_assoc. reflexivity. Qed.

Lemma enc_explicit_integer n v : 0 <= n < 31 -> reasonable (CONTEXT n (INTEGER v)) ->
  enc (TPrim [8]) 1 (CONTEXT n (INTEGER v)) (VBytes v).
Proof.
  intros Hn Hr. unfold CONTEXT, INTEGER in *. rewrite tlv_tlv. constructor.
  change (chain [8] 1) with [None; Some 8]. change false with (constructed_octet 2).
  assert (E1 : (160 + n) mod 32 = n) by (Z.div_mod_to_equations; lia).
  assert (E2 : (160 + n) / 32 = 5) by (Z.div_mod_to_equations; lia).
  apply dchain_two; [split; lia| |lowtag|reflexivity|assumption].
  unfold constructed_octet. rewrite E2. reflexivity.
Qed.

Lemma enc_explicit_octets n v : 0 <= n < 31 -> reasonable (CONTEXT n (OCTET_STRING v)) ->
  enc (TString STR [16] [16]) 1 (CONTEXT n (OCTET_STRING v)) (VBytes v).
Proof.
  intros Hn Hr. unfold CONTEXT, OCTET_STRING in *. rewrite tlv_tlv. constructor.
  - change (chain [16] 1) with [None; Some 16]. change false with (constructed_octet 4).
    assert (E1 : (160 + n) mod 32 = n) by (Z.div_mod_to_equations; lia).
    assert (E2 : (160 + n) / 32 = 5) by (Z.div_mod_to_equations; lia).
    apply dchain_two; [split; lia| |lowtag|reflexivity|assumption].
    unfold constructed_octet. rewrite E2. reflexivity.
  - unfold small, reasonable in *. pose proof (tlv_length (160 + n) (tlv 4 v)). pose proof (tlv_length 4 v). lia.
Qed.

(** ** Members and elements *)
Lemma member_present mtag md opt any t ms T body bs v vs : low T ->
  (forall g, mtag = Some g -> tag_of T = g) -> enc t md (tlv T body) v -> enc_members false ms bs vs ->
  enc_members false (Member mtag md opt any t :: ms) (tlv T body ++ bs) (Some v :: vs).
Proof.
  intros HT Hg He H. constructor; [|assumption|discriminate|assumption].
  intros g E. apply leading_tlv; auto.
Qed.

Lemma elements_map {A} etag t (f : A -> list Z) (g : A -> value) (l : list A) :
  (forall x, In x l -> starts etag (f x) /\ enc t 0 (f x) (g x)) ->
  enc_elements false etag t (concat (map f l)) (map g l).
Proof.
  induction l as [|x l IH]; intros H; [constructor|]. cbn [map concat].
  destruct (H x (or_introl eq_refl)) as (Hs & He). constructor; [assumption|assumption|discriminate|].
  apply IH. intros y Hy. apply H. right. assumption.
Qed.

Lemma reasonable_part T parts p : reasonable (tlv T (concat parts)) -> In p parts -> reasonable p.
Proof.
  unfold reasonable. intros Hr Hin. pose proof (tlv_length T (concat parts)).
  assert (length p <= length (concat parts))%nat; [|lia].
  clear -Hin. induction parts as [|q parts IH]; [contradiction|]. cbn [concat]. rewrite app_length.
  destruct Hin as [->|Hin]; [lia|]. specialize (IH Hin). lia.
Qed.

Lemma reasonable_inside T body : reasonable (tlv T body) -> reasonable body.
Proof. unfold reasonable. pose proof (tlv_length T body). lia. Qed.
