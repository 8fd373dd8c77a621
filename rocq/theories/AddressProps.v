(** C17-C19: addresses, prefixes and ranges. *)
From Verif Require Import Base BaseLemmas Types PduWireSpec Address AddressSpec AddressProofs.

(** ** C17: a prefix is accepted exactly when it is canonical, and decodes to
    what it denotes. *)
Theorem C17_ipv4_prefix_decoding_exact :
  forall s, bit_string_ok s ->
  prefix4_decode s <> UB /\
  forall addr len, prefix4_decode s = Ok (addr, len) <-> denotes 32 s addr len.
Proof.
  intros s F. pose proof (prefix4_decode_spec s F) as S.
  destruct (prefix4_decode s) as [[a l]|e|]; [| |contradiction]; (split; [discriminate|]); intros addr len.
  - split; [intros E; injection E as <- <-; exact S|].
    intros D. destruct (denotes_fun _ _ _ _ _ _ S D) as [-> ->]. reflexivity.
  - destruct S as [_ N]. split; [discriminate|]. intros D. exfalso. eapply N; eauto.
Qed.
Print Assumptions C17_ipv4_prefix_decoding_exact.

Theorem C17_ipv6_prefix_decoding_exact :
  forall s, bit_string_ok s ->
  prefix6_decode s <> UB /\
  forall addr len, (exists bytes, prefix6_decode s = Ok (bytes, len) /\ be bytes = addr /\ length bytes = 16%nat)
                   <-> denotes 128 s addr len.
Proof.
  intros s F. pose proof (prefix6_decode_spec s F) as S.
  destruct (prefix6_decode s) as [[a l]|e|]; [| |contradiction]; (split; [discriminate|]); intros addr len.
  - destruct S as (S & L & _). split.
    + intros (b & E & <- & _). injection E as <- <-. exact S.
    + intros D. destruct (denotes_fun _ _ _ _ _ _ S D) as [-> ->]. exists a. auto.
  - destruct S as [_ N]. split; [intros (b & E & _); discriminate|]. intros D. exfalso. eapply N; eauto.
Qed.
Print Assumptions C17_ipv6_prefix_decoding_exact.

(** The same check on prefixes that were parsed from text (SLURM). *)
Theorem C17_prefix_validate_exact :
  (forall addr len, 0 <= len <= 32 ->
     (ipv4_prefix_validate addr len = Ok tt <-> addr mod 2 ^ (32 - len) = 0)) /\
  (forall addr len, 0 <= len <= 128 -> 0 <= addr < 2 ^ 128 ->
     (ipv6_prefix_validate (to_bytes 16 addr) len = Ok tt <-> addr mod 2 ^ (128 - len) = 0)).
Proof.
  split; intros addr len H.
  - unfold ipv4_prefix_validate. rewrite u32_suffix_mask_spec, land_mask by lia.
    destruct (Z.eqb_spec (addr mod 2 ^ (32 - len)) 0); cbn [negb]; split; auto; try discriminate; contradiction.
  - intros HA. unfold ipv6_prefix_validate. rewrite suffix_mask6_zero by lia.
    destruct (mask6_spec len H) as (Em & Fm & Lm). destruct (be_to_bytes addr HA) as (EA & FA & LA).
    rewrite bitwise_and_spec by (auto; lia). rewrite Em, EA, land_mask by lia.
    destruct (Z.eqb_spec (addr mod 2 ^ (128 - len)) 0); cbn [negb]; split; auto; try discriminate; contradiction.
Qed.
Print Assumptions C17_prefix_validate_exact.

(* 10.0/15 as the bit string 00001010 0000000; a host bit is refused. *)
Example C17_example : prefix4_decode {| bs_buf := [10; 0]; bs_unused := 1 |} = Ok (167772160, 15) /\
  prefix4_decode {| bs_buf := [10; 1]; bs_unused := 1 |} = Err EINVAL /\
  prefix4_decode {| bs_buf := [10; 1]; bs_unused := 0 |} = Ok (167837696, 16).
Proof. repeat split; vm_compute; reflexivity. Qed.
Example C17_example6 : exists b, prefix6_decode {| bs_buf := [32; 1; 13; 184]; bs_unused := 0 |} = Ok (b, 32) /\
  be b = 536939960 * 2 ^ 96.
Proof. eexists. split; vm_compute; reflexivity. Qed.

(** ** C18: ranges. *)
Theorem C18_ipv4_range_decoding_exact :
  forall lo hi, bit_string_ok lo -> bit_string_ok hi ->
  range4_decode lo hi <> UB /\
  forall min max, range4_decode lo hi = Ok (min, max) <->
    range_denotes 32 lo hi min max /\ min <= max /\ ~ is_one_prefix 32 min max.
Proof.
  intros lo hi Fl Fh. pose proof (range4_decode_spec lo hi Fl Fh) as S.
  destruct (range4_decode lo hi) as [[a b]|e|]; [| |contradiction]; (split; [discriminate|]); intros mn mx.
  - split; [intros E; injection E as <- <-; exact S|].
    intros ((la & b' & lb & D1 & D2 & ->) & _). destruct S as ((la' & b2 & lb' & D1' & D2' & ->) & _).
    destruct (denotes_fun _ _ _ _ _ _ D1 D1') as [-> ->].
    destruct (denotes_fun _ _ _ _ _ _ D2 D2') as [-> ->]. reflexivity.
  - destruct S as [_ N]. split; [discriminate|]. intros D. exfalso. eapply N; eauto.
Qed.
Print Assumptions C18_ipv4_range_decoding_exact.

Theorem C18_ipv6_range_decoding_exact :
  forall lo hi, bit_string_ok lo -> bit_string_ok hi ->
  range6_decode lo hi <> UB /\
  forall min max, (exists a b, range6_decode lo hi = Ok (a, b) /\ be a = min /\ be b = max) <->
    range_denotes 128 lo hi min max /\ min <= max /\ ~ is_one_prefix 128 min max.
Proof.
  intros lo hi Fl Fh. pose proof (range6_decode_spec lo hi Fl Fh) as S.
  destruct (range6_decode lo hi) as [[a b]|e|]; [| |contradiction]; (split; [discriminate|]); intros mn mx.
  - split.
    + intros (a' & b' & E & <- & <-). injection E as <- <-. tauto.
    + intros ((la & b' & lb & D1 & D2 & ->) & _). exists a, b. split; [reflexivity|].
      destruct S as ((la' & b2 & lb' & D1' & D2' & ->) & _).
      destruct (denotes_fun _ _ _ _ _ _ D1 D1') as [-> ->].
      destruct (denotes_fun _ _ _ _ _ _ D2 D2') as [-> ->]. auto.
  - destruct S as [_ N]. split; [intros (a' & b' & E & _); discriminate|]. intros D. exfalso. eapply N; eauto.
Qed.
Print Assumptions C18_ipv6_range_decoding_exact.

(* 10.5.0.0 - 10.255.255.255 is a range; 10.0.0.0 - 10.255.255.255 is 10/8. *)
Example C18_example :
  range4_decode {| bs_buf := [10; 5]; bs_unused := 0 |} {| bs_buf := [10]; bs_unused := 0 |}
    = Ok (168099840, 184549375) /\
  range4_decode {| bs_buf := [10]; bs_unused := 1 |} {| bs_buf := [10]; bs_unused := 0 |} = Err EINVAL /\
  range4_decode {| bs_buf := [10; 5]; bs_unused := 0 |} {| bs_buf := [10; 4]; bs_unused := 0 |} = Err EINVAL.
Proof. repeat split; vm_compute; reflexivity. Qed.

(** ** C19: the covering test is inclusion of address sets. *)
Theorem C19_prefix_coverage_is_inclusion :
  forall a b, canonical a -> canonical b ->
  (vrp_prefix_cov a b = true <->
   v_fam a = v_fam b /\
   forall x, in_prefix (width (v_fam b)) (v_addr b) (v_len b) x ->
             in_prefix (width (v_fam a)) (v_addr a) (v_len a) x).
Proof. exact vrp_prefix_cov_spec. Qed.
Print Assumptions C19_prefix_coverage_is_inclusion.

Definition ex_p (a l : Z) (f : family) : vrp :=
  {| v_asn := 1; v_addr := a; v_len := l; v_max := l; v_fam := f |}.
Example C19_example :
  canonical (ex_p 167772160 8 AF_INET) /\ canonical (ex_p 167837696 16 AF_INET) /\
  vrp_prefix_cov (ex_p 167772160 8 AF_INET) (ex_p 167837696 16 AF_INET) = true /\
  vrp_prefix_cov (ex_p 167837696 16 AF_INET) (ex_p 167772160 8 AF_INET) = false /\
  vrp_prefix_cov (ex_p (2 ^ 125) 3 AF_INET6) (ex_p (2 ^ 125 + 2 ^ 65) 64 AF_INET6) = true.
Proof.
  unfold canonical; cbn [ex_p v_len v_addr v_fam width].
  repeat split; try lia; vm_compute; reflexivity.
Qed.
