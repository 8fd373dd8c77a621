(** Proofs for C67: bytes, checks, and what is left in the records. *)
From Coq Require Import Lia.
From Verif Require Import Base BaseLemmas Asn1 Ber BerSpec BerProofs BerProofs4 Address Resources Roa Manifest ManifestSpec ManifestProofs ManifestProps SignedData.
From Verif Require Import Asn1Dec Asn1DecSpec Asn1Types Asn1DecProps Asn1Check Asn1Constraints Asn1CheckSpec Asn1CheckProofs Asn1CheckProps.
From Verif Require Import Objects ObjectsSpec ObjectsProofs ObjectsProofs2 ObjectsProofs3.
Notation length := List.length.

(** ** Bytes *)
Lemma concat_bytes l : (forall p, In p l -> bytes p) -> bytes (concat l).
Proof.
  induction l as [|p l IH]; intros H; [constructor|]. cbn [concat]. apply Forall_app. split; [apply H; left; reflexivity|].
  apply IH. intros q Hq. apply H. right. assumption.
Qed.

Lemma parts_bytes T l : is_byte T -> (forall p, In p l -> bytes p) -> bytes (tlv T (concat l)).
Proof. intros HT H. apply tlv_bytes; [assumption|]. apply concat_bytes. assumption. Qed.

Ltac octet := unfold is_byte; lia.
Ltac parts := apply parts_bytes; [octet|]; intros p Hp; cbn [In] in Hp;
  repeat (destruct Hp as [<-|Hp]; [|]); [..|contradiction].
Ltac simple_bytes := apply tlv_bytes; [octet|assumption].

Lemma bits_bytes s : der_bits s -> bytes (BIT_STRING s).
Proof.
  intros (H1 & H2 & _). apply tlv_bytes; [octet|]. constructor; [unfold is_byte; lia|assumption].
Qed.
Lemma null_bytes : bytes NULL.
Proof. apply tlv_bytes; [octet|constructor]. Qed.

Lemma roa_addr_bytes a : roa_addr_fine a -> bytes (der_roa_addr a).
Proof.
  intros (H1 & H2). parts; [apply bits_bytes; assumption|]. destruct (ra_max a) as [m|]; [simple_bytes|constructor].
Qed.
Lemma roa_bytes version asid blocks : roa_fine version asid blocks -> bytes (der_roa version asid blocks).
Proof.
  intros (H1 & H2 & H3). parts.
  - destruct version as [v|]; [|constructor]. apply tlv_bytes; [octet|]. simple_bytes.
  - simple_bytes.
  - apply parts_bytes; [octet|]. intros p Hp. apply in_map_iff in Hp. destruct Hp as (b & <- & Hb).
    rewrite Forall_forall in H3. destruct (H3 b Hb) as (Hf & Ha). parts; [simple_bytes|].
    apply parts_bytes; [octet|]. intros p Hp. apply in_map_iff in Hp. destruct Hp as (a & <- & Hin).
    rewrite Forall_forall in Ha. apply roa_addr_bytes. auto.
Qed.

Lemma manifest_bytes version number this next alg files : match version with Some v => bytes v | None => True end ->
  bytes number -> bytes this -> bytes next -> bytes alg -> Forall file_fine files ->
  bytes (der_manifest version number this next alg files).
Proof.
  intros Hv Hn Ht Hx Ha Hf. parts; try simple_bytes.
  - destruct version as [v|]; [|constructor]. apply tlv_bytes; [octet|]. simple_bytes.
  - apply parts_bytes; [octet|]. intros p Hp. apply in_map_iff in Hp. destruct Hp as (f & <- & Hin).
    rewrite Forall_forall in Hf. destruct (Hf f Hin) as (H1 & H2). parts; [simple_bytes|]. apply bits_bytes. assumption.
Qed.

Lemma ip_blocks_bytes l : Forall ip_family_fine l -> bytes (der_ip_blocks l).
Proof.
  intros H. rewrite Forall_forall in H. apply parts_bytes; [octet|]. intros p Hp. apply in_map_iff in Hp. destruct Hp as (f & <- & Hin).
  destruct (H f Hin) as (H1 & H2). parts; [simple_bytes|]. destruct (f_choice f) as [| |aors]; [contradiction|apply null_bytes|].
  apply parts_bytes; [octet|]. intros p Hp. apply in_map_iff in Hp. destruct Hp as (a & <- & Ha).
  rewrite Forall_forall in H2. specialize (H2 a Ha). destruct a as [q|lo hi|]; [| |contradiction].
  - apply bits_bytes. assumption.
  - destruct H2. parts; apply bits_bytes; assumption.
Qed.

Lemma as_choice_bytes c : as_choice_fine c -> bytes (der_as_choice c).
Proof.
  intros H. destruct c as [| |l]; [contradiction|apply null_bytes|].
  apply parts_bytes; [octet|]. intros p Hp. apply in_map_iff in Hp. destruct Hp as (a & <- & Ha).
  cbn in H. rewrite Forall_forall in H. specialize (H a Ha). destruct a as [q|lo hi|]; [| |contradiction].
  - simple_bytes.
  - destruct H. parts; simple_bytes.
Qed.
Lemma as_ids_bytes num rdi : match num with Some c => as_choice_fine c | None => True end ->
  match rdi with Some c => as_choice_fine c | None => True end -> bytes (der_as_ids num rdi).
Proof.
  intros Hn Hr. parts.
  - destruct num as [c|]; [|constructor]. apply tlv_bytes; [octet|]. apply as_choice_bytes. assumption.
  - destruct rdi as [c|]; [|constructor]. apply tlv_bytes; [octet|]. apply as_choice_bytes. assumption.
Qed.

Lemma alg_bytes a : alg_fine a -> bytes (der_alg a).
Proof.
  intros (H1 & H2). parts; [simple_bytes|]. destruct (al_params a) as [p|]; [apply (proj1 any_bytes); assumption|constructor].
Qed.
Lemma attributes_bytes n l : 0 <= n < 31 -> Forall attribute_fine l -> bytes (der_attributes n l).
Proof.
  intros Hn H. rewrite Forall_forall in H. apply parts_bytes; [octet|]. intros p Hp. apply in_map_iff in Hp. destruct Hp as (a & <- & Ha).
  destruct (H a Ha) as (H1 & H2). parts; [simple_bytes|]. apply parts_bytes; [octet|]. intros p Hp. rewrite Forall_forall in H2.
  apply (proj1 any_bytes). auto.
Qed.
Lemma signer_bytes s ski : signer_fine s ski -> bytes (der_signer s ski).
Proof.
  intros (Hv & _ & Hk & Hd & Ha & Hs & Hg & Hu). parts; try simple_bytes.
  - apply alg_bytes. assumption.
  - destruct (si_attrs s) as [l|]; [|constructor]. apply (attributes_bytes 0); [lia|assumption].
  - apply alg_bytes. assumption.
  - destruct (si_unsigned s) as [l|]; [|constructor]. apply (attributes_bytes 1); [lia|assumption].
Qed.
Lemma signed_data_bytes_with f sd signers : signed_data_fine sd signers ->
  match sd_econtent sd with Some c => bytes (f c) | None => True end -> bytes (der_signed_data_with f sd signers).
Proof.
  intros (Hv & Hd & He & _ & Hce & _ & _ & Hs) Hc. parts; try simple_bytes.
  - apply parts_bytes; [octet|]. intros p Hp. apply in_map_iff in Hp. destruct Hp as (a & <- & Ha). rewrite Forall_forall in Hd.
    apply alg_bytes. auto.
  - parts; [simple_bytes|]. destruct (sd_econtent sd) as [c|]; [|constructor]. apply tlv_bytes; [octet|]. assumption.
  - destruct (sd_certs sd) as [l|]; [|constructor]. apply parts_bytes; [octet|]. intros p Hp. rewrite Forall_forall in Hce.
    apply (proj1 any_bytes). auto.
  - apply parts_bytes; [octet|]. intros p Hp. apply in_map_iff in Hp. destruct Hp as (s & <- & Hin). rewrite Forall_forall in Hs.
    apply signer_bytes. apply (Hs s Hin).
Qed.
Lemma signed_data_bytes sd signers : signed_data_fine sd signers -> bytes (der_signed_data sd signers).
Proof.
  intros H. apply signed_data_bytes_with; [assumption|]. destruct H as (_ & _ & _ & Hc & _).
  destruct (sd_econtent sd); [simple_bytes|exact I].
Qed.
Lemma signed_data_pkcs7_bytes sd signers : signed_data_fine sd signers -> bytes (der_signed_data_pkcs7 sd signers).
Proof. intros H. apply signed_data_bytes_with; [assumption|]. apply H. Qed.
Lemma content_info_bytes type content : bytes type -> any_der content -> bytes (der_content_info type content).
Proof. intros Ht Hc. parts; [simple_bytes|]. apply tlv_bytes; [octet|]. apply (proj1 any_bytes). assumption. Qed.

(** ** Decoding a known encoding *)
Lemma decode_known nobuf turns t k b rest v : In t decoded_types -> bytes b -> bytes rest -> (2 <= turns)%nat -> enc t 0 b v ->
  asn1_decode nobuf turns t k (b ++ rest) = match check nobuf k v with Pass => Accepted v | Reject => Refused | Aborts => Crash end.
Proof.
  intros Ht Hb Hr Hturns Henc. unfold asn1_decode. rewrite (C64_trailing_ignored t turns b v rest); [|assumption| |assumption..].
  - destruct (check nobuf k v); reflexivity.
  - apply Forall_app. split; assumption.
Qed.

(** ** The views *)
Lemma view_manifest_val version number this next alg files :
  view_manifest (val_manifest version number this next alg files)
  = Some {| m_version := option_map asn_INTEGER2ulong version; m_number := number; m_this := this; m_next := next;
            m_alg := match validate_cms_hashing_algorithm_oid alg with Ok tt => 0 | _ => -22 end; m_files := files |}.
Proof.
  unfold view_manifest, val_manifest. rewrite view_optional_bytes.
  rewrite (view_list_map view_fah val_file (fun f => f)), map_id; [reflexivity|]. intros [f h u]. reflexivity.
Qed.

Lemma view_ip_blocks_val l : Forall ip_family_fine l -> view_ip_blocks (val_ip_blocks l) = Some l.
Proof.
  intros H. rewrite Forall_forall in H. unfold view_ip_blocks, val_ip_blocks.
  rewrite (view_list_ext view_ip_family val_ip_family (fun f => f)), map_id; [reflexivity|].
  intros [f c] Hin. destruct (H _ Hin) as (_ & Hc). unfold view_ip_family, val_ip_family. cbn [f_family f_choice] in *.
  enough (E : view_ip_choice (val_ip_choice c) = Some c) by (rewrite E; reflexivity).
  destruct c as [| |aors]; [contradiction|reflexivity|]. cbn [val_ip_choice view_ip_choice]. rewrite Forall_forall in Hc.
  rewrite (view_list_ext view_aor val_aor (fun a => a)), map_id; [reflexivity|].
  intros a Ha. specialize (Hc a Ha). destruct a as [[]|[] []|]; [reflexivity|reflexivity|contradiction].
Qed.

Lemma view_as_choice_val c : as_choice_fine c -> view_as_choice (val_as_choice c) = Some c.
Proof.
  intros Hc. destruct c as [| |l]; [contradiction|reflexivity|]. cbn [val_as_choice view_as_choice]. cbn in Hc. rewrite Forall_forall in Hc.
  rewrite (view_list_ext view_asior val_asior (fun a => a)), map_id; [reflexivity|].
  intros a Ha. specialize (Hc a Ha). destruct a as [i|lo hi|]; [reflexivity|reflexivity|contradiction].
Qed.

Lemma view_as_ids_val num rdi : match num with Some c => as_choice_fine c | None => True end ->
  view_as_ids (val_as_ids num rdi) = Some {| as_num := num; as_rdi := match rdi with Some _ => true | None => false end |}.
Proof.
  intros Hn. unfold view_as_ids, val_as_ids. destruct num as [c|]; cbn [option_map view_optional].
  - rewrite view_as_choice_val by assumption. destruct rdi; reflexivity.
  - destruct rdi; reflexivity.
Qed.
