(** C96: what RRDP publishes is what gets written. *)
From Coq Require Import String ZArith List Bool Lia.
From Verif Require Import Base BaseLemmas CString NtopSpec Publish PublishSpec PublishProofs.
From Verif Require TextSpec TextProps Rrdp RrdpSpec.
Import ListNotations.
Open Scope string_scope.
Open Scope list_scope.
Open Scope Z_scope.

Lemma nonzero s : ascii s -> Forall (fun c => c <> 0) s.
Proof. apply Forall_impl. cbn; intros; lia. Qed.
Lemma ascii_head s t : ascii s -> starts_at s t -> 0 <= hd 0 t <= 127.
Proof.
  intros A S. destruct (starts_tail s t S) as (a & -> & _). destruct (starts_head _ t S) as (c & r & -> & _).
  apply Forall_app in A. destruct A as [_ A]. inversion A; subst. cbn [hd]. lia.
Qed.

(** What the decoder is given: the same characters but for the white space; no line longer than 65,
    if there are more than 65 characters from the first that isn't blank. *)
Theorem C96_sanitized : forall text, ascii text ->
  (printed text = [] -> base64_sanitize text = Err EINVAL) /\
  (forall t, starts_at text t -> exists s, base64_sanitize text = Ok s /\ ascii s /\ printed s = printed text /\
     ((65 < length t)%nat -> lines_within 65 s) /\ ((length t <= 65)%nat -> s = text)).
Proof.
  intros text A. destruct (sanitize_spec text (nonzero _ A)) as (H1 & _ & H3). split; [exact H1|].
  intros t S. destruct (H3 t S (ascii_head _ _ A S)) as (SH & LO). destruct (Nat.le_gt_cases (length t) 65) as [L|L].
  - exists text. repeat split; auto. lia.
  - destruct (LO L) as (w & W & E). exists w. split; [exact E|]. destruct (starts_tail text t S) as (a & Ea & _).
    split; [eapply wrapped_ascii; [exact W|]; rewrite Ea in A; apply Forall_app in A; apply A|].
    split; [rewrite (wrapped_printed _ _ W); apply starts_printed; exact S|]. split; [intros _; eapply wrapped_lines; exact W|lia].
Qed.
Print Assumptions C96_sanitized.

(** Whatever the text and libcrypto do, no byte out of the blocks is read or written; and the text
    that is refused is the one that is blank, or the one libcrypto has something against. *)
Theorem C96_safe : forall L text, ascii text ->
  (exists c, base64_read L text = Ok c) \/
  (base64_read L text = Err EINVAL /\
   (printed text = [] \/ cr_mem L = false \/ cr_push L = false \/ exists s, printed s = printed text /\ bio_error (cr_decode L s) = true)).
Proof.
  intros L text A. destruct (C96_sanitized text A) as (B & N). destruct (starts_dec text) as [(t & S)|P].
  - destruct (N t S) as (s & E & _ & P & _). rewrite (read_any L text s E).
    destruct (cr_mem L); [|right; split; [reflexivity|auto]]. destruct (cr_push L); [|right; split; [reflexivity|auto]].
    destruct (bio_error (cr_decode L s)) eqn:X; [right; split; [reflexivity|eauto 6]|left; eexists; reflexivity].
  - right. split; [|auto]. unfold base64_read. rewrite (B P). reflexivity.
Qed.
Print Assumptions C96_safe.
(** What libcrypto refuses is refused; nothing else than what it decodes is ever taken for the
    object's contents, and only if it doesn't fit is something of it lost. *)
Theorem C96_decoder : forall L text c, ascii text ->
  base64_read L text = Ok c <->
  exists s, base64_sanitize text = Ok s /\ cr_mem L = true /\ cr_push L = true /\ bio_error (cr_decode L s) = false /\
    c = firstn (EVP_DECODE_LENGTH (length text)) (bio_data (cr_decode L s)).
Proof.
  intros L text c A. destruct (C96_sanitized text A) as (B & N). split.
  - intros H. destruct (starts_dec text) as [(t & S)|P].
    + destruct (N t S) as (s & E & _). exists s. rewrite (read_any L text s E) in H.
      destruct (cr_mem L), (cr_push L), (bio_error (cr_decode L s)); cbn in H; try discriminate. injection H as <-. auto.
    + unfold base64_read in H. rewrite (B P) in H. discriminate.
  - intros (s & E & M & U & X & ->). rewrite (read_any L text s E), M, U, X. reflexivity.
Qed.
Print Assumptions C96_decoder.

(** The property: an object's base64, with white space anywhere in it, is read as the object.  What
    is missing: a text of 65 characters at most, but on a line with so many blanks before them that
    it's longer than what the decoder takes. *)
Theorem C96_contents_partial : forall L text t object, cr_mem L = true -> cr_push L = true -> decodes 80 (cr_decode L) ->
  ascii text -> Forall is_byte object -> printed text = encoding object ->
  starts_at text t -> (65 < length t)%nat \/ lines_within 80 text ->
  base64_read L text = Ok object.
Proof.
  intros L text t object M U D A FB P S C. destruct (C96_sanitized text A) as (_ & N). destruct (N t S) as (s & E & As & Ps & LO & SH).
  rewrite (read_any L text s E), M, U.
  assert (LW : lines_within 80 s).
  { destruct (Nat.le_gt_cases (length t) 65) as [L1|L1].
    - rewrite (SH L1). destruct C as [C|C]; [lia|exact C].
    - eapply Forall_impl; [|apply (LO L1)]. cbn; intros; lia. }
  destruct (D s object As FB LW) as (-> & ->); [congruence|]. cbn [negb andb]. rewrite firstn_all2; [reflexivity|apply room; exact P].
Qed.
Print Assumptions C96_contents_partial.

(** As RFC 4648's base64 is written: on a line, or on lines of 64 or 76 characters; of an object
    with more than 48 bytes. *)
Lemma alpha_blank i : 0 <= i < 64 -> blank (TextSpec.alphabet 43 47 i) = false /\ 0 < TextSpec.alphabet 43 47 i < 128.
Proof.
  intros H. unfold TextSpec.alphabet, blank. cbn [existsb].
  destruct (i <? 26) eqn:?, (i <? 52) eqn:?, (i <? 62) eqn:?, (i =? 62) eqn:?; lia.
Qed.
Lemma encoding_printed c : Forall is_byte c -> printed (encoding c) = encoding c /\ ascii (encoding c).
Proof.
  unfold encoding, TextSpec.base64, ascii. induction c as [|a|a b|a b d l IH] using TextProps.three_ind; intros F;
    repeat match goal with H : Forall _ (_ :: _) |- _ => inversion H; clear H; subst end;
    repeat match goal with H : is_byte ?a |- _ => unfold is_byte in H; let K := fresh in pose proof (Z.div_mod a 4 ltac:(lia)) as K;
      pose proof (Z.mod_pos_bound a 4 ltac:(lia)); pose proof (Z.div_mod a 16 ltac:(lia)); pose proof (Z.mod_pos_bound a 16 ltac:(lia));
      pose proof (Z.div_mod a 64 ltac:(lia)); pose proof (Z.mod_pos_bound a 64 ltac:(lia)); revert H end; intros;
    cbn [TextSpec.rfc4648 app]; [split; [reflexivity|constructor]| | |].
  - rewrite !printed_cons.
    destruct (alpha_blank (a / 4)) as (-> & ?); [lia|]. destruct (alpha_blank (a mod 4 * 16)) as (-> & ?); [lia|]. cbn.
    split; [reflexivity|]. repeat constructor; lia.
  - rewrite !printed_cons.
    destruct (alpha_blank (a / 4)) as (-> & ?); [lia|]. destruct (alpha_blank (a mod 4 * 16 + b / 16)) as (-> & ?); [lia|].
    destruct (alpha_blank (b mod 16 * 4)) as (-> & ?); [lia|]. cbn. split; [reflexivity|]. repeat constructor; lia.
  - rewrite !printed_cons.
    destruct (alpha_blank (a / 4)) as (-> & ?); [lia|]. destruct (alpha_blank (a mod 4 * 16 + b / 16)) as (-> & ?); [lia|].
    destruct (alpha_blank (b mod 16 * 4 + d / 64)) as (-> & ?); [lia|]. destruct (alpha_blank (d mod 64)) as (-> & ?); [lia|].
    destruct IH as (-> & IH); [assumption|]. split; [reflexivity|]. repeat (constructor; [lia|]). exact IH.
Qed.
(** [a] text broken into lines: blanks before, between any of its characters, and after. *)
Theorem C96_any_layout : forall L text object, cr_mem L = true -> cr_push L = true -> decodes 80 (cr_decode L) ->
  ascii text -> Forall is_byte object -> printed text = encoding object -> (48 < length object)%nat ->
  base64_read L text = Ok object.
Proof.
  intros L text object M U D A FB P B. destruct (starts_dec text) as [(t & S)|K].
  - eapply C96_contents_partial; eauto. left. pose proof (printed_length t) as Q. rewrite (starts_printed _ _ S), P, encoding_length in Q.
    assert (17 <= (length object + 2) / 3)%nat by (apply Nat.div_le_lower_bound; lia). lia.
  - exfalso. rewrite K in P. apply (f_equal (@length Z)) in P. rewrite encoding_length in P. cbn [length] in P.
    assert (17 <= (length object + 2) / 3)%nat by (apply Nat.div_le_lower_bound; lia). lia.
Qed.
Print Assumptions C96_any_layout.

(** So a <publish> element says what RFC 8182 says it says. *)
Definition reader (L : crypto) (text : list Z) : option (list Z) := match base64_read L text with Ok c => Some c | _ => None end.
Theorem C96_publish : forall L n t text uri object, cr_mem L = true -> cr_push L = true -> decodes 80 (cr_decode L) ->
  Rrdp.n_type n = Rrdp.NElement -> Rrdp.n_name n = cstr "publish" -> Rrdp.attr n (cstr "uri") = Some uri ->
  Rrdp.n_value t = Some text -> ascii text -> Forall is_byte object -> printed text = encoding object -> (48 < length object)%nat ->
  RrdpSpec.publish_of (reader L) n t uri object.
Proof.
  intros L n t text uri object M U D T N At V A FB P B. repeat split; auto. exists text. split; [exact V|].
  unfold reader. rewrite (C96_any_layout L text object M U D A FB P B). reflexivity.
Qed.
Print Assumptions C96_publish.

(** There is such a decoder, and it isn't always given what it can decode. *)
Definition lines_ok (n : nat) (s : list Z) : bool := forallb (fun l => Nat.leb (length l) n) (split 10 s).
Lemma lines_ok_spec n s : lines_ok n s = true <-> lines_within n s.
Proof.
  unfold lines_ok, lines_within. rewrite forallb_forall, Forall_forall. split; intros H x Hx; [apply Nat.leb_le|apply Nat.leb_le]; auto.
Qed.
Definition strict_decoder (s : list Z) : bio :=
  match (if lines_ok 80 s then TextSpec.unbase64 (printed s) else None) with
  | Some c => {| bio_data := c; bio_error := false; bio_chunk := fun _ => 7%nat |}
  | None => {| bio_data := []; bio_error := true; bio_chunk := fun _ => 7%nat |}
  end.
Lemma strict_decodes : decodes 80 strict_decoder.
Proof.
  intros s c A F W P. unfold strict_decoder. apply lines_ok_spec in W. rewrite W, P. unfold encoding. rewrite TextProps.C48_openssl by exact F. auto.
Qed.
Theorem C96_leading_blanks_refuted : exists L text object,
  cr_mem L = true /\ cr_push L = true /\ decodes 80 (cr_decode L) /\ ascii text /\ Forall is_byte object /\
  printed text = encoding object /\ base64_read L text = Err EINVAL.
Proof.
  exists {| cr_mem := true; cr_push := true; cr_decode := strict_decoder |}, (repeat 32 78 ++ encoding [1; 2; 3]), [1; 2; 3].
  split; [reflexivity|]. split; [reflexivity|]. split; [exact strict_decodes|].
  split; [apply Forall_app; split; [apply Forall_forall; intros x Hx; apply repeat_spec in Hx; lia|repeat constructor; cbn; lia]|].
  split; [repeat constructor; unfold is_byte; lia|]. split; [reflexivity|]. vm_compute. reflexivity.
Qed.
Print Assumptions C96_leading_blanks_refuted.
(** Characters that aren't ASCII, before any other that isn't blank, are handed to isspace() as
    negative numbers. *)
Theorem C96_chars_refuted : forall L c text, 128 <= c -> Forall (fun c => c <> 0) text -> base64_read L (c :: text) = UB.
Proof.
  intros L c text H F. assert (B : blank c = false) by (unfold blank; cbn [existsb]; lia).
  destruct (sanitize_spec (c :: text)) as (_ & H2 & _); [constructor; [lia|exact F]|].
  unfold base64_read. rewrite (H2 (c :: text)); [reflexivity|apply st_here; exact B|cbn [hd]; lia].
Qed.
Print Assumptions C96_chars_refuted.

(** An object of 120 bytes, on lines of 64 characters with two blanks before each. *)
Definition C96_object : list Z := map (fun n => Z.of_nat n * 7 mod 256) (seq 0 120).
Definition C96_text : list Z :=
  let s := encoding C96_object in
  [10; 32; 32] ++ firstn 64 s ++ [10; 32; 32] ++ firstn 64 (skipn 64 s) ++ [10; 32; 32] ++ skipn 128 s ++ [10].
Example C96_example :
  decodes 80 strict_decoder /\ ascii C96_text /\ printed C96_text = encoding C96_object /\
  base64_read {| cr_mem := true; cr_push := true; cr_decode := strict_decoder |} C96_text = Ok C96_object /\
  base64_read {| cr_mem := true; cr_push := true; cr_decode := strict_decoder |} [32; 10; 9] = Err EINVAL /\
  base64_read {| cr_mem := true; cr_push := true; cr_decode := strict_decoder |} (C96_text ++ [33]) = Err EINVAL.
Proof.
  split; [exact strict_decodes|]. split; [|vm_compute; repeat split].
  apply Forall_forall. intros x Hx.
  assert (K : forallb (fun c => (0 <? c) && (c <? 128)) C96_text = true) by (vm_compute; reflexivity).
  rewrite forallb_forall in K. specialize (K x Hx). lia.
Qed.
