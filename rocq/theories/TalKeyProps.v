(** * C109: a TAL's key is what its base64 says *)
From Coq Require Import String.
From Verif Require Import Base BaseLemmas CString CLib PathBuilder PathProofs PathProofs3 PathProps Types HashSet DbTable Tal TalSpec TalProofs TalProps TalKey.
From Verif Require NtopSpec TextSpec TextProps Publish PublishSpec PublishProofs PublishProps.
Notation length := List.length.

(** The characters of the body as libcrypto sees them: up to a null. *)
Fixpoint text_of (s : list Z) : list Z := match s with [] => [] | c :: s => if c =? 0 then [] else c :: text_of s end.
Lemma string_at_text s : string_at (s ++ [0]) = Ok (text_of s).
Proof. induction s as [|c s IH]; [reflexivity|]. cbn [app string_at text_of]. destruct (c =? 0); [reflexivity|]. rewrite IH. reflexivity. Qed.
Lemma text_all s : Forall (fun c => c <> 0) s -> text_of s = s.
Proof. induction 1 as [|c s N F IH]; [reflexivity|]. cbn [text_of]. apply Z.eqb_neq in N. rewrite N, IH. reflexivity. Qed.

(** Reading the key, whatever the file is. *)
Lemma read_any J L alloc size f : exists s, no_newlines s = no_newlines (firstn size f) /\
  (forall a line b, s = a ++ line ++ b -> ~ In 10 line -> (length line <= 65)%nat) /\
  read_spki J L alloc size f = if (Publish.cr_mem L && Publish.cr_push L && negb (Publish.bio_error (Publish.cr_decode L (text_of s))))%bool
    then Ok (firstn (Publish.EVP_DECODE_LENGTH alloc) (Publish.bio_data (Publish.cr_decode L (text_of s)))) else Err EINVAL.
Proof.
  destruct (C43_reflow J size f) as (s & E & N & W). exists s. split; [exact N|]. split; [exact W|]. unfold read_spki. rewrite E. cbn [bind].
  destruct (Publish.cr_mem L); [|reflexivity]. cbn [negb andb]. rewrite string_at_text. cbn [bind]. set (b := Publish.cr_decode L (text_of s)). set (n := Publish.EVP_DECODE_LENGTH alloc).
  unfold Publish.base64_decode. destruct (Publish.cr_push L); [|reflexivity]. cbn [negb andb].
  destruct (PublishProofs.decode_any (S (length (Publish.bio_data b))) 0 b (Publish.bio_data b) [] (Publish.pmalloc n) n) as (r & D); [lia|unfold Publish.pmalloc; rewrite repeat_length; reflexivity|].
  cbn [map app length] in D. rewrite D. cbn [bind]. unfold Publish.pmalloc. rewrite repeat_length. destruct (Publish.bio_error b); cbn [bind negb]; [reflexivity|]. apply PublishProofs.bytes_ok.
Qed.

Lemma printed_lines s : PublishSpec.printed (no_newlines s) = PublishSpec.printed s.
Proof.
  unfold PublishSpec.printed, no_newlines. induction s as [|c s IH]; [reflexivity|]. cbn [filter]. destruct (c =? 10) eqn:E; cbn [negb].
  - apply Z.eqb_eq in E. subst c. cbn. exact IH.
  - cbn [filter]. rewrite IH. reflexivity.
Qed.
Lemma ascii_lines s t : no_newlines s = no_newlines t -> PublishSpec.ascii t -> PublishSpec.ascii s.
Proof.
  unfold PublishSpec.ascii. rewrite !Forall_forall. intros E A x I. destruct (Z.eq_dec x 10) as [->|N]; [lia|]. apply A.
  assert (K : In x (no_newlines s)) by (apply filter_In; split; [exact I|]; apply Z.eqb_neq in N; rewrite N; reflexivity). rewrite E in K. apply filter_In in K. tauto.
Qed.
Lemma split_infix c s l : In l (NtopSpec.split c s) -> exists a b, s = a ++ l ++ b /\ ~ In c l.
Proof.
  intros I. enough (H : (exists b, s = hd [] (NtopSpec.split c s) ++ b) /\ forall l, In l (NtopSpec.split c s) -> exists a b, s = a ++ l ++ b /\ ~ In c l).
  { exact (proj2 H l I). }
  clear l I. induction s as [|x s [[b0 IH1] IH2]].
  - cbn. split; [exists []; reflexivity|]. intros l [<-|[]]. exists [], []. cbn. auto.
  - cbn [NtopSpec.split]. destruct (x =? c) eqn:Q.
    + split; [exists (x :: s); reflexivity|]. intros l [<-|I]; [exists [], (x :: s); cbn; auto|]. destruct (IH2 l I) as (a & b & E & N). exists (x :: a), b. rewrite E. auto.
    + apply Z.eqb_neq in Q. destruct (NtopSpec.split c s) as [|p t] eqn:SP.
      * split; [exists s; reflexivity|]. intros l [<-|[]]. exists [], s. split; [reflexivity|]. cbn. intros [K|[]]. congruence.
      * cbn [hd] in *. split; [exists b0; cbn [app]; congruence|]. intros l [<-|I].
        -- exists [], b0. split; [cbn [app]; congruence|]. destruct (IH2 p (or_introl eq_refl)) as (_ & _ & _ & N). cbn. intros [K|K]; [congruence|auto].
        -- destruct (IH2 l (or_intror I)) as (a & b & E & N). exists (x :: a), b. rewrite E. auto.
Qed.

(** Of a file made of comments, URIs, an empty line and the base64 of a key,
    whatever its lines and other white space are, the key is read, whole; with any
    decoder that reads base64 whose lines are no longer than 80. *)
Theorem C109_key : forall J repository tal L f comments texts body us key,
  tal_text comments texts body f ->
  Forall2 (fun text u =>
      ((exists t, text = cstr "rsync://" ++ t) /\ uri_create J repository (Some tal) UT_RSYNC None text = Ok u) \/
      ((exists t, text = cstr "https://" ++ t) /\ uri_create J repository (Some tal) UT_HTTPS None text = Ok u)) texts us ->
  Publish.cr_mem L = true -> Publish.cr_push L = true -> PublishSpec.decodes 80 (Publish.cr_decode L) ->
  PublishSpec.ascii body -> Forall is_byte key -> PublishSpec.printed body = PublishSpec.encoding key ->
  tal_read J repository tal L f = Ok (us, key).
Proof.
  intros J repository tal L f comments texts body us key T U M P D A FB E. unfold tal_read.
  assert (R : read_uris J repository tal f = Ok (us, body)) by (apply C58_grammar; exists comments, texts; auto). rewrite R. cbn [bind].
  destruct (read_any J L (length body) (length body) body) as (s & N & W & ->). rewrite firstn_all in N. rewrite M, P. cbn [andb].
  assert (As : PublishSpec.ascii s) by (eapply ascii_lines; eauto).
  rewrite text_all by (eapply Forall_impl; [|exact As]; cbn; intros; lia).
  destruct (D s key As FB) as (-> & ->).
  - apply Forall_forall. intros l I. destruct (split_infix 10 s l I) as (a & b & E1 & E2). pose proof (W a l b E1 E2). lia.
  - rewrite <- printed_lines, N, printed_lines. exact E.
  - cbn [negb bind]. rewrite firstn_all2 by (apply PublishProofs.room; exact E). reflexivity.
Qed.

(** Any other file is refused, or its key is what the decoder makes of the
    characters that follow the empty line; the memory is never overrun, even if
    stat() tells another size each time. *)
Theorem C109_safe : forall J repository tal L f, conf_ok repository (Some tal) None ->
  (exists us key body, tal_read J repository tal L f = Ok (us, key) /\ (exists comments texts, tal_text comments texts body f) /\
     exists s, no_newlines s = no_newlines body /\ Publish.bio_error (Publish.cr_decode L (text_of s)) = false /\
       key = firstn (Publish.EVP_DECODE_LENGTH (length body)) (Publish.bio_data (Publish.cr_decode L (text_of s)))) \/
  exists e, tal_read J repository tal L f = Err e.
Proof.
  intros J repository tal L f C. unfold tal_read. pose proof (C58_total J repository tal f C) as NU. destruct (read_uris J repository tal f) as [[us body]|e|] eqn:R; [|right; exists e; reflexivity|congruence]. cbn [bind].
  apply C58_grammar in R. destruct R as (comments & texts & T & _). destruct (read_any J L (length body) (length body) body) as (s & N & _ & ->). rewrite firstn_all in N.
  destruct (Publish.cr_mem L && Publish.cr_push L && negb (Publish.bio_error (Publish.cr_decode L (text_of s))))%bool eqn:Q; cbn [bind]; [|right; exists EINVAL; reflexivity].
  apply andb_true_iff in Q. destruct Q as [_ Q]. apply negb_true_iff in Q. left. exists us, (firstn (Publish.EVP_DECODE_LENGTH (length body)) (Publish.bio_data (Publish.cr_decode L (text_of s)))), body. split; [reflexivity|]. split; [exists comments, texts; exact T|]. exists s. auto.
Qed.
Theorem C109_any_size : forall J L alloc size f, read_spki J L alloc size f <> UB.
Proof. intros J L alloc size f. destruct (read_any J L alloc size f) as (s & _ & _ & ->). destruct (_ && _ && _)%bool; discriminate. Qed.

(** A TAL with a comment, two URIs, and a key on lines of 100 characters and with spaces. *)
Definition a_crypto : Publish.crypto := {| Publish.cr_mem := true; Publish.cr_push := true; Publish.cr_decode := PublishProps.strict_decoder |}.
Definition a_key : list Z := map (fun i => Z.of_nat i * 7 mod 256) (seq 0 294).
Definition a_body : list Z := let e := PublishSpec.encoding a_key in firstn 100 e ++ [10] ++ firstn 100 (skipn 100 e) ++ [32; 13; 10] ++ skipn 200 e ++ [10].
Definition a_tal : list Z := cstr "# A comment" ++ [10] ++ cstr "rsync://a/b.cer" ++ [13; 10] ++ cstr "https://c/d.cer" ++ [10; 10] ++ a_body.
Example C109_nonvacuous : PublishSpec.decodes 80 (Publish.cr_decode a_crypto) /\ PublishSpec.printed a_body = PublishSpec.encoding a_key /\
  (exists us, tal_read 0 (cstr "/cache") (cstr "a.tal") a_crypto a_tal = Ok (us, a_key) /\ length us = 2%nat) /\
  (* What the decoder wouldn't take without new lines. *)
  Publish.bio_error (PublishProps.strict_decoder a_body) = true.
Proof.
  split; [exact PublishProps.strict_decodes|]. split; [vm_compute; reflexivity|]. split; [|vm_compute; reflexivity]. eexists. split; vm_compute; reflexivity.
Qed.
Print Assumptions C109_key. Print Assumptions C109_safe. Print Assumptions C109_any_size.
