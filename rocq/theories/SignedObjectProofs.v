(** Every encoding the decoder accepts is also one value for the function that
    skips values (C60); from there, the SignedData the decoder sees and the one
    the search for the signed attributes sees are the same. *)
From Coq Require Import Lia.
From Verif Require Import Base BaseLemmas BerSpec Ber BerProofs BerProofs2 BerProofs4 BerProps.
From Verif Require Import Asn1Dec Asn1DecSpec Asn1DecProofs Asn1DecProofs6 Asn1Types Asn1CheckProofs.
Notation length := List.length.

(** ** Encodings are values *)
Definition tlv_of (b : list Z) : Prop :=
  exists T cl c num X, b = T ++ X /\ tag_octets T cl c num /\ tag_fits num /\ lv c X.
Definition not_end (b : list Z) : Prop := firstn 2 b <> [0; 0].

Lemma tag_zero T cl c num x : tag_octets T cl c num -> nth_error (T ++ x) 0 = Some 0 -> num * 4 + cl = 0.
Proof.
  intros H E. destruct H as [cl pc num H1 H2|cl pc cont last H1 H2 H3]; cbn in E; injection E as E; destruct pc; lia.
Qed.
Lemma leading_not_end t b : leading t b -> t <> 0 -> not_end b.
Proof.
  intros (T & cl & c & num & X & -> & Ht & _ & E) Hn H. apply Hn. rewrite <- E. eapply (tag_zero _ _ _ _ X); [exact Ht|].
  destruct (T ++ X) as [|a l]; [discriminate|]. cbn in H. injection H as -> _. reflexivity.
Qed.
Lemma hdr_not_end t c o h x : hdr (Some t) c o h -> t <> 0 -> not_end (h ++ x).
Proof.
  intros H Hn. destruct (hdr_leading _ _ _ _ H) as (t' & Hl & E). apply (leading_not_end t'); [apply leading_app; assumption|].
  rewrite (E t eq_refl). assumption.
Qed.

Lemma tlv_elements b es : tlv_of b -> not_end b -> elements es -> elements (b ++ es).
Proof.
  intros (T & cl & c & num & X & -> & Ht & Hf & Hl) Hn He. rewrite <- app_assoc. apply BerSpec.elements_cons; [|assumption].
  econstructor; eassumption.
Qed.

Lemma definite_tlv es c len p body : dchain es c len p -> len = Z.of_nat (length body) -> bytes body -> tlv_of (p ++ body).
Proof.
  intros H E Hb. revert E. destruct H as [e c len h Hh|e es c len h p Hh Hp]; intros ->.
  - destruct Hh as (T & L & cl & num & -> & Ht & Hf & _ & Ha & Hl). exists T, cl, c, num, (L ++ body). rewrite app_assoc.
    split; [reflexivity|]. split; [assumption|]. split; [assumption|]. eapply lv_definite; [eassumption|assumption|assumption|reflexivity].
  - destruct Hh as (T & L & cl & num & -> & Ht & Hf & _ & Ha & Hl). exists T, cl, true, num, (L ++ (p ++ body)). rewrite <- !app_assoc.
    split; [reflexivity|]. split; [assumption|]. split; [assumption|]. eapply lv_definite; [eassumption|assumption| |].
    + apply Forall_app. split; [|assumption]. apply (dchain_bytes _ _ _ _ Hp).
    + rewrite app_length. lia.
Qed.

Lemma eocs_app n : eocs (S n) = eocs n ++ [0; 0].
Proof. induction n as [|n IH]; [reflexivity|]. cbn [eocs app] in *. rewrite <- IH. reflexivity. Qed.

Lemma indefinite_tlv es p body : ichain es p -> elements body ->
  (forall e es' t, es = e :: es' -> In (Some t) es' -> t <> 0) -> Forall (fun e => e <> None) (tl es) ->
  tlv_of (p ++ body ++ eocs (length es)).
Proof.
  intros H. revert body. induction H as [e h Hh|e es h p Hh Hp IH]; intros body He Hz Hs.
  - destruct Hh as (T & L & cl & num & -> & Ht & Hf & _ & Ha & _). exists T, cl, true, num, (L ++ body ++ [0; 0]).
    rewrite <- app_assoc. split; [reflexivity|]. split; [assumption|]. split; [assumption|].
    destruct Ha as [Ha|(Q & _)]; [|discriminate]. inversion Ha; subst. apply lv_indefinite. assumption.
  - assert (I : tlv_of (p ++ body ++ eocs (length es))).
    { apply IH; [assumption| |].
      - intros e' es' t -> Hin. apply (Hz e (e' :: es') t eq_refl). right. assumption.
      - cbn [tl] in Hs. destruct es; [constructor|]. inversion Hs; subst. assumption. }
    destruct Hh as (T & L & cl & num & -> & Ht & Hf & _ & Ha & _). exists T, cl, true, num, (L ++ (p ++ body ++ eocs (length es)) ++ [0; 0]).
    split. { cbn [length]. rewrite eocs_app, <- !app_assoc. reflexivity. }
    split; [assumption|]. split; [assumption|].
    destruct Ha as [Ha|(Q & _)]; [|discriminate]. inversion Ha; subst. apply lv_indefinite.
    rewrite <- (app_nil_r (p ++ body ++ eocs (length es))). apply tlv_elements; [assumption| |constructor].
    inversion Hp as [e' h' Hh' E1 E2|e' es' h' p' Hh' Hp' E1 E2]; subst; cbn [tl] in Hs; inversion Hs as [|? ? Hs1 Hs2]; subst.
    + destruct e' as [t|]; [|congruence]. eapply hdr_not_end; [exact Hh'|]. apply (Hz e [Some t] t eq_refl). left. reflexivity.
    + destruct e' as [t|]; [|congruence]. rewrite <- app_assoc. eapply hdr_not_end; [exact Hh'|]. apply (Hz e (Some t :: es') t eq_refl). left. reflexivity.
Qed.

Lemma framed_tlv es c indef body whole : framed es c indef body whole -> bytes whole ->
  (indef = true -> elements body) ->
  (forall e es' t, es = e :: es' -> In (Some t) es' -> t <> 0) -> Forall (fun e => e <> None) (tl es) -> tlv_of whole.
Proof.
  intros H Hb He Hz Hs. destruct H as [p body Hp|p body -> Hp].
  - apply Forall_app in Hb. eapply definite_tlv; [exact Hp|reflexivity|apply Hb].
  - apply indefinite_tlv; auto.
Qed.

Definition nonzero (tags : list Z) : bool := forallb (fun t => negb (t =? 0)) tags.
Definition any_type (t : ty) : bool := match t with TString ANY _ _ => true | _ => false end.
Definition tag_nonzero (m : option Z) : bool := match m with Some t => negb (t =? 0) | None => true end.

(** No tag is zero, and no mandatory member may look like the end of contents. *)
Fixpoint no_end (t : ty) : bool :=
  match t with
  | TPrim tags | TNull tags | TBool tags | TString _ tags _ => nonzero tags
  | TSeq tags _ ms =>
      nonzero tags &&
      (fix members (ms : list member) : bool :=
         match ms with
         | [] => true
         | Member mtag md opt _ t' :: ms' =>
             tag_nonzero mtag && match mtag with Some _ => true | None => (opt =? S (length ms'))%nat || ((md =? 0) && negb (any_type t')) end
             && no_end t' && members ms'
         end) ms
  | TOf tags etag t' => nonzero tags && tag_nonzero etag && no_end t'
  | TChoice tags _ ms =>
      nonzero tags &&
      (fix members (ms : list member) : bool :=
         match ms with
         | [] => true
         | Member mtag md _ _ t' :: ms' => tag_nonzero mtag && no_end t' && members ms'
         end) ms
  end.
Definition no_end_members := fix members (ms : list member) : bool :=
  match ms with
  | [] => true
  | Member mtag md opt _ t' :: ms' =>
      tag_nonzero mtag && match mtag with Some _ => true | None => (opt =? S (length ms'))%nat || ((md =? 0) && negb (any_type t')) end
      && no_end t' && members ms'
  end.

Lemma nonzero_in tags t : nonzero tags = true -> In t tags -> t <> 0.
Proof. unfold nonzero. rewrite forallb_forall. intros H Hin E. specialize (H t Hin). subst. discriminate. Qed.

Lemma chain_nonzero tags mode e es t : nonzero tags = true -> chain tags mode = e :: es -> In (Some t) es -> t <> 0.
Proof.
  intros Hn. unfold chain. destruct (mode =? 1).
  - intros E. injection E as <- <-. intros Hin. apply in_map_iff in Hin. destruct Hin as (t' & E & Hin). injection E as <-. eapply nonzero_in; eassumption.
  - destruct tags as [|t0 tags]; intros E; injection E as <- <-; [contradiction|]. intros Hin. apply in_map_iff in Hin.
    destruct Hin as (t' & E & Hin). injection E as <-. eapply nonzero_in; [eassumption|right; assumption].
Qed.
Lemma chain_some tags mode : Forall (fun e => e <> None) (tl (chain tags mode)).
Proof.
  assert (G : forall l : list Z, Forall (fun e => e <> None) (map Some l)) by (induction l; constructor; [discriminate|assumption]).
  unfold chain. destruct (mode =? 1); [apply G|]. destruct tags; [constructor|apply G].
Qed.
Lemma framed_not_end tags c indef body whole : framed (chain tags 0) c indef body whole -> nonzero tags = true -> tags <> [] -> not_end whole.
Proof.
  intros H Hn Hne. destruct tags as [|t tags]; [congruence|]. assert (Ht : t <> 0) by (eapply nonzero_in; [eassumption|left; reflexivity]).
  unfold chain in H. cbn in H. destruct H as [p body Hp|p body _ Hp]; inversion Hp; subst; rewrite <- ?app_assoc; eapply hdr_not_end; eassumption.
Qed.
Lemma dchain_not_end tags c len p x : dchain (chain tags 0) c len p -> nonzero tags = true -> tags <> [] -> not_end (p ++ x).
Proof.
  intros H Hn Hne. destruct tags as [|t tags]; [congruence|]. assert (Ht : t <> 0) by (eapply nonzero_in; [eassumption|left; reflexivity]).
  unfold chain in H. cbn in H. inversion H; subst; rewrite <- ?app_assoc; eapply hdr_not_end; eassumption.
Qed.
Lemma opens_not_end tags whole : opens (chain tags 0) whole -> nonzero tags = true -> tags <> [] -> not_end whole.
Proof.
  intros [(p & body & -> & Hp)|(p & rest & -> & Hp)] Hn Hne; [eapply dchain_not_end; eassumption|].
  destruct tags as [|t tags]; [congruence|]. assert (Ht : t <> 0) by (eapply nonzero_in; [eassumption|left; reflexivity]).
  unfold chain in Hp. cbn in Hp. inversion Hp; subst; rewrite <- ?app_assoc; eapply hdr_not_end; eassumption.
Qed.

Lemma segment_tlv tg :
  (forall d b cs, segment tg d b cs -> bytes b -> tlv_of b)
  /\ (forall indef d b cs, segments tg indef d b cs -> bytes b -> indef = true -> elements b).
Proof.
  apply segment_mutind.
  - intros d h body Hh Hb. apply Forall_app in Hb. apply (definite_tlv [tg d] false (Z.of_nat (length body))); [constructor; assumption|reflexivity|apply Hb].
  - intros d indef body whole cs Hf Hs IH Hb. eapply framed_tlv; [exact Hf|assumption| | |constructor].
    + apply IH. eapply framed_body_bytes; eassumption.
    + intros e es' t E Hin. injection E as <- <-. contradiction.
  - intros. constructor.
  - intros indef d s ss cs cs' Hs IH1 Hn Hss IH2 Hb E. apply Forall_app in Hb. apply tlv_elements; [apply IH1; apply Hb|apply Hn; assumption|apply IH2; [apply Hb|assumption]].
Qed.

Lemma string_tlv tg whole inner cs : constructed_string tg whole inner cs -> bytes whole -> tlv_of whole.
Proof.
  intros (indef & Hf & Hs) Hb. eapply framed_tlv; [exact Hf|assumption| | |constructor].
  - intros E. eapply segment_tlv; [exact Hs|eapply framed_body_bytes; eassumption|assumption].
  - intros e es' t E Hin. injection E as <- <-. contradiction.
Qed.

Lemma enc_tlv :
  (forall t mode b v, enc t mode b v -> bytes b -> wf t = true -> no_end t = true ->
     tlv_of b /\ (mode = 0 -> any_type t = false -> not_end b))
  /\ (forall indef ms b vs, enc_members indef ms b vs -> bytes b ->
       forallb (fun m => match m with Member mtag md _ any t' => member_mode_ok md any mtag t' && wf t' end) ms = true ->
       no_end_members ms = true -> indef = true -> elements b)
  /\ (forall indef etag t b vs, enc_elements indef etag t b vs -> bytes b -> wf t = true -> no_end t = true -> indef = true -> elements b).
Proof.
  assert (ZZ : forall tags mode, nonzero tags = true -> forall e es' t, chain tags mode = e :: es' -> In (Some t) es' -> t <> 0)
    by (intros; eapply chain_nonzero; eassumption).
  assert (NE : forall l : list Z, negb (length l =? 0)%nat = true -> l <> []) by (intros [|]; [discriminate|congruence]).
  apply enc_mutind.
  - intros tags mode p body Hp Hb Hw Hn. pose proof Hb as Hb'. apply Forall_app in Hb'. split; [eapply definite_tlv; [exact Hp|reflexivity|apply Hb']|].
    intros -> _. eapply dchain_not_end; [exact Hp|exact Hn|apply NE; exact Hw].
  - intros tags mode p Hp Hb Hw Hn. rewrite <- (app_nil_r p). split; [eapply definite_tlv; [exact Hp|reflexivity|constructor]|].
    intros -> _. eapply dchain_not_end; [exact Hp|exact Hn|apply NE; exact Hw].
  - intros tags mode p body b Hp _ Hb Hw Hn. pose proof Hb as Hb'. apply Forall_app in Hb'. split; [eapply definite_tlv; [exact Hp|reflexivity|apply Hb']|].
    intros -> _. eapply dchain_not_end; [exact Hp|exact Hn|apply NE; exact Hw].
  - intros tags all mode p body Hp _ Hb Hw Hn. pose proof Hb as Hb'. apply Forall_app in Hb'. split; [eapply definite_tlv; [exact Hp|reflexivity|apply Hb']|].
    intros -> _. cbn [wf] in Hw. apply andb_prop in Hw. eapply dchain_not_end; [exact Hp|exact Hn|apply NE; apply Hw].
  - intros tags all mode whole inner cs Ho Hc _ Hb Hw Hn. split; [eapply string_tlv; eassumption|].
    intros -> _. cbn [wf] in Hw. apply andb_prop in Hw. eapply opens_not_end; [exact Ho|exact Hn|apply NE; apply Hw].
  - intros tags all mode p body v Hp _ _ Hb Hw Hn. pose proof Hb as Hb'. apply Forall_app in Hb'. split; [eapply definite_tlv; [exact Hp|reflexivity|apply Hb']|].
    intros -> _. cbn [wf] in Hw. apply andb_prop in Hw. eapply dchain_not_end; [exact Hp|exact Hn|apply NE; apply Hw].
  - intros tags all mode whole inner cs v Ho Hc _ _ Hb Hw Hn. split; [eapply string_tlv; eassumption|].
    intros -> _. cbn [wf] in Hw. apply andb_prop in Hw. eapply opens_not_end; [exact Ho|exact Hn|apply NE; apply Hw].
  - intros tags all mode p body Hp _ Hb Hw Hn. pose proof Hb as Hb'. apply Forall_app in Hb'. split; [eapply definite_tlv; [exact Hp|reflexivity|apply Hb']|].
    intros _ Q. discriminate.
  - intros tags all mode whole inner cs Ho Hc _ Hb Hw Hn. split; [eapply string_tlv; eassumption|]. intros _ Q. discriminate.
  - intros tags t2e ms mode indef body whole vs Hf Hm IH Hb Hw Hn. cbn [wf] in Hw. apply andb_prop in Hw. destruct Hw as (Hw & Hwm).
    apply andb_prop in Hw. destruct Hw as (Hwt & _). cbn [no_end] in Hn. apply andb_prop in Hn. destruct Hn as (Hnt & Hnm).
    split.
    + eapply framed_tlv; [exact Hf|assumption| |apply ZZ; assumption|apply chain_some].
      apply IH; [eapply framed_body_bytes; eassumption|assumption|assumption].
    + intros -> _. eapply framed_not_end; [exact Hf|assumption|apply NE; assumption].
  - intros tags etag elem mode indef body whole vs Hf Hm IH Hb Hw Hn. cbn [wf] in Hw. apply andb_prop in Hw. destruct Hw as (Hw & Hwm).
    apply andb_prop in Hw. destruct Hw as (Hwt & _). cbn [no_end] in Hn. apply andb_prop in Hn. destruct Hn as (Hn & Hnm).
    apply andb_prop in Hn. destruct Hn as (Hnt & _).
    split.
    + eapply framed_tlv; [exact Hf|assumption| |apply ZZ; assumption|apply chain_some].
      apply IH; [eapply framed_body_bytes; eassumption|assumption|assumption].
    + intros -> _. eapply framed_not_end; [exact Hf|assumption|apply NE; assumption].
  - intros t2e ms k mtag md opt any t bs v Hk Hl He IH Hb Hw Hn. cbn [wf] in Hw. apply andb_prop in Hw. destruct Hw as (_ & Hwm).
    assert (G : tag_nonzero (Some mtag) = true /\ no_end t = true).
    { clear - Hk Hn. cbn [no_end] in Hn. apply andb_prop in Hn. destruct Hn as (_ & Hn). revert k Hk Hn.
      induction ms as [|[m d o a t'] ms IH]; intros [|k] Hk Hn; try discriminate.
      - injection Hk as -> -> -> -> ->. apply andb_prop in Hn. destruct Hn as (Hn & _). apply andb_prop in Hn. exact Hn.
      - apply andb_prop in Hn. apply (IH k Hk). apply Hn. }
    destruct G as (G1 & G2). rewrite forallb_forall in Hwm. specialize (Hwm _ (nth_error_In _ _ Hk)). cbn in Hwm. apply andb_prop in Hwm.
    split; [apply IH; [assumption|apply Hwm|assumption]|]. intros _ _. apply (leading_not_end mtag); [assumption|]. cbn in G1. destruct (Z.eqb_spec mtag 0); [discriminate|assumption].
  - intros tags t2e ms mode k mtag md opt any t c indef body whole v Hm Hf Hk Hl He IH Hb Hw Hn. cbn [wf] in Hw. apply andb_prop in Hw. destruct Hw as (Hw & Hwm).
    apply andb_prop in Hw. destruct Hw as (Hw & _). destruct tags as [|? ?]; [|discriminate].
    assert (G : tag_nonzero (Some mtag) = true /\ no_end t = true).
    { clear - Hk Hn. cbn [no_end] in Hn. apply andb_prop in Hn. destruct Hn as (_ & Hn). revert k Hk Hn.
      induction ms as [|[m d o a t'] ms IH]; intros [|k] Hk Hn; try discriminate.
      - injection Hk as -> -> -> -> ->. apply andb_prop in Hn. destruct Hn as (Hn & _). apply andb_prop in Hn. exact Hn.
      - apply andb_prop in Hn. apply (IH k Hk). apply Hn. }
    destruct G as (G1 & G2). rewrite forallb_forall in Hwm. specialize (Hwm _ (nth_error_In _ _ Hk)). cbn in Hwm. apply andb_prop in Hwm.
    assert (Bb : bytes body) by (eapply framed_body_bytes; eassumption).
    split.
    + eapply framed_tlv; [exact Hf|assumption| |apply ZZ; reflexivity|apply chain_some].
      intros _. rewrite <- (app_nil_r body). apply tlv_elements; [apply IH; [assumption|apply Hwm|assumption]| |constructor].
      apply (leading_not_end mtag); [assumption|]. cbn in G1. destruct (Z.eqb_spec mtag 0); [discriminate|assumption].
    + intros -> _. destruct Hm; congruence.
  - intros. constructor.
  - intros indef mtag md opt any t ms bs vs Ho Hm IH Hb Hw Hn E. cbn in Hw, Hn. apply andb_prop in Hw, Hn. apply IH; [assumption|apply Hw|apply Hn|assumption].
  - intros indef mtag md opt any t ms b bs v vs Hst He IH1 Hend Hm IH2 Hb Hw Hn E. cbn [forallb] in Hw. cbn [no_end_members] in Hn.
    apply andb_prop in Hw. destruct Hw as (Hw1 & Hw2). apply andb_prop in Hw1. destruct Hw1 as (_ & Hw1).
    apply andb_prop in Hn. destruct Hn as (Hn & Hn2). apply andb_prop in Hn. destruct Hn as (Hn & Hn1). apply andb_prop in Hn. destruct Hn as (Hn0 & Hn).
    apply Forall_app in Hb. destruct Hb as (Hb1 & Hb2). destruct (IH1 Hb1 Hw1 Hn1) as (A & B).
    apply tlv_elements; [exact A| |apply IH2; assumption]. destruct mtag as [tg|].
    + apply (leading_not_end tg); [apply Hst; reflexivity|]. cbn in Hn0. destruct (Z.eqb_spec tg 0); [discriminate|assumption].
    + apply Bool.orb_prop in Hn. destruct Hn as [Hn|Hn].
      * apply Nat.eqb_eq in Hn. apply Hend; assumption.
      * apply andb_prop in Hn. destruct Hn as (Q1 & Q2). apply Z.eqb_eq in Q1. apply B; [assumption|]. destruct (any_type t); [discriminate|reflexivity].
  - intros. constructor.
  - intros indef etag t b bs v vs Hst He IH1 Hend Hm IH2 Hb Hw Hn E. apply Forall_app in Hb. destruct Hb as (Hb1 & Hb2).
    apply tlv_elements; [apply IH1; assumption|apply Hend; assumption|apply IH2; assumption].
Qed.
