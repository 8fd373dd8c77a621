(** Encodings are of values of the type. *)
From Coq Require Import Lia.
From Verif Require Import Base Ber BerSpec BerProofs BerProofs2 BerProofs4.
From Verif Require Import Asn1Dec Asn1DecSpec Asn1DecProofs Asn1DecProofs5 Asn1DecProofs6 Asn1DecProofs7 Asn1DecProofs9 Asn1Check Asn1CheckSpec.

Lemma bit_string_bytes raw u bs : bytes raw -> bit_string raw u bs -> bytes bs.
Proof.
  intros Hb H. destruct H as [|bs b u Hu]; [constructor|]. apply Forall_app in Hb. destruct Hb as (H1 & H2).
  apply Forall_app. split; [assumption|]. constructor; [|constructor]. inversion H2; subst.
  match goal with H : is_byte b |- _ => unfold is_byte in *; rename H into Hy end.
  assert (0 < 2 ^ u) by (apply Z.pow_pos_nonneg; lia).
  pose proof (Z.div_mod b (2 ^ u) ltac:(lia)). pose proof (Z.mod_pos_bound b (2 ^ u) ltac:(lia)). pose proof (Z.div_pos b (2^u) ltac:(lia) ltac:(lia)). nia.
Qed.

Lemma bytes_tl bs : bytes bs -> bytes (tl bs).
Proof. intros H. destruct H; [constructor|assumption]. Qed.

Lemma concat_bytes cs : Forall bytes cs -> bytes (concat cs).
Proof. intros H. induction H as [|c cs Hc H IH]; [constructor|]. cbn. apply Forall_app. split; assumption. Qed.

Lemma framed_body_bytes es c indef body whole : framed es c indef body whole -> bytes whole -> bytes body.
Proof.
  intros H Hb. destruct H; repeat (apply Forall_app in Hb; destruct Hb as (? & Hb)); try assumption.
Qed.

Definition shaped_members := fix members (ms : list member) (vs : list (option value)) : Prop :=
  match ms, vs with
  | [], [] => True
  | Member _ _ opt _ t' :: ms', None :: vs' => (0 < opt)%nat /\ members ms' vs'
  | Member _ _ _ _ t' :: ms', Some v' :: vs' => shaped t' v' /\ members ms' vs'
  | _, _ => False
  end.
Definition shaped_elements (t : ty) := fix elements (vs : list value) : Prop :=
  match vs with [] => True | v' :: vs' => shaped t v' /\ elements vs' end.

Lemma enc_shaped_all :
  (forall t mode b v, enc t mode b v -> bytes b -> shaped t v)
  /\ (forall indef ms b vs, enc_members indef ms b vs -> bytes b -> shaped_members ms vs)
  /\ (forall indef etag t b vs, enc_elements indef etag t b vs -> bytes b -> shaped_elements t vs).
Proof.
  apply enc_mutind.
  - intros tags mode p body _ Hb. apply Forall_app in Hb. apply Hb.
  - intros. exact I.
  - intros tags mode p body b _ Hbool Hb. apply Forall_app in Hb. destruct Hb as (_ & Hb). cbn.
    destruct Hbool as [bs H|bs b bs' H Hne]; [unfold is_byte; lia|]. apply Forall_app in Hb. destruct Hb as (_ & Hb). inversion Hb; assumption.
  - intros tags all mode p body _ _ Hb. apply Forall_app in Hb. apply Hb.
  - intros tags all mode whole inner cs _ Hcs _ Hb. cbn. apply concat_bytes. eapply constructed_contents; eassumption.
  - intros tags all mode p body v _ _ Hbits Hb. apply Forall_app in Hb. destruct Hb as (_ & Hb). cbn.
    split; [eapply bit_string_bytes; [|eassumption]; apply bytes_tl; assumption|eexists; eassumption].
  - intros tags all mode whole inner cs v _ Hcs _ Hbits Hb. cbn.
    split; [eapply bit_string_bytes; [|eassumption]; apply bits_bytes; eapply constructed_contents; eassumption|eexists; eassumption].
  - intros tags all mode p body _ _ Hb. cbn. destruct (mode =? 1); [apply Forall_app in Hb; apply Hb|assumption].
  - intros tags all mode whole inner cs _ Hcs _ Hb. cbn. destruct (mode =? 1); [eapply constructed_contents; eassumption|assumption].
  - intros tags t2e ms mode indef body whole vs Hfr _ IH Hb. apply IH. eapply framed_body_bytes; eassumption.
  - intros tags etag elem mode indef body whole vs Hfr _ IH Hb. apply IH. eapply framed_body_bytes; eassumption.
  - intros t2e ms k mtag md opt any t bs v Hk _ _ IH Hb. cbn [shaped]. specialize (IH Hb). revert k Hk.
    induction ms as [|[mt md' o a t'] ms IHms]; intros [|k] Hk; try discriminate; [injection Hk as -> -> -> -> ->; assumption|apply IHms; assumption].
  - intros tags t2e ms mode k mtag md opt any t c indef body whole v _ Hfr Hk _ _ IH Hb. cbn [shaped].
    specialize (IH (framed_body_bytes _ _ _ _ _ Hfr Hb)). revert k Hk.
    induction ms as [|[mt md' o a t'] ms IHms]; intros [|k] Hk; try discriminate; [injection Hk as -> -> -> -> ->; assumption|apply IHms; assumption].
  - intros. exact I.
  - intros indef mtag md opt any t ms bs vs Hopt _ IH Hb. split; [assumption|apply IH; assumption].
  - intros indef mtag md opt any t ms b bs v vs _ _ IH1 _ _ IH2 Hb. apply Forall_app in Hb. destruct Hb as (B1 & B2). split; [apply IH1|apply IH2]; assumption.
  - intros. exact I.
  - intros indef etag t b bs v vs _ _ IH1 _ _ IH2 Hb. apply Forall_app in Hb. destruct Hb as (B1 & B2). split; [apply IH1|apply IH2]; assumption.
Qed.

Theorem enc_shaped t mode b v : enc t mode b v -> bytes b -> shaped t v.
Proof. apply enc_shaped_all. Qed.
