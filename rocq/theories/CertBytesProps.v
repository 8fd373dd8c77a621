(** C69: the resources of certificates, from the bytes of their extensions. *)
From Coq Require Import Lia.
From Verif Require Import Base BaseLemmas PduWireSpec PduWireProofs Address AddressSpec AddressProofs SArray SArraySpec SArrayProofs
  Asn1 Resources ResourcesSpec ResourcesProofs ResourcesProofs2 ResourcesProofs3 ResourcesProofs4 ResourcesProps.
From Verif Require Import BerSpec BerProofs Asn1Dec Asn1DecSpec Asn1DecProofs Asn1DecProofs6 Asn1Types Asn1Check Asn1Constraints Asn1CheckSpec
  Asn1CheckProofs Asn1CheckProps Objects ObjectsSpec ObjectsProofs ObjectsProofs2 ObjectsProofs4 ObjectsProofs5 ObjectsProps CertBytes.
Notation length := List.length.

(** ** The lists are no longer than the bytes *)
Fixpoint longest (v : value) : nat :=
  match v with
  | VSeq vs => fold_right (fun o n => Nat.max (match o with Some v => longest v | None => 0 end) n) 0%nat vs
  | VOf vs => Nat.max (length vs) (fold_right (fun v n => Nat.max (longest v) n) 0%nat vs)
  | VChoice _ v => longest v
  | _ => 0%nat
  end.

Lemma framed_body es c indef body whole : framed es c indef body whole -> (length body <= length whole)%nat.
Proof. intros H. destruct H; rewrite !app_length; lia. Qed.

Lemma enc_longest :
  (forall t mode b v, enc t mode b v -> (longest v <= length b)%nat)
  /\ (forall indef ms b vs, enc_members indef ms b vs ->
        (fold_right (fun o n => Nat.max (match o with Some v => longest v | None => 0 end) n) 0 vs <= length b)%nat)
  /\ (forall indef etag t b vs, enc_elements indef etag t b vs ->
        (length vs <= length b /\ fold_right (fun v n => Nat.max (longest v) n) 0 vs <= length b)%nat).
Proof.
  apply enc_mutind; intros; cbn [longest fold_right length] in *; try lia.
  all: repeat match goal with H : framed _ _ _ _ _ |- _ => apply framed_body in H end; rewrite ?app_length; try lia.
  all: match goal with H : enc _ 0 _ _ |- _ => pose proof (proj2 (enc_leading _ _ _ _ H)) end; lia.
Qed.

Lemma accepted_longest nobuf turns t k bs v : In t decoded_types -> bytes bs -> (2 <= turns)%nat ->
  asn1_decode nobuf turns t k bs = Accepted v -> (longest v <= length bs)%nat.
Proof.
  intros Ht Hb Hturns H. apply accepted_iff in H; [|assumption..]. destruct H as ((n & Hn & He) & _).
  apply (proj1 enc_longest) in He. rewrite firstn_length_le in He by assumption. lia.
Qed.

Lemma longest_in v vs : In v vs -> (longest v <= fold_right (fun v n => Nat.max (longest v) n) 0 vs)%nat.
Proof. induction vs as [|x vs IH]; [contradiction|]. intros [->|H]; cbn [fold_right]; [lia|]. specialize (IH H). lia. Qed.

(** ** Any bytes *)
Definition raw_ok (e : raw_extension) : Prop :=
  match e with
  | RawIP _ _ data | RawAS _ _ data => bytes data /\ Z.of_nat (length data) < 2 ^ 31
  | RawOther => True
  end.

Lemma read_ok nobuf turns e : (2 <= turns)%nat -> raw_ok e -> extension_ok (read_extension nobuf turns e).
Proof.
  intros Hturns H. destruct e as [v c data|v c data|]; [| |exact I]; destruct H as (Hb & Hl); cbn [read_extension extension_ok].
  - unfold decode_ip_blocks. destruct (asn1_decode nobuf turns t_IPAddrBlocks k_IPAddrBlocks data) as [x| | |] eqn:E; try exact I.
    pose proof (accepted_longest _ _ t_IPAddrBlocks _ _ _ ltac:(cbn; tauto) Hb Hturns E) as L.
    apply accepted_shaped in E; [|cbn; tauto|assumption..]. destruct E as (E & _). apply shaped_ip_blocks in E. destruct E as (l & -> & Hf).
    cbn [got]. rewrite view_ip_blocks_val by assumption. rewrite Forall_forall in *. intros f Hin. specialize (Hf f Hin). destruct Hf as (_ & Hf).
    unfold family_ok. destruct (f_choice f) as [| |aors] eqn:Ef; [contradiction|exact I|]. split.
    + eapply Forall_impl; [|exact Hf]. intros a Ha. destruct a as [s|lo hi|]; [apply Ha|split; apply Ha|contradiction].
    + unfold val_ip_blocks in L. cbn [longest] in L.
      assert (Q : In (val_ip_family f) (map val_ip_family l)) by (apply in_map; assumption). apply longest_in in Q.
      unfold val_ip_family at 1 in Q. rewrite Ef in Q. cbn [longest fold_right val_ip_choice] in Q. rewrite map_length in Q. lia.
  - unfold decode_as_ids. destruct (asn1_decode nobuf turns t_ASIdentifiers k_ASIdentifiers data) as [x| | |] eqn:E; try exact I.
    pose proof (accepted_longest _ _ t_ASIdentifiers _ _ _ ltac:(cbn; tauto) Hb Hturns E) as L.
    apply accepted_shaped in E; [|cbn; tauto|assumption..]. destruct E as (E & _). apply shaped_as_ids in E. destruct E as (num & rdi & -> & Hn & Hd).
    cbn [got]. rewrite view_as_ids_val by assumption. unfold as_ids_ok. cbn [as_num].
    destruct num as [[| |l]|]; [contradiction|exact I| |exact I]. split.
    + eapply Forall_impl; [|exact Hn]. intros a Ha. destruct a as [s|lo hi|]; [exact Ha|exact Ha|contradiction].
    + unfold val_as_ids in L. cbn [longest fold_right option_map val_as_choice] in L. rewrite map_length in L. lia.
Qed.

Definition raw_op_ok (o : raw_op) : Prop :=
  match o with
  | RawPush _ _ exts | RawEE _ _ exts => Forall raw_ok exts
  | RawPop => True
  end.

Lemma read_op_ok nobuf turns o : (2 <= turns)%nat -> raw_op_ok o -> op_ok (read_op nobuf turns o).
Proof.
  intros Hturns H. destruct o as [p t exts| |p f exts]; [|exact I|]; cbn [raw_op_ok read_op op_ok] in *; rewrite Forall_forall in *;
    intros e He; apply in_map_iff in He; destruct He as (r & <- & Hr); apply read_ok; auto.
Qed.

(** The states of the certificate stack that certificates of any bytes lead to. *)
Inductive reachable_bytes (nobuf : bool) (turns : nat) : heap * list resources -> Prop :=
| reachb_init : reachable_bytes nobuf turns (empty_heap, [])
| reachb_step s o s' : reachable_bytes nobuf turns s -> raw_op_ok o -> stack_step s (read_op nobuf turns o) = Ok s' ->
    reachable_bytes nobuf turns s'.

Lemma reachable_bytes_reachable nobuf turns s : (2 <= turns)%nat -> reachable_bytes nobuf turns s -> reachable s.
Proof.
  intros Hturns. induction 1 as [|s o s' H IH Hok E]; [constructor|]. eapply reach_step; [exact IH| |exact E]. apply read_op_ok; assumption.
Qed.

(** Whatever bytes their extensions are made of, no certificate of the stack
    holds anything that one above it doesn't. *)
Theorem C69_chain nobuf turns h stack i j ri rj : (2 <= turns)%nat ->
  reachable_bytes nobuf turns (h, stack) -> (i < j)%nat -> nth_error stack i = Some ri -> nth_error stack j = Some rj ->
  included (holds4 h ri) (holds4 h rj) /\ included (holds6 h ri) (holds6 h rj) /\ included (holdsA h ri) (holdsA h rj).
Proof. intros Hturns R. apply C21_chain. eapply reachable_bytes_reachable; eassumption. Qed.

(** And none crashes the process, if there is a certificate above it. *)
Theorem C69_no_crash_partial nobuf turns h stack o : (2 <= turns)%nat ->
  reachable_bytes nobuf turns (h, stack) -> raw_op_ok o -> stack <> [] ->
  exists s', stack_step (h, stack) (read_op nobuf turns o) = Ok s' /\ reachable_bytes nobuf turns s'.
Proof.
  intros Hturns R Hok Hne. destruct (C53_no_crash_partial h stack (read_op nobuf turns o)) as (s' & E & _);
    [eapply reachable_bytes_reachable; eassumption|apply read_op_ok; assumption|assumption|].
  exists s'. split; [assumption|]. eapply reachb_step; eassumption.
Qed.

(** An IP extension, the DER encoding of the IPv4 resources [l], gets accepted
    exactly if something can be granted of them (RFC 3779, 6487 and 8360). *)
Theorem C69_ip4 nobuf turns h stack p t l rest : (2 <= turns)%nat -> bytes rest ->
  reachable_bytes nobuf turns (h, stack) -> Forall aor_fine l ->
  let blocks := [{| f_family := [0; 1]; f_choice := IPC_aors l |}] in
  reasonable (der_ip_blocks blocks) -> (nobuf = true -> Forall (fun a => ~ begins_empty a) l) ->
  match peek_resources stack with Some pa => holds4 h pa <> [] | None => True end ->
  exists h' r err,
    certificate_get_resources h (resources_create p false) (peek_resources stack) t
      (map (read_extension nobuf turns) [RawIP p true (der_ip_blocks blocks ++ rest)]) = Ok (h', r, err) /\
    (err = 0 <-> exists held, granted claims4 p (option_map (holds4 h) (peek_resources stack)) l held).
Proof.
  intros Hturns Hrest R Hl blocks Hr Hn Hp. cbn [map read_extension].
  assert (Hb : Forall ip_family_fine blocks).
  { constructor; [|constructor]. split; [repeat (constructor; [unfold is_byte; lia|]); constructor|exact Hl]. }
  destruct (C67_ip_blocks nobuf turns blocks rest Hturns Hrest Hb Hr) as (-> & _).
  2: { constructor; [|constructor]. split; [cbn; lia|]. intros Hnb l' E a Ha. injection E as <-. specialize (Hn Hnb).
       rewrite Forall_forall in Hn. apply Hn. assumption. }
  apply C21_accept4; [eapply reachable_bytes_reachable; eassumption| |assumption]. split.
  - eapply Forall_impl; [|exact Hl]. intros a Ha. destruct a as [s|lo hi|]; [apply Ha|split; apply Ha|contradiction].
  - unfold reasonable in Hr. pose proof (proj1 enc_longest _ _ _ _ (enc_ip_blocks _ Hb Hr)) as L.
    subst blocks. unfold val_ip_blocks in L. cbn [map val_ip_family f_family f_choice val_ip_choice longest fold_right] in L. rewrite map_length in L. lia.
Qed.

(** Two certificates, the second one with half of what the first has. *)
Definition ex_block (bs : list Z) (u : Z) : list ip_family :=
  [{| f_family := [0; 1]; f_choice := IPC_aors [AOR_prefix {| bs_buf := bs; bs_unused := u |}] |}].
Definition ex_ta_op : raw_op := RawPush RFC6484 CERTYPE_TA [RawIP RFC6484 true (der_ip_blocks (ex_block [10] 0))].
Definition ex_ca_op : raw_op := RawPush RFC6484 CERTYPE_CA [RawOther; RawIP RFC6484 true (der_ip_blocks (ex_block [10; 128] 7))].

Example C69_example : exists h ca ta, reachable_bytes false 2 (h, [ca; ta])
  /\ holds4 h ta = [(10 * 2 ^ 24, 11 * 2 ^ 24 - 1)] /\ holds4 h ca = [(10 * 2 ^ 24 + 2 ^ 23, 11 * 2 ^ 24 - 1)].
Proof.
  assert (B : forall l, Forall (fun b => (0 <=? b) && (b <? 256) = true) l -> bytes l).
  { intros l H. eapply Forall_impl; [|exact H]. intros b Hb. apply andb_prop in Hb. unfold is_byte. lia. }
  eexists _, _, _. split.
  - eapply reachb_step with (o := ex_ca_op); [eapply reachb_step with (o := ex_ta_op); [apply reachb_init| |vm_compute; reflexivity]| |vm_compute; reflexivity].
    + constructor; [|constructor]. split; [apply B; repeat (constructor; [reflexivity|]); constructor|reflexivity].
    + constructor; [exact I|]. constructor; [|constructor]. split; [apply B; repeat (constructor; [reflexivity|]); constructor|reflexivity].
  - split; vm_compute; reflexivity.
Qed.

Print Assumptions C69_chain.
Print Assumptions C69_no_crash_partial.
Print Assumptions C69_ip4.
