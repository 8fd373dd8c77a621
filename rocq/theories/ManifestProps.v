(** C40, C41, C42: manifests. *)
From Coq Require Import String.
From Verif Require Import Base BaseLemmas CString CLib PathBuilder PathProps Manifest ManifestSpec ManifestProofs.
From Coq Require Import Permutation.
Notation length := List.length.

(** * C40: shuffling the list of files *)

(** Whatever the random numbers, a list that isn't empty comes out as a permutation
    of itself. *)
Theorem C40_permutation_partial rnd l : l <> [] -> Z.of_nat (length l) <= 2147483647 ->
  exists l', shuffle rnd l = Ok l' /\ Permutation l l'.
Proof. intros H K. apply shuffle_loop_ok; auto; lia. Qed.
(** An empty list of files, however, which is valid ASN.1, is a division by zero. *)
Theorem C40_empty_refuted rnd : shuffle rnd [] = UB.
Proof. reflexivity. Qed.
Theorem C40_crash_refuted J repository tal notif hash_file nf nm rnd now stale uri m crl sobj refs : m_files m = [] ->
  handle_manifest J repository tal notif hash_file nf nm rnd now stale (inr uri) (inr m) crl sobj refs = UB.
Proof. intros H. unfold handle_manifest, build_rpp. rewrite H. reflexivity. Qed.

Definition ex_f (n : list Z) (h : Z) : fah := {| f_file := n; f_hash := [h]; f_unused := 0 |}.
Example C40_nonvacuous : shuffle (fun i => match i with 0%nat => 5 | _ => 8 end) [ex_f [1] 1; ex_f [2] 2; ex_f [3] 3] = Ok [ex_f [3] 3; ex_f [2] 2; ex_f [1] 1].
Proof. reflexivity. Qed.

(** * C41: the publication point *)
Section C41.
  Variable J : Z.
  Variable repository : list Z.
  Variable tal notif : option (list Z).
  Variable hash_file : list Z -> Z + list Z.
  Variable not_found not_match : action.
  Variable mft : rpki_uri.
  Notation ok := (entry_ok J repository tal notif hash_file not_found not_match mft).
  Notation build rnd := (build_rpp J repository tal notif hash_file not_found not_match rnd mft).
  Notation crl u := (ends_with (u_global u) (cstr ".crl")).

  (** A publication point is built only if no entry is at fault, and exactly one of
      the present files is a CRL; it holds that CRL, and the present certificates,
      ROAs and ghostbusters, and nothing else. *)
  Theorem C41_sound rnd l pp : (forall p, hash_file p <> inl 0) -> l <> [] -> Z.of_nat (length l) <= 2147483647 ->
    build rnd l = Ok pp ->
    exists us c, Forall2 ok l us /\
      pp_crl pp = Some c /\ sublist (fun u => crl u) (present us) [c] /\
      of_kind (cstr ".cer") (present us) (pp_certs pp) /\ of_kind (cstr ".roa") (present us) (pp_roas pp) /\ of_kind (cstr ".gbr") (present us) (pp_gbrs pp).
  Proof.
    intros HF Hne Hl. unfold build_rpp. destruct (C40_permutation_partial rnd l Hne Hl) as (l'&->&P). cbn [bind].
    destruct (build_loop _ _ _ _ _ _ _ _ l' rpp_create) as [pp'| |] eqn:HB; cbn [bind]; try discriminate.
    destruct (pp_crl pp') as [c|] eqn:HC; [|discriminate]. intros H. injection H as <-.
    apply build_loop_iff in HB; auto. destruct HB as (us'&F&X1&X2&X3&X4). cbn [rpp_create pp_certs pp_roas pp_gbrs pp_crl app] in *.
    symmetry in P. destruct (Forall2_perm _ _ _ _ P F) as (us&F2&P2).
    exists us, c. split; [exact F2|split; [exact HC|]].
    pose proof (present_perm _ _ P2) as PP.
    assert (K : forall e, of_kind e (present us) (filter (kind e) (present us'))).
    { intros e. exists (filter (kind e) (present us)). split; [apply sublist_filter|]. apply filter_perm, PP. }
    rewrite X1, X2, X3. split; [|auto].
    destruct (filter (kind (cstr ".crl")) (present us')) as [|c' [|]] eqn:E; [congruence| |contradiction].
    assert (c' = c) by congruence. subst c'.
    pose proof (filter_perm (kind (cstr ".crl")) _ _ PP) as Q. rewrite E in Q. apply Permutation_length_1_inv in Q.
    rewrite <- Q. apply sublist_filter.
  Qed.

  (** And then it is. *)
  Theorem C41_complete rnd l us c : (forall p, hash_file p <> inl 0) -> l <> [] -> Z.of_nat (length l) <= 2147483647 ->
    Forall2 ok l us -> sublist (fun u => crl u) (present us) [c] -> exists pp, build rnd l = Ok pp /\ pp_crl pp = Some c.
  Proof.
    intros HF Hne Hl F S. unfold build_rpp. destruct (C40_permutation_partial rnd l Hne Hl) as (l'&->&P). cbn [bind].
    destruct (Forall2_perm _ _ _ _ P F) as (us'&F2&P2). pose proof (present_perm _ _ P2) as PP.
    set (pp := {| pp_certs := filter (kind (cstr ".cer")) (present us'); pp_crl := Some c; pp_roas := filter (kind (cstr ".roa")) (present us'); pp_gbrs := filter (kind (cstr ".gbr")) (present us') |}).
    assert (HB : build_loop J repository tal notif hash_file not_found not_match mft l' rpp_create = Ok pp).
    { apply build_loop_iff; auto. exists us'. split; auto. unfold extended. cbn [rpp_create pp_certs pp_roas pp_gbrs pp_crl app pp]. do 3 (split; [reflexivity|]).
      pose proof (filter_perm (kind (cstr ".crl")) _ _ PP) as Q. rewrite (sublist_fun _ _ _ _ (sublist_filter (cstr ".crl") (present us)) S) in Q.
      apply Permutation_length_1_inv in Q. rewrite Q. reflexivity. }
    rewrite HB. cbn [bind pp_crl pp]. exists pp. auto.
  Qed.

  (** Each entry is about at most one file, so the above doesn't depend on which
      [us]; and a shuffle changes no set. *)
  Theorem C41_deterministic f o1 o2 : ok f o1 -> ok f o2 -> o1 = o2.
  Proof. intros H K. inversion H; inversion K; subst; try congruence. Qed.
  Theorem C41_shuffle rnd rnd' l pp : (forall p, hash_file p <> inl 0) -> l <> [] -> Z.of_nat (length l) <= 2147483647 -> build rnd l = Ok pp ->
    exists pp', build rnd' l = Ok pp' /\ pp_crl pp' = pp_crl pp /\ Permutation (pp_certs pp') (pp_certs pp) /\ Permutation (pp_roas pp') (pp_roas pp) /\ Permutation (pp_gbrs pp') (pp_gbrs pp).
  Proof.
    intros HF Hne Hl H. destruct (C41_sound rnd l pp HF Hne Hl H) as (us&c&F&HC&S&A1&A2&A3).
    destruct (C41_complete rnd' l us c HF Hne Hl F S) as (pp'&H'&HC'). exists pp'. split; auto. split; [congruence|].
    destruct (C41_sound rnd' l pp' HF Hne Hl H') as (us'&c'&F'&_&_&B1&B2&B3).
    assert (us' = us). { clear - F F'. revert us' F'. induction F as [|f o l us Hf F IH]; intros us' F'; inversion F' as [|? o' ? us2 Hf' F2]; subst; auto. f_equal; eauto using C41_deterministic. }
    subst us'.
    assert (K : forall e a b, of_kind e (present us) a -> of_kind e (present us) b -> Permutation b a).
    { intros e a b (k1&S1&P1) (k2&S2&P2). rewrite (sublist_fun _ _ _ _ S1 S2) in P1. rewrite P1. exact P2. }
    split; [|split]; eapply K; eauto.
  Qed.

  (** A file that doesn't match its hash, or that's missing, gets the manifest
      rejected, unless the configuration tolerates it; so does a name that isn't one. *)
  Theorem C41_fault rnd l f : (forall p, hash_file p <> inl 0) -> Z.of_nat (length l) <= 2147483647 -> In f l -> (forall o, ~ ok f o) -> forall pp, build rnd l <> Ok pp.
  Proof.
    intros HF Hl Hin HN pp H. assert (Hne : l <> []) by (intros ->; contradiction).
    destruct (C41_sound rnd l pp HF Hne Hl H) as (us&_&F&_).
    clear - Hin HN F. induction F as [|a o l us Ha F IH]; [contradiction|]. destruct Hin as [->|Hin]; [eapply HN; eauto|auto].
  Qed.
  Theorem C41_mismatch f u h : uri_create_mft J repository tal notif mft (f_file f) = Ok u -> hash_file (u_local u) = inr h -> h <> f_hash f -> not_match = INAC_ERROR -> forall o, ~ ok f o.
  Proof. intros HU HH HN HE o H. inversion H; subst; congruence. Qed.
  Theorem C41_missing f u e : uri_create_mft J repository tal notif mft (f_file f) = Ok u -> hash_file (u_local u) = inl e -> not_found = INAC_ERROR -> forall o, ~ ok f o.
  Proof. intros HU HH HE o H. inversion H; subst; congruence. Qed.
  Theorem C41_name f : ~ PathSpec.mft_name (f_file f) -> forall o, ~ ok f o.
  Proof. intros HN o H. apply HN. inversion H; subst; eapply C30_uri; eauto. Qed.

  (** A manifest that's handed over was in its window, and its list as above. *)
  Theorem C41_handled rnd now stale m crl_ sobj refs pp :
    handle_manifest J repository tal notif hash_file not_found not_match rnd now stale (inr mft) (inr m) crl_ sobj refs = Ok (inr pp) ->
    build rnd (m_files m) = Ok pp /\ crl_ pp = 0 /\ sobj = 0 /\ refs pp = 0 /\
    (m_version m = None \/ m_version m = Some (Some 0)) /\ (length (m_number m) <= 20)%nat /\
    validate_dates (m_this m) (m_next m) now stale = Ok 0 /\ m_alg m = 0.
  Proof.
    intros H. unfold handle_manifest, validate_manifest in H.
    destruct (build rnd (m_files m)) as [pp'| |] eqn:HB; try discriminate.
    destruct (crl_ pp' =? 0) eqn:E1; cbn [negb] in H; [|injection H; discriminate].
    destruct (sobj =? 0) eqn:E2; cbn [negb] in H; [|injection H; discriminate].
    destruct (m_version m) as [[v|]|] eqn:EV; try (cbn in H; discriminate).
    - destruct (v =? 0) eqn:Ev; cbn [negb Z.eqb] in H; [|cbn in H; discriminate].
      destruct (20 <? length (m_number m))%nat eqn:EN; [cbn in H; discriminate|].
      destruct (validate_dates (m_this m) (m_next m) now stale) as [e| |] eqn:ED; cbn [bind] in H; try discriminate.
      destruct (e =? 0) eqn:Ee; cbn [negb bind] in H; [|rewrite Ee in H; discriminate].
      destruct (m_alg m =? 0) eqn:EA; cbn [negb] in H; [|discriminate].
      destruct (refs pp' =? 0) eqn:ER; cbn [negb] in H; [|discriminate].
      injection H as <-. apply Nat.ltb_ge in EN. repeat split; try lia; auto. right. do 2 f_equal. lia. f_equal; lia.
    - cbn [negb Z.eqb] in H.
      destruct (20 <? length (m_number m))%nat eqn:EN; [cbn in H; discriminate|].
      destruct (validate_dates (m_this m) (m_next m) now stale) as [e| |] eqn:ED; cbn [bind] in H; try discriminate.
      destruct (e =? 0) eqn:Ee; cbn [negb bind] in H; [|rewrite Ee in H; discriminate].
      destruct (m_alg m =? 0) eqn:EA; cbn [negb] in H; [|discriminate].
      destruct (refs pp' =? 0) eqn:ER; cbn [negb] in H; [|discriminate].
      injection H as <-. apply Nat.ltb_ge in EN. repeat split; try lia; auto. f_equal; lia.
  Qed.
End C41.

(** Non-vacuity: a certificate, a CRL, a ROA that's missing (tolerated), and a file
    of no known kind. *)
Definition ex_mft : rpki_uri := {| u_global := cstr "rsync://a.b/c/m.mft"; u_local := cstr "/x"; u_type := UT_RSYNC |}.
Definition ex_hash (p : list Z) : Z + list Z :=
  if str_ends_with p (cstr ".roa") then inl 2 else if str_ends_with p (cstr ".crl") then inr [2] else inr [1].
Definition ex_list : list fah := [ex_f (cstr "a.cer") 1; ex_f (cstr "b.roa") 1; ex_f (cstr "c.crl") 2; ex_f (cstr "d.xyz") 1].
Example C41_nonvacuous : (forall p, ex_hash p <> inl 0) /\
  match build_rpp 7 ex_repo ex_tal None ex_hash INAC_WARN INAC_ERROR (fun _ => 1) ex_mft ex_list with
  | Ok pp => map u_global (pp_certs pp) = [cstr "rsync://a.b/c/a.cer"] /\ pp_roas pp = [] /\ option_map u_global (pp_crl pp) = Some (cstr "rsync://a.b/c/c.crl")
  | _ => False
  end /\
  build_rpp 7 ex_repo ex_tal None ex_hash INAC_ERROR INAC_ERROR (fun _ => 1) ex_mft ex_list = Err EINVAL.
Proof.
  split; [|vm_compute; repeat split; reflexivity].
  intros p. unfold ex_hash. destruct (str_ends_with p (cstr ".roa")); [discriminate|]. destruct (str_ends_with p (cstr ".crl")); discriminate.
Qed.

(** * C42: the dates *)

(** What text is read as a date, and as which.  Note the ranges: there are minutes up
    to 99, and all the months have 31 days. *)
Theorem C42_text s t : asn_GT2time s = Ok (Some t) <->
  exists y mo d h mi se, gt_text s y mo d h mi se /\ 1 <= mo <= 12 /\ 1 <= d <= 31 /\ h <= 23 /\ se <= 60 /\
    t = {| tm_year := y - 1900; tm_mon := mo - 1; tm_mday := d; tm_hour := h; tm_min := mi; tm_sec := se |}.
Proof.
  split.
  - intros H. destruct (gt_cases s) as [E|(y&mo&d&h&mi&se&T&(R1&R2&R3&R4)&E)]; rewrite E in H; [discriminate|]. injection H as <-.
    exists y, mo, d, h, mi, se. repeat (split; auto).
  - intros (y&mo&d&h&mi&se&T&R1&R2&R3&R4&->). apply gt_complete; auto. repeat split; lia.
Qed.
Theorem C42_text_total s : exists o, asn_GT2time s = Ok o.
Proof. destruct (gt_cases s) as [E|(y&mo&d&h&mi&se&_&_&E)]; eauto. Qed.

(** The order used is the chronological one, for dates that exist. *)
Theorem C42_order a b : real a -> real b -> (tm_cmp a b < 0 <-> moment a < moment b) /\ (0 < tm_cmp a b <-> moment b < moment a).
Proof. apply tm_cmp_moment. Qed.

(** If the dates exist, a manifest is in its window iff it says so. *)
Theorem C42_window_partial this next now stale t n : asn_GT2time this = Ok (Some t) -> asn_GT2time next = Ok (Some n) -> real t -> real n -> real now ->
  (validate_dates this next (inr now) stale = Ok 0 <->
   moment t <= moment n /\ moment t <= moment now /\ (moment now <= moment n \/ stale <> INAC_ERROR)).
Proof.
  intros Ht Hn Rt Rn Rw. unfold validate_dates. rewrite Ht. cbn [bind]. rewrite Hn. cbn [bind].
  destruct (tm_cmp_moment t n Rt Rn) as [_ A]. destruct (tm_cmp_moment now t Rw Rt) as [B _]. destruct (tm_cmp_moment now n Rw Rn) as [_ C].
  destruct (Z.ltb_spec 0 (tm_cmp t n)); [split; [discriminate|lia]|].
  destruct (Z.ltb_spec (tm_cmp now t) 0); [split; [discriminate|lia]|].
  destruct (Z.ltb_spec 0 (tm_cmp now n)).
  - destruct stale; cbn [incidence]; split; try discriminate; try (intros _; repeat split; try lia; right; discriminate); auto.
    intros (_&_&[X|X]); [lia|congruence].
  - split; auto. intros _. repeat split; try lia.
Qed.
Theorem C42_unreadable this next now stale : asn_GT2time this = Ok None \/ asn_GT2time next = Ok None -> validate_dates this next now stale <> Ok 0.
Proof.
  unfold validate_dates. intros [H|H].
  - rewrite H. cbn. discriminate.
  - destruct (C42_text_total this) as [[t|] ->]; cbn [bind]; [|discriminate]. rewrite H. cbn [bind]. discriminate.
Qed.
Theorem C42_total this next now stale : exists e, validate_dates this next now stale = Ok e.
Proof.
  unfold validate_dates. destruct (C42_text_total this) as [[t|] ->]; cbn [bind]; eauto.
  destruct (C42_text_total next) as [[n|] ->]; cbn [bind]; eauto.
  repeat match goal with |- context [if ?b then _ else _] => destruct b; eauto end. destruct now; eauto.
  repeat match goal with |- context [if ?b then _ else _] => destruct b; eauto end.
Qed.

(** But dates that don't exist are taken: with a thisUpdate of 00:61 on 1 January
    2024 (01:01), the manifest is already valid at 01:00; with one of 31 February
    (2 March), on 1 March. *)
Theorem C42_nonexistent_refuted : exists this next t now,
  asn_GT2time this = Ok (Some t) /\ real now /\ moment now < moment t /\ validate_dates this next (inr now) INAC_ERROR = Ok 0.
Proof.
  exists (cstr "20240101006100Z"), (cstr "20250101000000Z"), {| tm_year := 124; tm_mon := 0; tm_mday := 1; tm_hour := 0; tm_min := 61; tm_sec := 0 |},
    {| tm_year := 124; tm_mon := 0; tm_mday := 1; tm_hour := 1; tm_min := 0; tm_sec := 0 |}.
  repeat split; vm_compute; try reflexivity; try discriminate.
Qed.
Theorem C42_february_refuted : exists this next t now,
  asn_GT2time this = Ok (Some t) /\ real now /\ moment now < moment t /\ validate_dates this next (inr now) INAC_ERROR = Ok 0.
Proof.
  exists (cstr "20230231120000Z"), (cstr "20250101000000Z"), {| tm_year := 123; tm_mon := 1; tm_mday := 31; tm_hour := 12; tm_min := 0; tm_sec := 0 |},
    {| tm_year := 123; tm_mon := 2; tm_mday := 1; tm_hour := 0; tm_min := 0; tm_sec := 0 |}.
  repeat split; vm_compute; try reflexivity; try discriminate.
Qed.

Example C42_nonvacuous : exists t n now, asn_GT2time (cstr "20240229235959.5Z") = Ok (Some t) /\ asn_GT2time (cstr "20240301000000Z") = Ok (Some n) /\
  real t /\ real n /\ real now /\ moment n = moment t + 1 /\ now = n /\
  validate_dates (cstr "20240229235959.5Z") (cstr "20240301000000Z") (inr now) INAC_ERROR = Ok 0.
Proof.
  exists {| tm_year := 124; tm_mon := 1; tm_mday := 29; tm_hour := 23; tm_min := 59; tm_sec := 59 |},
    {| tm_year := 124; tm_mon := 2; tm_mday := 1; tm_hour := 0; tm_min := 0; tm_sec := 0 |},
    {| tm_year := 124; tm_mon := 2; tm_mday := 1; tm_hour := 0; tm_min := 0; tm_sec := 0 |}.
  repeat split; vm_compute; try reflexivity; try discriminate.
Qed.
