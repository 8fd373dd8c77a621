(** C31-C34: RRDP. *)
From Coq Require Import String Permutation.
From Verif Require Import Base BaseLemmas CString CLib PathBuilder PathSpec PathProofs3 PathProps
  Rrdp RrdpSpec RrdpProofs RrdpProofs2 RrdpProofs3.
Notation length := List.length.

(** ** C32: hash attributes. *)
Theorem C32_exact s h : hexstr2sha256 s = Ok h <-> hex_bytes s h /\ length h = 32%nat.
Proof.
  split; [|intros [H L]; apply hex_parses; auto]. intros H. pose proof (hexstr_spec s) as S. rewrite H in S. exact S.
Qed.
Theorem C32_total s : hexstr2sha256 s = Err EINVAL \/ exists h, hexstr2sha256 s = Ok h /\ length h = 32%nat /\ Forall is_byte h.
Proof.
  pose proof (hexstr_spec s) as S. destruct (hexstr2sha256 s) as [h|e|].
  - right. exists h. destruct S as [H L]. repeat split; auto. clear L. induction H; constructor; auto.
    apply hexval_char in H, H0. unfold is_byte. lia.
  - destruct S as [-> _]. auto.
  - destruct S.
Qed.
Theorem C32_determined s h h' : hex_bytes s h -> hex_bytes s h' -> h = h'.
Proof. intros H. apply hex_bytes_fun; auto. Qed.
Example C32_nonvacuous :
  hexstr2sha256 (cstr "000102030405060708090a0b0c0d0e0f101112131415161718191A1B1C1D1EfF") = Ok ([0;1;2;3;4;5;6;7;8;9;10;11;12;13;14;15;16;17;18;19;20;21;22;23;24;25;26;27;28;29;30;255]) /\
  hexstr2sha256 (cstr "000102030405060708090a0b0c0d0e0f101112131415161718191A1B1C1D1Ef") = Err EINVAL /\
  hexstr2sha256 (cstr "000102030405060708090a0b0c0d0e0f101112131415161718191A1B1C1D1EfG") = Err EINVAL.
Proof. vm_compute. auto. Qed.

(** ** C31: the delta list. *)
Theorem C31_accept max a : Z.of_nat (length a) <= ULONG_MAX ->
  ((exists b, sort_deltas max a = Ok b) <->
   a = [] \/ (Permutation (map nd_serial a) (zseq (max - Z.of_nat (length a) + 1) (length a)) /\ 0 <= max - Z.of_nat (length a) + 1)).
Proof.
  intros U. pose proof (sort_spec max a U) as S. split.
  - intros (b & H). rewrite H in S. destruct S as (P & EA & [->|R]); auto. right. split; auto.
    unfold ends_at in EA. rewrite (Permutation_length P), <- EA. apply Permutation_map. auto.
  - intros [->|[P R]]; [exists []; reflexivity|]. destruct (sort_deltas max a) as [b|e|]; [eauto| |destruct S]. exfalso. destruct S as [_ S].
    + assert (X : exists b, Permutation a b /\ map nd_serial b = zseq (max - Z.of_nat (length a) + 1) (length a)).
      { apply Permutation_sym, Permutation_map_inv in P. destruct P as (b & E & P'). exists b. split; auto. }
      destruct X as (b & P' & EB). assert (EA : ends_at max b) by (unfold ends_at; rewrite <- (Permutation_length P'); auto).
      specialize (S b P' EA). lia.
Qed.
Theorem C31_sorted max a b : Z.of_nat (length a) <= ULONG_MAX -> sort_deltas max a = Ok b -> Permutation a b /\ ends_at max b.
Proof. intros U H. pose proof (sort_spec max a U) as S. rewrite H in S. tauto. Qed.
(** No out-of-bounds access and no endless loop, for any serials. *)
Theorem C31_total max a : Z.of_nat (length a) <= ULONG_MAX -> (exists b, sort_deltas max a = Ok b) \/ sort_deltas max a = Err EINVAL.
Proof.
  intros U. pose proof (sort_spec max a U) as S. destruct (sort_deltas max a) as [b|e|]; [eauto| |destruct S]. destruct S as [-> _]. auto.
Qed.
(** A notification that is accepted lists its deltas so. *)
Theorem C31_notification J repository tal xml c nt : follows_schema (xml c) -> read_notification J repository tal xml c = Ok nt ->
  exists s snap ds, nt_session nt = Some s /\ nt_snapshot nt = Some snap /\
    listed J repository tal (d_nodes (xml c)) ds /\ Permutation ds (nt_deltas nt) /\ ends_at (s_serial s) (nt_deltas nt).
Proof.
  intros SC H. destruct (read_ok J repository tal xml c nt SC H) as (s & snap & ds & A & B & _ & C & D & F). exists s, snap, ds. auto.
Qed.

Section C31.
  Variable J : Z.
  Variable repository : list Z.
  Variable tal : option (list Z).
  Variable http_enabled : bool.
  Variable sha256 : list Z -> list Z.
  Variable xml : list Z -> xdoc.
  Variable base64 : list Z -> option (list Z).
  Variable E : env.
  Variable notif : list Z.
  Notation applied := (applied J repository tal http_enabled sha256 xml base64 E notif).
  Notation handle_snapshot := (handle_snapshot J repository tal http_enabled sha256 xml base64 E notif).
  Notation changed := (rrdp_changed J repository tal http_enabled sha256 xml base64 E notif).

  (** From serial [s_serial o], the same session: exactly the deltas
      o+1 .. current, in this order, or else the snapshot. *)
  Theorem C31_applies nt s snap o w w' : nt_session nt = Some s -> nt_snapshot nt = Some snap -> ends_at (s_serial s) (nt_deltas nt) ->
    s_id o = s_id s -> s_serial o <> s_serial s -> changed (Some o) nt w = (w', Ret tt) ->
    (exists pre todo, nt_deltas nt = pre ++ todo /\ s_serial o < s_serial s /\
       map nd_serial todo = zseq (s_serial o + 1) (Z.to_nat (s_serial s - s_serial o)) /\ applied (s_id s) todo w w') \/
    (exists w1, handle_snapshot s snap w1 = (w', Ret tt)).
  Proof.
    intros NS SN EA ID SE H. unfold rrdp_changed in H. rewrite NS, SN in H.
    assert (path_eqb (s_id o) (s_id s) = true) as Q by (apply path_eqb_true; auto). rewrite Q in H. cbn [negb] in H.
    destruct (s_serial o =? s_serial s) eqn:Q2; [lia|]. cbn [negb] in H.
    destruct (handle_deltas_cases J repository tal http_enabled sha256 xml base64 E notif s (nt_deltas nt) (s_serial o) EA) as [BAD GOOD].
    destruct (handle_deltas J repository tal http_enabled sha256 xml base64 E notif s (nt_deltas nt) (s_serial o) w) as [w1 r] eqn:HD.
    destruct r as [[]|e| |]; try discriminate.
    - inversion H; subst. left.
      assert (C : (nt_deltas nt = [] \/ s_serial s - s_serial o < 0 \/ 64 < s_serial s - s_serial o \/ Z.of_nat (length (nt_deltas nt)) < s_serial s - s_serial o)
        \/ (0 <= s_serial s - s_serial o <= 64 /\ nt_deltas nt <> [] /\ s_serial s - s_serial o <= Z.of_nat (length (nt_deltas nt)))).
      { destruct (nt_deltas nt); [auto|]. destruct (Z_lt_dec (s_serial s - s_serial o) 0); [auto|]. destruct (Z_lt_dec 64 (s_serial s - s_serial o)); [auto|].
        destruct (Z_lt_dec (Z.of_nat (length (n :: l))) (s_serial s - s_serial o)); [auto|]. right. repeat split; try lia. discriminate. }
      destruct C as [C|(C1 & C2 & C3)].
      + destruct (BAD C) as (e & B). rewrite B in HD. discriminate.
      + destruct (GOOD C1 C2 C3) as (pre & todo & SP & SER & G). rewrite G in HD. apply deltas_loop_iff in HD.
        exists pre, todo. repeat split; auto. lia.
    - right. eauto.
  Qed.
  (** When they are all there (and at most 64) and succeed, there's no snapshot. *)
  Theorem C31_prefers_deltas nt s snap o pre todo w w' : nt_session nt = Some s -> nt_snapshot nt = Some snap -> ends_at (s_serial s) (nt_deltas nt) ->
    s_id o = s_id s -> s_serial o < s_serial s <= s_serial o + 64 ->
    nt_deltas nt = pre ++ todo -> map nd_serial todo = zseq (s_serial o + 1) (Z.to_nat (s_serial s - s_serial o)) -> applied (s_id s) todo w w' ->
    changed (Some o) nt w = (w', Ret tt).
  Proof.
    intros NS SN EA ID SE SP SER AP. unfold rrdp_changed. rewrite NS, SN.
    assert (path_eqb (s_id o) (s_id s) = true) as Q by (apply path_eqb_true; auto). rewrite Q. cbn [negb].
    destruct (s_serial o =? s_serial s) eqn:Q2; [lia|]. cbn [negb].
    assert (LT : length todo = Z.to_nat (s_serial s - s_serial o)) by (rewrite <- (map_length nd_serial), SER; apply zseq_length).
    destruct (handle_deltas_cases J repository tal http_enabled sha256 xml base64 E notif s (nt_deltas nt) (s_serial o) EA) as [_ GOOD].
    destruct GOOD as (pre' & todo' & SP' & SER' & G); try lia.
    { rewrite SP. destruct pre, todo; cbn in *; try discriminate. lia. }
    { rewrite SP, app_length. lia. }
    assert (LT' : length todo' = length todo) by (rewrite LT, <- (map_length nd_serial), SER'; apply zseq_length).
    assert (X : pre' = pre /\ todo' = todo).
    { rewrite SP in SP'. assert (LP : length pre = length pre') by (apply (f_equal (@length _)) in SP'; rewrite !app_length in SP'; lia).
      clear -SP' LP. revert pre' SP' LP. induction pre as [|x pre IH]; intros [|y pre'] E L; cbn in *; try discriminate; auto.
      inversion E; subst. destruct (IH pre'); auto. subst. auto. }
    destruct X; subst. rewrite G. apply deltas_loop_iff in AP. rewrite AP. reflexivity.
  Qed.
  (** Too old, too new or missing deltas: the snapshot, from the files as they
      were. *)
  Theorem C31_gap nt s snap o w : nt_session nt = Some s -> nt_snapshot nt = Some snap -> ends_at (s_serial s) (nt_deltas nt) ->
    s_id o = s_id s -> s_serial o <> s_serial s ->
    nt_deltas nt = [] \/ s_serial s < s_serial o \/ s_serial s > s_serial o + 64 \/
      s_serial o + 1 < s_serial s - Z.of_nat (length (nt_deltas nt)) + 1 ->
    changed (Some o) nt w = handle_snapshot s snap w.
  Proof.
    intros NS SN EA ID SE C. unfold rrdp_changed. rewrite NS, SN.
    assert (path_eqb (s_id o) (s_id s) = true) as Q by (apply path_eqb_true; auto). rewrite Q. cbn [negb].
    destruct (s_serial o =? s_serial s) eqn:Q2; [lia|]. cbn [negb].
    destruct (handle_deltas_cases J repository tal http_enabled sha256 xml base64 E notif s (nt_deltas nt) (s_serial o) EA) as [BAD _].
    destruct BAD as (e & B); [destruct C as [C|C]; [auto|right; lia]|]. rewrite B. reflexivity.
  Qed.
  (** No cached notification or another session: the snapshot. *)
  Theorem C31_new_session nt s snap old w : nt_session nt = Some s -> nt_snapshot nt = Some snap ->
    (forall o, old = Some o -> s_id o <> s_id s) -> changed old nt w = handle_snapshot s snap w.
  Proof.
    intros NS SN D. unfold rrdp_changed. rewrite NS, SN. destruct old as [o|]; auto.
    assert (path_eqb (s_id o) (s_id s) = false) as -> by (apply path_eqb_false; auto). reflexivity.
  Qed.
  (** A delta fails (those before it, [done], were applied): the snapshot. *)
  Theorem C31_fallback nt s snap o pre done d rest w w1 w2 e : nt_session nt = Some s -> nt_snapshot nt = Some snap -> ends_at (s_serial s) (nt_deltas nt) ->
    s_id o = s_id s -> s_serial o < s_serial s <= s_serial o + 64 ->
    nt_deltas nt = pre ++ (done ++ d :: rest) -> map nd_serial (done ++ d :: rest) = zseq (s_serial o + 1) (Z.to_nat (s_serial s - s_serial o)) ->
    applied (s_id s) done w w1 -> handle_delta J repository tal http_enabled sha256 xml base64 E notif (s_id s) d w1 = (w2, Fail e) ->
    changed (Some o) nt w = handle_snapshot s snap w2.
  Proof.
    intros NS SN EA ID SE SP SER AP HD. unfold rrdp_changed. rewrite NS, SN.
    assert (path_eqb (s_id o) (s_id s) = true) as Q by (apply path_eqb_true; auto). rewrite Q. cbn [negb].
    destruct (s_serial o =? s_serial s) eqn:Q2; [lia|]. cbn [negb].
    assert (LT : length (done ++ d :: rest) = Z.to_nat (s_serial s - s_serial o)) by (rewrite <- (map_length nd_serial), SER; apply zseq_length).
    destruct (handle_deltas_cases J repository tal http_enabled sha256 xml base64 E notif s (nt_deltas nt) (s_serial o) EA) as [_ GOOD].
    destruct GOOD as (pre' & todo' & SP' & SER' & G); try lia.
    { rewrite SP. destruct pre; destruct done; discriminate. }
    { rewrite SP, app_length. lia. }
    assert (LT' : length todo' = length (done ++ d :: rest)) by (rewrite LT, <- (map_length nd_serial), SER'; apply zseq_length).
    assert (X : todo' = done ++ d :: rest).
    { rewrite SP in SP'. assert (LP : length pre = length pre') by (apply (f_equal (@length _)) in SP'; rewrite !(app_length _ todo'), !(app_length pre) in SP'; lia).
      clear -SP' LP. revert pre' SP' LP. induction pre as [|x pre IH]; intros [|y pre'] E L; cbn in *; try discriminate; auto.
      inversion E; subst. eapply IH; eauto. }
    subst. rewrite G. clear G SP' SER' LT LT' SP SER. apply deltas_loop_iff in AP.
    assert (L : deltas_loop J repository tal http_enabled sha256 xml base64 E notif (s_id s) (done ++ d :: rest) w = (w2, Fail e)).
    { revert w AP. induction done as [|x l IH]; intros w AP; cbn [app deltas_loop] in *.
      - inversion AP; subst. unfold andthen. rewrite HD. reflexivity.
      - apply andthen_inv in AP. destruct AP as ([] & w3 & A & B). unfold andthen. rewrite A. apply IH. auto. }
    rewrite L. reflexivity.
  Qed.
End C31.

(** ** C33: what a delta or a snapshot does. *)
Lemma says_fun base64 tag s wh nodes l : tag <> cstr "publish" -> tag <> cstr "withdraw" -> says base64 tag s wh nodes l -> forall l', says base64 tag s wh nodes l' -> l = l'.
Proof.
  intros T1 T2.
  assert (RP : forall n t u c, root_of n tag s -> publish_of base64 n t u c -> False).
  { intros n t u c (_ & N & _) (_ & N' & _). congruence. }
  induction 1 as [|n ns l NV T SY IH|n ns l NV RO SY IH|n t ns l u c NV PB HS SY IH
      |n t ns l u c x h NV PB WH AH HB LH SY IH|n ns l u x h NV WH T NM AU AH HB LH SY IH]; intros l' H';
    inversion H' as [|n' ns' l'' NV' T' SY'|n' ns' l'' NV' RO' SY'|n' t' ns' l'' u' c' NV' PB' HS' SY'
      |n' t' ns' l'' u' c' x' h' NV' PB' WH' AH' HB' LH' SY'|n' ns' l'' u' x' h' NV' WH' T' NM' AU' AH' HB' LH' SY']; subst; auto;
    try (exfalso; unfold root_of, publish_of in *; intuition congruence).
  - destruct PB as (_ & _ & A & text & V & B), PB' as (_ & _ & A' & text' & V' & B'). rewrite (IH _ SY').
    assert (u = u') by congruence. assert (c = c') by congruence. congruence.
  - destruct PB as (_ & _ & A & text & V & B), PB' as (_ & _ & A' & text' & V' & B'). rewrite (IH _ SY').
    assert (x = x') by congruence. subst x'. rewrite (hex_bytes_fun _ _ HB _ HB').
    assert (u = u') by congruence. assert (c = c') by congruence. congruence.
  - exfalso. destruct PB as (_ & N & _). rewrite N in NM'. discriminate.
  - exfalso. destruct PB' as (_ & N & _). rewrite N in NM. discriminate.
  - rewrite (IH _ SY'). assert (x = x') by congruence. subst x'. rewrite (hex_bytes_fun _ _ HB _ HB').
    assert (u = u') by congruence. congruence.
Qed.

Section C33.
  Variable J : Z.
  Variable repository : list Z.
  Variable tal : option (list Z).
  Variable http_enabled : bool.
  Variable sha256 : list Z -> list Z.
  Variable xml : list Z -> xdoc.
  Variable base64 : list Z -> option (list Z).
  Variable E : env.
  Variable notif : list Z.
  Notation stored := (stored J repository tal notif).
  Notation parse_delta := (parse_delta J repository tal sha256 xml base64 E notif).
  Notation parse_snapshot := (parse_snapshot J repository tal sha256 xml base64 E notif).

  (** If applying a delta succeeds, its file has the announced hash, it belongs to
      the session and serial, and its elements had the effect they should. *)
  Theorem C33_delta_partial id d w w' : no_trunc E -> m_hash (nd_meta d) <> None -> parse_delta id d w = (w', Ret tt) ->
    exists b l, w_files w (u_local (m_uri (nd_meta d))) = Some b /\ m_hash (nd_meta d) = Some (sha256 b) /\
      says base64 (cstr "delta") {| s_id := id; s_serial := nd_serial d |} true (d_nodes (xml b)) l /\
      effect stored sha256 (w_files w) l (w_files w').
  Proof.
    intros NT MH H. unfold Rrdp.parse_delta in H. apply andthen_inv in H. destruct H as ([] & w1 & H1 & H2).
    unfold validate_hash in H1. destruct (m_hash (nd_meta d)) as [h|] eqn:MHE; [|congruence].
    apply hash_inv in H1. destruct H1 as (F1 & _ & b & FB & SB).
    change (xml_read_delta J repository tal sha256 base64 E notif) with (cb J repository tal sha256 base64 E notif true) in H2.
    apply parse_inv in H2; auto. destruct H2 as (b' & l & FB' & SY & EF). rewrite F1 in *. rewrite FB in FB'. inversion FB'; subst.
    exists b', l. auto.
  Qed.
  (** The other way, when the file system cooperates. *)
  Theorem C33_delta_accepted id d b l fs' w : calm E ->
    w_files w (u_local (m_uri (nd_meta d))) = Some b -> m_hash (nd_meta d) = Some (sha256 b) -> d_ok (xml b) = true ->
    says base64 (cstr "delta") {| s_id := id; s_serial := nd_serial d |} true (d_nodes (xml b)) l ->
    effect stored sha256 (w_files w) l fs' ->
    exists w', parse_delta id d w = (w', Ret tt) /\ same_files fs' (w_files w').
  Proof.
    intros C FB MH OK SY EF. unfold Rrdp.parse_delta, validate_hash, andthen at 1, hash_validate_file, sysop. rewrite MH, FB.
    destruct (C (w_ops w)) as (D & _ & _ & R & _). rewrite D, R. cbn [negb].
    assert (path_eqb (sha256 b) (sha256 b) = true) as -> by (apply path_eqb_true; auto).
    unfold relax_ng_parse, andthen, sysop. cbn [w_ops w_files w_attempts]. rewrite FB.
    destruct (C (S (w_ops w))) as (D' & _ & _ & R' & _). rewrite D', R', OK.
    change (xml_read_delta J repository tal sha256 base64 E notif) with (cb J repository tal sha256 base64 E notif true).
    eapply (loop_complete J repository tal sha256 xml base64 E notif true); eauto. intros p. reflexivity.
  Qed.
  (** A delta with an element whose hash doesn't match fails. *)
  Theorem C33_delta_rejected id d b l w w' : no_trunc E -> m_hash (nd_meta d) <> None ->
    w_files w (u_local (m_uri (nd_meta d))) = Some b ->
    says base64 (cstr "delta") {| s_id := id; s_serial := nd_serial d |} true (d_nodes (xml b)) l ->
    (forall fs', ~ effect stored sha256 (w_files w) l fs') ->
    parse_delta id d w <> (w', Ret tt).
  Proof.
    intros NT MH FB SY NE H. apply C33_delta_partial in H; auto. destruct H as (b' & l' & FB' & _ & SY' & EF).
    rewrite FB in FB'. inversion FB'; subst b'. assert (l = l') by (eapply says_fun; eauto; discriminate). subst. eapply NE; eauto.
  Qed.
  Theorem C33_snapshot s snap w w' : no_trunc E -> m_hash snap <> None -> parse_snapshot s snap w = (w', Ret tt) ->
    exists b l, w_files w (u_local (m_uri snap)) = Some b /\ m_hash snap = Some (sha256 b) /\
      says base64 (cstr "snapshot") s false (d_nodes (xml b)) l /\
      effect stored sha256 (w_files w) l (w_files w').
  Proof.
    intros NT MH H. unfold Rrdp.parse_snapshot in H. apply andthen_inv in H. destruct H as ([] & w1 & H1 & H2).
    unfold validate_hash in H1. destruct (m_hash snap) as [h|] eqn:MHE; [|congruence].
    apply hash_inv in H1. destruct H1 as (F1 & _ & b & FB & SB).
    change (xml_read_snapshot J repository tal sha256 base64 E notif) with (cb J repository tal sha256 base64 E notif false) in H2.
    apply parse_inv in H2; auto. destruct H2 as (b' & l & FB' & SY & EF). rewrite F1 in *. rewrite FB in FB'. inversion FB'; subst.
    exists b', l. auto.
  Qed.
  (** But a delta may replace any file without naming the hash of what it
      replaces (RFC 8182 3.3.2 demands the hash then). *)
  Theorem C33_blind_replace_refuted id d b u p old c w : calm E ->
    w_files w (u_local (m_uri (nd_meta d))) = Some b -> m_hash (nd_meta d) = Some (sha256 b) -> d_ok (xml b) = true ->
    says base64 (cstr "delta") {| s_id := id; s_serial := nd_serial d |} true (d_nodes (xml b)) [Publish u None c] ->
    stored u p -> w_files w p = Some old ->
    exists w', parse_delta id d w = (w', Ret tt) /\ w_files w' p = Some c.
  Proof.
    intros C FB MH OK SY ST FO.
    destruct (C33_delta_accepted id d b [Publish u None c] (set_file p (Some c) (w_files w)) w C FB MH OK SY) as (w' & H & S).
    { eapply ef_publish; [exact ST|apply set_file_put|]. constructor. intros q. reflexivity. }
    exists w'. split; auto. rewrite <- S. apply set_file_put.
  Qed.
End C33.

(** ** C34: the files after an update. *)
Section C34.
  Variable J : Z.
  Variable repository : list Z.
  Variable tal : option (list Z).
  Variable http_enabled : bool.
  Variable sha256 : list Z -> list Z.
  Variable xml : list Z -> xdoc.
  Variable base64 : list Z -> option (list Z).
  Variable E : env.
  Variable state : list Z -> Z -> files.
  Variable notif : rpki_uri.
  Variable ws : list Z.
  Notation stored := (stored J repository tal (u_global notif)).
  Notation read := (read_notification J repository tal xml).
  Notation update := (rrdp_update J repository tal http_enabled sha256 xml base64 E).

  (** The files below [ws] are the server's at the session and serial of the
      cached notification, if there's one. *)
  Definition in_sync (fs : files) : Prop :=
    forall c, fs (u_local notif) = Some c ->
      exists nt s, read c = Ok nt /\ nt_session nt = Some s /\
        forall p, at_or_below ws p = true -> fs p = state (s_id s) (s_serial s) p.

  (** Suppose the server only serves honest notifications, the schema is enforced,
      no write is silently truncated and deletions work.  An update that starts
      in sync (in particular: without cached notification, whatever the other
      files are) and succeeds ends in sync, with the notification just served if
      there was a new one.  Missing: the update may start out of sync, after a
      failed or interrupted one; see below. *)
  Theorem C34_sync_partial w w' :
    conf_ok repository tal (Some (u_global notif)) ->
    uri_create J repository tal UT_HTTPS None (u_global notif) = Ok notif ->
    bind (get_rrdp_workspace J repository tal (u_global notif)) pb_string = Ok ws ->
    (forall c, follows_schema (xml c)) -> no_trunc E -> (forall n p, e_rm E n p = true) ->
    (forall n b nt, e_http E n = HBody b -> read b = Ok nt -> honest stored sha256 xml base64 state (u_local notif) nt) ->
    in_sync (w_files w) -> update notif w = (w', Ret tt) ->
    in_sync (w_files w') /\
    (w_files w' = w_files w \/ exists n b, e_http E n = HBody b /\ w_files w' (u_local notif) = Some b).
  Proof.
    intros CONF UC WS SCH NT RM HON SYNC H.
    assert (PR : printable (u_global notif)) by (apply uri_create_inv in UC; tauto).
    assert (OUT : at_or_below ws (u_local notif) = false) by (eapply https_outside; eauto).
    unfold rrdp_update in H. apply andthen_inv in H. destruct H as (old & w1 & H1 & H).
    assert (OLD : w_files w1 = w_files w /\ match old with
      | None => True
      | Some o => exists c nt, w_files w (u_local notif) = Some c /\ read c = Ok nt /\ nt_session nt = Some o end).
    { unfold get_metadata in H1. apply andthen_inv in H1. destruct H1 as (there & w0 & T & H1). apply sysop_inv in T. destruct T as (T & _).
      inversion T as [[TF TT]]. destruct (w_files w (u_local notif)) as [c|] eqn:FC; subst there.
      - apply andthen_inv in H1. destruct H1 as (nt & w2 & P & R). apply ret_inv in R. destruct R as [-> <-].
        unfold parse_notification in P. apply andthen_inv in P. destruct P as (c' & w3 & P1 & P2). apply pure_inv in P2. destruct P2 as [-> P2].
        apply sysop_inv in P1. destruct P1 as (P1 & _). rewrite <- TF, FC in P1. destruct (e_read E (w_ops w0)); [|discriminate]. inversion P1; subst.
        split; [congruence|]. destruct (nt_session nt) eqn:NS; auto. exists c', nt. auto.
      - apply ret_inv in H1. destruct H1 as [-> <-]. split; [congruence|exact I]. }
    destruct OLD as [F1 OLD].
    apply andthen_inv in H. destruct H as (ch & w2 & H2 & H). apply download_inv in H2. destruct H2 as (K2 & SAME & NEW). destruct ch.
    2:{ cbn [negb] in H. apply ret_inv in H. destruct H as [-> _]. rewrite SAME, F1 by auto. split; auto. }
    cbn [negb] in H. destruct (NEW eq_refl) as (n & b & HB & F2). clear SAME NEW.
    apply andthen_inv in H. destruct H as (nt & w3 & P & H).
    unfold parse_notification in P. apply andthen_inv in P. destruct P as (c' & w4 & P1 & P2). apply pure_inv in P2. destruct P2 as [-> P2].
    apply sysop_inv in P1. destruct P1 as (P1 & _). rewrite F2 in P1. destruct (e_read E (w_ops w2)); [|discriminate]. inversion P1 as [[F4 F4']]; subst c'. clear P1.
    destruct (read_ok J repository tal xml b nt (SCH b) P2) as (s & snap & ds & NS & SN & [OKS OKD] & _ & _ & EA).
    destruct (HON n b nt HB P2 s snap NS SN) as (NE & HSNAP & HDEL).
    assert (FIN : forall wf, current ws state s (w_files wf) -> w_files wf (u_local notif) = Some b ->
      in_sync (w_files wf) /\ (w_files wf = w_files w \/ exists n b, e_http E n = HBody b /\ w_files wf (u_local notif) = Some b)).
    { intros wf C K. split; [|right; eauto]. intros c Q. rewrite K in Q. inversion Q; subst c. exists nt, s. auto. }
    assert (SNAP : forall wa wb, w_files wa (u_local notif) = Some b ->
      handle_snapshot J repository tal http_enabled sha256 xml base64 E (u_global notif) s snap wa = (wb, Ret tt) ->
      in_sync (w_files wb) /\ (w_files wb = w_files w \/ exists n b, e_http E n = HBody b /\ w_files wb (u_local notif) = Some b)).
    { intros wa wb K HS.
      destruct (snapshot_sync J repository tal http_enabled sha256 xml base64 E (u_global notif) ws CONF WS PR NT RM state s snap (u_local notif) wa wb) as [C K']; auto.
      apply FIN; auto. congruence. }
    assert (K4 : w_files w4 (u_local notif) = Some b) by congruence.
    pose proof H as HC. unfold rrdp_changed in H. rewrite NS, SN in H. destruct old as [o|]; [|eapply SNAP; eauto].
    destruct OLD as (c0 & nt0 & FC & R0 & S0).
    destruct (SYNC c0 FC) as (nt0' & o' & R0' & S0' & CUR). rewrite R0 in R0'. inversion R0'; subst nt0'. rewrite S0 in S0'. inversion S0'; subst o'. clear R0' S0'.
    assert (CUR2 : forall p, at_or_below ws p = true -> w_files w4 p = state (s_id o) (s_serial o) p).
    { intros p Q. rewrite <- F4. rewrite K2 by (intros ->; congruence). rewrite F1. auto. }
    destruct (path_eqb (s_id o) (s_id s)) eqn:QI; cbn [negb] in H; [|eapply SNAP; eauto]. apply path_eqb_true in QI.
    destruct (s_serial o =? s_serial s) eqn:QS; cbn [negb] in H.
    - apply ret_inv in H. destruct H as [-> _]. apply FIN; auto. intros p Q. rewrite CUR2 by auto. f_equal; [auto|lia].
    - assert (AP : (exists pre todo, nt_deltas nt = pre ++ todo /\ s_serial o < s_serial s /\
         map nd_serial todo = zseq (s_serial o + 1) (Z.to_nat (s_serial s - s_serial o)) /\
         applied J repository tal http_enabled sha256 xml base64 E (u_global notif) (s_id s) todo w4 w') \/
         (exists wa, w_files wa (u_local notif) = Some b /\ handle_snapshot J repository tal http_enabled sha256 xml base64 E (u_global notif) s snap wa = (w', Ret tt))).
      { destruct (handle_deltas J repository tal http_enabled sha256 xml base64 E (u_global notif) s (nt_deltas nt) (s_serial o) w4) as [wa r] eqn:HD.
        destruct r as [[]|e| |]; try discriminate.
        - inversion H; subst wa. left. destruct (handle_deltas_cases J repository tal http_enabled sha256 xml base64 E (u_global notif) s (nt_deltas nt) (s_serial o) EA) as [BAD GOOD].
          assert (C : (nt_deltas nt = [] \/ s_serial s - s_serial o < 0 \/ 64 < s_serial s - s_serial o \/ Z.of_nat (length (nt_deltas nt)) < s_serial s - s_serial o)
            \/ (0 <= s_serial s - s_serial o <= 64 /\ nt_deltas nt <> [] /\ s_serial s - s_serial o <= Z.of_nat (length (nt_deltas nt)))).
          { destruct (nt_deltas nt); [auto|]. destruct (Z_lt_dec (s_serial s - s_serial o) 0); [auto|]. destruct (Z_lt_dec 64 (s_serial s - s_serial o)); [auto|].
            destruct (Z_lt_dec (Z.of_nat (length (n0 :: l))) (s_serial s - s_serial o)); [auto|]. right. repeat split; try lia. discriminate. }
          destruct C as [C|(C1 & C2 & C3)].
          + destruct (BAD C) as (e & B). rewrite B in HD. discriminate.
          + destruct (GOOD C1 C2 C3) as (pre & todo & SP & SER & G). rewrite G in HD. apply deltas_loop_iff in HD. exists pre, todo. repeat split; auto. lia.
        - right. exists wa. split; auto.
          rewrite <- K4.
          apply (handle_deltas_keeps J repository tal http_enabled sha256 xml base64 E (u_global notif) ws CONF WS PR s (nt_deltas nt) (s_serial o) (u_local notif) w4 wa (Fail e)); auto.
          apply Forall_forall. intros d I. apply HDEL. auto. }
      destruct AP as [(pre & todo & SP & LT & SER & AP)|(wa & KA & HS)]; [|eapply SNAP; eauto].
      assert (LT' : length todo = Z.to_nat (s_serial s - s_serial o)) by (rewrite <- (map_length nd_serial), SER; apply zseq_length).
      destruct (deltas_sync J repository tal http_enabled sha256 xml base64 E (u_global notif) ws CONF WS PR NT RM state (s_id s) (u_local notif) todo (s_serial o) w4 w') as [C K]; auto.
      + apply Forall_forall. intros d I. assert (ID : In d (nt_deltas nt)) by (rewrite SP; apply in_app_iff; auto).
        destruct (HDEL d ID). rewrite Forall_forall in OKD. auto.
      + rewrite LT'. auto.
      + intros p Q. rewrite CUR2 by auto. cbn [s_id s_serial]. congruence.
      + apply FIN; [|congruence]. intros p Q. rewrite C by auto. cbn [s_id s_serial]. f_equal. lia.
  Qed.
End C34.

(** ** Concrete cases.  A server with one object: serial 1 has it with content
    [65], serial 2 with content [66].  Hashes of one-byte files are that byte 32
    times; notifications are the files [1] and [2], the snapshots [17] and [34],
    the delta [51]. *)
Definition toy_sha (b : list Z) : list Z := match b with [x] => repeat x 32 | _ => repeat 255 32 end.
Definition toy_el (t : node_type) (name : list Z) (attrs : list (list Z * list Z)) : node :=
  {| n_type := t; n_name := name; n_ns := RRDP_NAMESPACE; n_attrs := attrs; n_value := None; n_valid := true |}.
Definition toy_text (c : Z) : node :=
  {| n_type := NOther; n_name := cstr "#text"; n_ns := []; n_attrs := []; n_value := Some [c]; n_valid := true |}.
Definition toy_root (name : list Z) (serial : Z) : node :=
  toy_el NElement name [(cstr "version", cstr "1"); (cstr "session_id", cstr "a"); (cstr "serial", [48 + serial])].
Definition toy_obj : list Z := cstr "rsync://h/m/x.cer".
Definition toy_publish (hash : list (list Z * list Z)) (c : Z) : list node :=
  [toy_el NElement (cstr "publish") ((cstr "uri", toy_obj) :: hash); toy_text c; toy_el NEndElement (cstr "publish") []].
Definition toy_ref (tag u : list Z) (x : Z) (extra : list (list Z * list Z)) : node :=
  toy_el NElement tag ((cstr "uri", u) :: (cstr "hash", repeat x 64) :: extra).
Definition toy_doc (nodes : list node) : xdoc := {| d_nodes := nodes; d_ok := true |}.
Definition toy_bad : xdoc := {| d_nodes := []; d_ok := false |}.
Definition toy_docs : list (Z * xdoc) :=
  [(1, toy_doc [toy_root (cstr "notification") 1; toy_ref (cstr "snapshot") (cstr "https://h/s1") 49 [];
                toy_el NEndElement (cstr "notification") []]);
   (2, toy_doc [toy_root (cstr "notification") 2; toy_ref (cstr "snapshot") (cstr "https://h/s2") 50 [];
                toy_ref (cstr "delta") (cstr "https://h/d2") 51 [(cstr "serial", cstr "2")];
                toy_el NEndElement (cstr "notification") []]);
   (17, toy_doc (toy_root (cstr "snapshot") 1 :: toy_publish [] 65 ++ [toy_el NEndElement (cstr "snapshot") []]));
   (34, toy_doc (toy_root (cstr "snapshot") 2 :: toy_publish [] 66 ++ [toy_el NEndElement (cstr "snapshot") []]));
   (51, toy_doc (toy_root (cstr "delta") 2 :: toy_publish [(cstr "hash", concat (repeat (cstr "41") 32))] 66 ++ [toy_el NEndElement (cstr "delta") []]))].
Definition toy_xml (b : list Z) : xdoc :=
  match find (fun e => path_eqb b [fst e]) toy_docs with Some e => snd e | None => toy_bad end.
Definition toy_b64 (s : list Z) : option (list Z) := Some s.
Definition toy_notif : rpki_uri := {| u_global := cstr "https://h/n"; u_local := cstr "/var/cache/fort/lacnic/https/h/n"; u_type := UT_HTTPS |}.
Definition toy_path : list Z := cstr "/var/cache/fort/lacnic/rrdp/h/n/h/m/x.cer".
Definition toy_state (id : list Z) (n : Z) : files := set_file toy_path (Some [64 + n]) (fun _ => None).
(** Answers, by operation; everything else works. *)
Definition toy_env (answers : list http) (dies : nat -> bool) : env :=
  {| e_dies := dies; e_http := fun n => nth n answers HErr; e_write := fun _ => WrOk; e_del := fun _ => DelOk;
     e_rm := fun _ _ => true; e_read := fun _ => true |}.
Definition toy_update (E : env) (w : world) : world * out unit := rrdp_update 7 ex_repo ex_tal true toy_sha toy_xml toy_b64 E toy_notif w.
Definition toy_start (fs : files) : world := {| w_files := fs; w_attempts := []; w_ops := 0 |}.
Definition toy_E1 : env := toy_env [HErr; HBody [1]; HErr; HErr; HBody [17]] (fun _ => false).
Definition toy_E2 : env := toy_env [HErr; HErr; HBody [2]; HErr; HBody [51]] (fun _ => false).

Example C31_nonvacuous :
  let d n := {| nd_serial := n; nd_meta := {| m_uri := toy_notif; m_hash := None |} |} in
  sort_deltas 5 [d 5; d 3; d 4] = Ok [d 3; d 4; d 5] /\ sort_deltas 5 [d 5; d 2; d 4] = Err EINVAL /\
  sort_deltas 5 [d 5; d 5; d 4] = Err EINVAL /\ sort_deltas 6 [d 5; d 3; d 4] = Err EINVAL.
Proof. vm_compute. auto. Qed.
Example toy_run1 : snd (toy_update toy_E1 (toy_start (fun _ => None))) = Ret tt /\
  w_files (fst (toy_update toy_E1 (toy_start (fun _ => None)))) toy_path = Some [65].
Proof. vm_compute. auto. Qed.
Example toy_run2 : let fs := w_files (fst (toy_update toy_E1 (toy_start (fun _ => None)))) in
  snd (toy_update toy_E2 (toy_start fs)) = Ret tt /\
  w_files (fst (toy_update toy_E2 (toy_start fs))) toy_path = Some [66] /\
  w_attempts (fst (toy_update toy_E2 (toy_start fs))) = [(cstr "/var/cache/fort/lacnic/https/h/d2", None); (u_local toy_notif, None)].
Proof. vm_compute. auto. Qed.

Lemma toy_schema c : follows_schema (toy_xml c).
Proof.
  unfold toy_xml, toy_docs, find, fst.
  assert (B : follows_schema toy_bad) by (split; [cbv; discriminate|discriminate]).
  repeat match goal with |- context [if path_eqb c ?x then _ else _] => destruct (path_eqb c x) end; auto;
    (split; [vm_compute; discriminate|]); intros _ _; [left|left|right|right|right].
  - exists [], (toy_root (cstr "notification") 1), [toy_ref (cstr "snapshot") (cstr "https://h/s1") 49 []], (toy_el NEndElement (cstr "notification") []), [].
    repeat split; auto. constructor; auto.
  - exists [], (toy_root (cstr "notification") 2), [toy_ref (cstr "snapshot") (cstr "https://h/s2") 50 []; toy_ref (cstr "delta") (cstr "https://h/d2") 51 [(cstr "serial", cstr "2")]],
      (toy_el NEndElement (cstr "notification") []), [].
    repeat split; auto. constructor; auto.
  - eexists [], _, _. repeat split; auto.
  - eexists [], _, _. repeat split; auto.
  - eexists [], _, _. repeat split; auto.
Qed.
Definition toy_stored := stored 7 ex_repo ex_tal (u_global toy_notif).
Lemma toy_stored_path p : toy_stored toy_obj p -> p = toy_path.
Proof. intros (x & H & <-). assert (E : uri_create 7 ex_repo ex_tal UT_CAGED (Some (u_global toy_notif)) toy_obj = Ok {| u_global := toy_obj; u_local := toy_path; u_type := UT_CAGED |}) by (vm_compute; reflexivity). rewrite E in H. injection H as <-. reflexivity. Qed.
Lemma toy_says_snap b serial c : In (b, serial, c) [(17, 1, 65); (34, 2, 66)] ->
  says toy_b64 (cstr "snapshot") {| s_id := cstr "a"; s_serial := serial |} false (d_nodes (toy_xml [b])) [Publish toy_obj None [c]].
Proof.
  intros [H|[H|[]]]; inversion H; subst; vm_compute toy_xml; cbn [d_nodes];
    (apply sy_root; [reflexivity|vm_compute; auto|]); (apply sy_publish; [reflexivity|vm_compute; eauto 10|left; reflexivity|]);
    repeat (apply sy_skip; [reflexivity|discriminate|]); apply sy_nil.
Qed.
Lemma toy_says_delta :
  says toy_b64 (cstr "delta") {| s_id := cstr "a"; s_serial := 2 |} true (d_nodes (toy_xml [51])) [Publish toy_obj (Some (repeat 65 32)) [66]].
Proof.
  vm_compute toy_xml; cbn [d_nodes]. apply sy_root; [reflexivity|vm_compute; auto|].
  eapply sy_replace; [reflexivity|vm_compute; eauto 10|reflexivity|reflexivity| |reflexivity|].
  - vm_compute. repeat (apply (hb_cons 52 49 4 1); [left; lia|left; lia|]). apply hb_nil.
  - repeat (apply sy_skip; [reflexivity|discriminate|]); apply sy_nil.
Qed.
Lemma toy_t1 : cstr "snapshot" <> cstr "publish". Proof. discriminate. Qed.
Lemma toy_t2 : cstr "snapshot" <> cstr "withdraw". Proof. discriminate. Qed.
Lemma toy_t3 : cstr "delta" <> cstr "publish". Proof. discriminate. Qed.
Lemma toy_t4 : cstr "delta" <> cstr "withdraw". Proof. discriminate. Qed.
Lemma toy_sha_inv h b : Some (repeat h 32) = Some (toy_sha b) -> h <> 255 -> b = [h].
Proof. intros H N. inversion H as [X]. destruct b as [|x [|]]; cbn in X; inversion X; try congruence. Qed.
Lemma toy_honest1 b nt : In b [[1]; [2]] -> read_notification 7 ex_repo ex_tal toy_xml b = Ok nt ->
  honest toy_stored toy_sha toy_xml toy_b64 toy_state (u_local toy_notif) nt.
Proof.
  intros I H s snap NS SN.
  assert (SNAP : forall x serial c b l fs', In (x, serial, c) [(17, 1, 65); (34, 2, 66)] -> Some (repeat x 32) = Some (toy_sha b) ->
     says toy_b64 (cstr "snapshot") {| s_id := cstr "a"; s_serial := serial |} false (d_nodes (toy_xml b)) l ->
     effect toy_stored toy_sha (fun _ => None) l fs' -> same_files fs' (toy_state (cstr "a") serial)).
  { intros x serial c b0 l fs' I' HB SY EF. apply toy_sha_inv in HB; [|destruct I' as [I'|[I'|[]]]; inversion I'; subst; discriminate]. subst b0.
    pose proof (says_fun _ _ _ _ _ _ toy_t1 toy_t2 SY _ (toy_says_snap _ _ _ I')); subst l.
    inversion EF as [|? ? p ? fs1 ? ? LO PU EF'| |]; subst. inversion EF' as [? ? SF| | |]; subst. apply toy_stored_path in LO. subst p.
    intros q. rewrite <- SF. destruct PU as [P1 P2]. unfold toy_state, set_file. destruct (path_eqb q toy_path) eqn:Q.
    - apply path_eqb_true in Q. subst q. rewrite P1. destruct I' as [I'|[I'|[]]]; inversion I'; reflexivity.
    - apply path_eqb_false in Q. auto. }
  destruct I as [<-|[<-|[]]]; vm_compute in H; inversion H; subst nt; clear H; cbn [nt_session nt_snapshot nt_deltas] in *;
    inversion NS; subst s; inversion SN; subst snap; clear NS SN; cbn [s_id s_serial].
  - split; [intros Q; vm_compute in Q; discriminate Q|]. split; [|intros d []]. intros b l fs' HB SY EF. apply (SNAP 17 1 65 b l fs'); auto. left; reflexivity.
  - split; [intros Q; vm_compute in Q; discriminate Q|]. split.
    + intros b l fs' HB SY EF. apply (SNAP 34 2 66 b l fs'); auto. right; left; reflexivity.
    + intros d [<-|[]]. split; [intros Q; vm_compute in Q; discriminate Q|]. cbn [nd_meta m_hash nd_serial]. intros b l fs fs' HB SY SF EF.
      change (Some (repeat 51 32) = Some (toy_sha b)) in HB. apply toy_sha_inv in HB; [|discriminate]. subst b.
      pose proof (says_fun _ _ _ _ _ _ toy_t3 toy_t4 SY _ toy_says_delta); subst l.
      inversion EF as [| |? ? p ? ? ? fs1 ? ? LO FO SH PU EF'|]; subst. inversion EF' as [? ? SF'| | |]; subst. apply toy_stored_path in LO. subst p.
      intros q. rewrite <- SF'. destruct PU as [P1 P2]. unfold toy_state, set_file. destruct (path_eqb q toy_path) eqn:Q.
      * apply path_eqb_true in Q. subst q. rewrite P1. reflexivity.
      * apply path_eqb_false in Q. rewrite P2 by auto. rewrite SF. unfold toy_state, set_file. apply path_eqb_false in Q. rewrite Q. reflexivity.
Qed.
(** The hypotheses of [C34_sync_partial] about the environment. *)
Definition toy_wellbehaved (E : env) : Prop :=
  (forall c, follows_schema (toy_xml c)) /\ no_trunc E /\ (forall n p, e_rm E n p = true) /\
  (forall n b nt, e_http E n = HBody b -> read_notification 7 ex_repo ex_tal toy_xml b = Ok nt ->
     honest toy_stored toy_sha toy_xml toy_b64 toy_state (u_local toy_notif) nt).
Lemma toy_wellbehaved_any answers dies : (forall b, In (HBody b) answers -> In b [[1]; [2]; [17]; [51]]) -> toy_wellbehaved (toy_env answers dies).
Proof.
  intros A. split; [apply toy_schema|]. split; [intros n c; discriminate|]. split; [reflexivity|].
  intros n b nt HB R. cbn in HB. destruct (nth_in_or_default n answers HErr) as [I|I]; [|rewrite HB in I; discriminate].
  rewrite HB in I. apply A in I. destruct I as [I|[I|[I|[I|[]]]]]; [| |exfalso; subst b; vm_compute in R; discriminate..].
  - apply (toy_honest1 b); auto. left; auto.
  - apply (toy_honest1 b); auto. right; left; auto.
Qed.
Definition toy_ws : list Z := cstr "/var/cache/fort/lacnic/rrdp/h/n".
Notation toy_sync := (in_sync 7 ex_repo ex_tal toy_xml toy_state toy_notif toy_ws).
Example C34_nonvacuous :
  conf_ok ex_repo ex_tal (Some (u_global toy_notif)) /\
  uri_create 7 ex_repo ex_tal UT_HTTPS None (u_global toy_notif) = Ok toy_notif /\
  bind (get_rrdp_workspace 7 ex_repo ex_tal (u_global toy_notif)) pb_string = Ok toy_ws /\
  toy_wellbehaved toy_E1 /\ toy_wellbehaved toy_E2 /\
  let w1 := fst (toy_update toy_E1 (toy_start (fun _ => None))) in
  toy_sync (fun _ => None) /\ toy_sync (w_files w1) /\ snd (toy_update toy_E2 (toy_start (w_files w1))) = Ret tt.
Proof.
  assert (C : conf_ok ex_repo ex_tal (Some (u_global toy_notif))) by (apply ex_conf; cbn; intuition discriminate).
  assert (U : uri_create 7 ex_repo ex_tal UT_HTTPS None (u_global toy_notif) = Ok toy_notif) by (vm_compute; reflexivity).
  assert (W : bind (get_rrdp_workspace 7 ex_repo ex_tal (u_global toy_notif)) pb_string = Ok toy_ws) by (vm_compute; reflexivity).
  assert (W1 : toy_wellbehaved toy_E1) by (apply toy_wellbehaved_any; intros b I; cbn in I; repeat (destruct I as [I|I]; [solve [inversion I; subst; cbn; auto]|]); destruct I).
  assert (W2 : toy_wellbehaved toy_E2) by (apply toy_wellbehaved_any; intros b I; cbn in I; repeat (destruct I as [I|I]; [solve [inversion I; subst; cbn; auto]|]); destruct I).
  do 5 (split; [assumption|]). intros w1. split; [intros c; discriminate|]. split; [|vm_compute; reflexivity].
  destruct W1 as (A1 & A2 & A3 & A4).
  apply (C34_sync_partial 7 ex_repo ex_tal true toy_sha toy_xml toy_b64 toy_E1 toy_state toy_notif toy_ws (toy_start (fun _ => None)) w1 C U W A1 A2 A3 A4);
    [intros c; discriminate|].
  unfold w1. change (rrdp_update 7 ex_repo ex_tal true toy_sha toy_xml toy_b64 toy_E1 toy_notif (toy_start (fun _ => None))) with (toy_update toy_E1 (toy_start (fun _ => None))).
  destruct (toy_update toy_E1 (toy_start (fun _ => None))) as [wa r] eqn:Q. cbn [fst]. f_equal.
  pose proof toy_run1 as [T _]. rewrite Q in T. exact T.
Qed.
(** The full C34 does not hold: the new notification is in place before the
    files it announces.  If the update then fails (first case) or the process
    dies (second case), the next update finds nothing new, succeeds, and the
    repository stays without its object. *)
Theorem C34_interrupted_refuted : exists E1 E1' E2 w1 w1' w2 w2',
  toy_wellbehaved E1 /\ toy_wellbehaved E1' /\ toy_wellbehaved E2 /\ (forall n, e_dies E1 n = false) /\ (forall n, e_dies E2 n = false) /\
  toy_update E1 (toy_start (fun _ => None)) = (w1, Fail EIO) /\ toy_update E2 (toy_start (w_files w1)) = (w2, Ret tt) /\
  toy_update E1' (toy_start (fun _ => None)) = (w1', Crash) /\ toy_update E2 (toy_start (w_files w1')) = (w2', Ret tt) /\
  toy_state (cstr "a") 1 toy_path = Some [65] /\ w_files w2 toy_path = None /\ w_files w2' toy_path = None /\
  w_files w2 (u_local toy_notif) = Some [1] /\ w_files w2' (u_local toy_notif) = Some [1].
Proof.
  set (E1 := toy_env [HErr; HBody [1]] (fun _ => false)). set (E1' := toy_env [HErr; HBody [1]; HErr; HErr; HBody [17]] (fun n => Nat.eqb n 4)).
  set (E2 := toy_env [HErr; HErr; HSame] (fun _ => false)). set (s0 := toy_start (fun _ => None)).
  assert (P : forall E w r, snd (toy_update E w) = r -> toy_update E w = (fst (toy_update E w), r)).
  { intros E w r <-. apply surjective_pairing. }
  exists E1, E1', E2, (fst (toy_update E1 s0)), (fst (toy_update E1' s0)),
    (fst (toy_update E2 (toy_start (w_files (fst (toy_update E1 s0)))))), (fst (toy_update E2 (toy_start (w_files (fst (toy_update E1' s0)))))).
  do 3 (split; [apply toy_wellbehaved_any; intros b I; cbn in I; repeat (destruct I as [I|I]; [solve [inversion I; subst; cbn; auto]|]); destruct I|]).
  do 2 (split; [reflexivity|]). do 4 (split; [apply P; vm_compute; reflexivity|]). repeat split; vm_compute; reflexivity.
Qed.
(** Worse: once a notification that can't be read is in place (one bad answer of
    the server suffices, see below), no later update succeeds, downloads or
    changes anything, whatever the server and the file system answer. *)
Theorem C34_stuck J repository tal http_enabled sha256 xml base64 E notif w c e :
  w_files w (u_local notif) = Some c -> read_notification J repository tal xml c = Err e ->
  exists w' r, rrdp_update J repository tal http_enabled sha256 xml base64 E notif w = (w', r) /\
    w_files w' = w_files w /\ w_attempts w' = w_attempts w /\ r <> Ret tt /\ (r = Crash -> exists n, e_dies E n = true).
Proof.
  intros F R. unfold rrdp_update, get_metadata, parse_notification, sysop, andthen at 1 2. rewrite F. cbn [fst snd].
  destruct (e_dies E (w_ops w)) eqn:D.
  { do 2 eexists. split; [reflexivity|]. cbn [w_files w_attempts]. repeat split; auto. discriminate. eauto. }
  unfold andthen at 1. unfold andthen at 1. cbn [w_files w_attempts w_ops]. rewrite F.
  destruct (e_dies E (S (w_ops w))) eqn:D2.
  { do 2 eexists. split; [reflexivity|]. cbn [w_files w_attempts]. repeat split; auto. discriminate. eauto. }
  destruct (e_read E (S (w_ops w))).
  - unfold pure. rewrite R. do 2 eexists. split; [reflexivity|]. repeat split; auto; discriminate.
  - do 2 eexists. split; [reflexivity|]. repeat split; auto; discriminate.
Qed.
Example C34_stuck_reachable :
  let E := toy_env [HErr; HBody [3]] (fun _ => false) in
  snd (toy_update E (toy_start (fun _ => None))) = Fail EINVAL /\
  w_files (fst (toy_update E (toy_start (fun _ => None)))) (u_local toy_notif) = Some [3] /\
  read_notification 7 ex_repo ex_tal toy_xml [3] = Err EINVAL.
Proof. vm_compute. auto. Qed.
(** A delta that replaces, in a run. *)
Example C33_nonvacuous :
  let w := toy_start (fun p => if path_eqb p toy_path then Some [65] else if path_eqb p (cstr "/d") then Some [51] else None) in
  let d := {| nd_serial := 2; nd_meta := {| m_uri := {| u_global := []; u_local := cstr "/d"; u_type := UT_HTTPS |}; m_hash := Some (toy_sha [51]) |} |} in
  let run w := parse_delta 7 ex_repo ex_tal toy_sha toy_xml toy_b64 toy_E1 (u_global toy_notif) (cstr "a") d w in
  snd (run w) = Ret tt /\ w_files (fst (run w)) toy_path = Some [66] /\
  snd (run (fst (run w))) = Fail EINVAL.
Proof. vm_compute. auto. Qed.
