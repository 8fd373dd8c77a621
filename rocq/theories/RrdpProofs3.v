(** Proofs about whole RRDP updates (C31, C34). *)
From Coq Require Import String Permutation.
From Verif Require Import Base BaseLemmas CString CLib PathBuilder PathSpec PathProofs PathProofs2 PathProofs3 PathProofs4 PathProps
  Rrdp RrdpSpec RrdpProofs RrdpProofs2.
Notation length := List.length.

(** ** Notifications *)
Lemma metadata_mandatory J repository tal n m : parse_file_metadata J repository tal n None HR_MANDATORY = Ok m ->
  (exists g, uri_create J repository tal UT_HTTPS None g = Ok (m_uri m)) /\ exists h, m_hash m = Some h.
Proof. intros H. apply metadata_inv in H. destruct H as (u & _ & U & x & h & _ & _ & _ & M). eauto. Qed.

Section Notif.
  Variable J : Z.
  Variable repository : list Z.
  Variable tal : option (list Z).
  Notation read := (xml_read_notif J repository tal).
  Notation loop := (notif_loop J repository tal).

  Definition meta_ok (m : metadata) : Prop :=
    (exists g, uri_create J repository tal UT_HTTPS None g = Ok (m_uri m)) /\ exists h, m_hash m = Some h.
  Definition nt_ok (nt : notification) : Prop :=
    (forall m, nt_snapshot nt = Some m -> meta_ok m) /\ Forall (fun d => meta_ok (nd_meta d)) (nt_deltas nt).

  Lemma loop_app a : forall nt b ok, loop nt (a ++ b) ok = bind (loop nt a true) (fun nt' => loop nt' b ok).
  Proof.
    induction a as [|n a IH]; intros nt b ok; [reflexivity|]. cbn [app notif_loop].
    destruct (n_valid n); cbn [negb bind]; [|reflexivity]. destruct (read nt n); cbn [bind]; auto.
  Qed.
  Lemma loop_other l : Forall (fun n => n_type n = NOther) l -> forall nt nt', loop nt l true = Ok nt' -> nt' = nt.
  Proof.
    induction 1 as [|n l T F IH]; intros nt nt'; cbn [notif_loop]; [congruence|].
    destruct (n_valid n); cbn [negb]; [|discriminate]. unfold xml_read_notif. rewrite T. cbn [bind]. auto.
  Qed.
  (** The delta elements among some nodes, in order. *)
  Inductive listed : list node -> list ndelta -> Prop :=
  | li_nil : listed [] []
  | li_skip n ns ds : n_type n <> NElement \/ n_name n <> cstr "delta" -> listed ns ds -> listed (n :: ns) ds
  | li_delta n ns ds d : n_type n = NElement -> n_name n = cstr "delta" -> parse_notification_delta J repository tal n = Ok d ->
      listed ns ds -> listed (n :: ns) (d :: ds).

  Definition body_node (n : node) := n_type n = NOther \/ n_name n = cstr "snapshot" \/ n_name n = cstr "delta".
  Lemma loop_body l : Forall body_node l -> forall nt nt', loop nt l true = Ok nt' ->
    nt_session nt' = nt_session nt /\
    (exists ds, listed l ds /\ nt_deltas nt' = nt_deltas nt ++ ds) /\
    (nt_ok nt -> nt_ok nt') /\
    ((exists m, nt_snapshot nt = Some m) \/ Exists (fun n => n_type n = NElement /\ n_name n = cstr "snapshot") l ->
     exists m, nt_snapshot nt' = Some m) /\ Forall (fun n => n_valid n = true) l.
  Proof.
    induction 1 as [|n l T F IH]; intros nt nt' H; cbn [notif_loop] in H.
    { inversion H; subst. split; auto. split; [exists []; split; [constructor|rewrite app_nil_r; auto]|]. split; auto. split; [|constructor].
      intros [X|X]; auto. inversion X. }
    destruct (n_valid n) eqn:NV; cbn [negb] in H; [|discriminate].
    destruct (read nt n) as [nt1|e|] eqn:R; cbn [bind] in H; try discriminate.
    apply IH in H. destruct H as (HS & (ds & HL & HD) & HO & HN & HV). clear IH.
    unfold xml_read_notif in R. destruct (n_type n) eqn:TY.
    - destruct (is_elem n (cstr "delta")) eqn:I1.
      { apply is_elem_true in I1. destruct (parse_notification_delta J repository tal n) as [d|e|] eqn:PD; cbn [bind] in R; try discriminate. inversion R; subst nt1; cbn in *.
        split; auto. split. { exists (d :: ds). split; [apply li_delta; auto|]. rewrite HD, <- app_assoc. reflexivity. }
        split; [|split; [|constructor; auto]].
        - intros [O1 O2]. apply HO. split; auto. cbn. apply Forall_app. split; auto. constructor; auto.
          unfold parse_notification_delta in PD. destruct (parse_serial n); cbn [bind] in PD; try discriminate.
          destruct (parse_file_metadata J repository tal n None HR_MANDATORY) as [m|e|] eqn:PM; cbn [bind] in PD; inversion PD; subst; cbn.
          apply metadata_mandatory in PM. exact PM.
        - intros [X|X]; apply HN; auto. inversion X as [? ? [Y Z]|]; subst; auto. exfalso. rewrite I1 in Z. discriminate. }
      assert (ND : n_name n <> cstr "delta") by (intros Q; apply is_elem_true in Q; congruence).
      destruct (is_elem n (cstr "snapshot")) eqn:I2.
      { destruct (parse_file_metadata J repository tal n None HR_MANDATORY) as [m|e|] eqn:PM; cbn [bind] in R; try discriminate. inversion R; subst nt1; cbn in *.
        split; auto. split. { exists ds. split; auto. constructor; auto. }
        split; [|split; [|constructor; auto]].
        - intros [O1 O2]. apply HO. split; auto. cbn. intros m' Q. inversion Q; subst. apply metadata_mandatory in PM. exact PM.
        - intros _. apply HN. eauto. }
      assert (NS : n_name n <> cstr "snapshot") by (intros Q; apply is_elem_true in Q; congruence).
      destruct T as [T|[T|T]]; congruence.
    - assert (nt1 = nt).
      { destruct (is_elem n (cstr "notification")) eqn:I; [|congruence]. exfalso. apply is_elem_true in I. destruct T as [T|[T|T]]; [congruence|rewrite T in I; discriminate..]. }
      subst. split; auto. split. { exists ds. split; auto. constructor; auto. left. congruence. }
      split; auto. split; [|constructor; auto]. intros [X|X]; apply HN; auto. inversion X as [? ? [Y Z]|]; subst; auto. congruence.
    - inversion R; subst nt1. split; auto. split. { exists ds. split; auto. constructor; auto. left. congruence. }
      split; auto. split; [|constructor; auto]. intros [X|X]; apply HN; auto. inversion X as [? ? [Y Z]|]; subst; auto. congruence.
  Qed.

  Lemma listed_length l ds : listed l ds -> (length ds <= length l)%nat.
  Proof. induction 1; cbn; lia. Qed.
  Lemma listed_app a b ds : listed a [] -> listed b ds -> listed (a ++ b) ds.
  Proof. intros H. remember [] as e eqn:E. induction H; intros L; cbn; auto; [constructor; auto|discriminate]. Qed.
  Lemma listed_skip a b ds : listed a ds -> Forall (fun n => n_type n <> NElement) b -> listed (a ++ b) ds.
  Proof.
    induction 1; intros F; cbn [app]; [|constructor; auto|apply li_delta; auto].
    induction F; [constructor|]. constructor; auto.
  Qed.

  (** A notification that is read has a session, a snapshot, and its deltas in
      order. *)
  Lemma read_ok xml c nt : follows_schema (xml c) -> read_notification J repository tal xml c = Ok nt ->
    exists s snap ds, nt_session nt = Some s /\ nt_snapshot nt = Some snap /\ nt_ok nt /\
      listed (d_nodes (xml c)) ds /\ Permutation ds (nt_deltas nt) /\ ends_at (s_serial s) (nt_deltas nt).
  Proof.
    intros [LEN SCH] H. unfold read_notification in H.
    set (nodes := d_nodes (xml c)) in *. clearbody nodes. set (ok := d_ok (xml c)) in *. clearbody ok.
    assert (VAL : forall ns nt0 nt1, loop nt0 ns ok = Ok nt1 -> ok = true /\ Forall (fun n => n_valid n = true) ns).
    { clear. induction ns as [|n ns IH]; intros nt0 nt1 H; cbn [notif_loop] in H.
      - destruct ok; [auto|discriminate].
      - destruct (n_valid n) eqn:V; cbn [negb] in H; [|discriminate]. destruct (read nt0 n) as [x| |]; cbn [bind] in H; try discriminate.
        apply IH in H. destruct H. split; auto. }
    destruct (VAL _ _ _ H) as [-> V]. specialize (SCH eq_refl V). clear VAL.
    destruct SCH as [(pre & root & body & fin & post & -> & FO & TR & NR & TF & NF & FB & EX)|(pre & root & rest & -> & FO & TR & NR & AU)].
    - apply Forall_app in FO. destruct FO as [FO1 FO2].
      rewrite loop_app in H. destruct (loop _ pre true) as [nt0|e|] eqn:L0; cbn [bind] in H; try discriminate.
      apply loop_other in L0; auto. subst nt0. cbn [notif_loop] in H.
      destruct (n_valid root) eqn:VR; cbn [negb] in H; [|discriminate].
      unfold xml_read_notif in H at 1. rewrite TR in H.
      rewrite (not_elem root _ (cstr "delta") NR eq_refl), (not_elem root _ (cstr "snapshot") NR eq_refl) in H.
      assert (is_elem root (cstr "notification") = true) as IR by (apply is_elem_true; auto). rewrite IR in H.
      destruct (parse_session root) as [s|e|]; cbn [bind] in H; try discriminate. cbn [nt_snapshot nt_deltas] in H.
      rewrite loop_app in H. destruct (loop _ body true) as [nt2|e|] eqn:L2; cbn [bind] in H; try discriminate.
      apply loop_body in L2; auto. destruct L2 as (S2 & (ds & LI & D2) & O2 & N2 & _). cbn in S2, D2, O2.
      destruct (N2 ltac:(auto)) as (snap & SN).
      assert (O3 : nt_ok nt2) by (apply O2; split; [discriminate|constructor]).
      cbn [notif_loop] in H. destruct (n_valid fin) eqn:VF; cbn [negb] in H; [|discriminate].
      unfold xml_read_notif in H at 1. rewrite TF in H.
      assert (is_elem fin (cstr "notification") = true) as IF by (apply is_elem_true; auto). rewrite IF, S2 in H.
      rewrite D2 in *.
      assert (LD : listed (pre ++ root :: body ++ fin :: post) ds).
      { assert (SK : forall b ds, listed b ds -> listed (pre ++ b) ds).
        { clear -FO1. induction FO1 as [|n l T F IH]; intros; cbn [app]; auto. constructor; auto. left. congruence. }
        apply SK. constructor; [right; rewrite NR; discriminate|]. apply listed_skip; auto. constructor; [congruence|].
        eapply Forall_impl; [|exact FO2]. intros. congruence. }
      destruct ds as [|d0 ds0].
      + cbn [bind] in H. apply loop_other in H; auto. subst nt. exists s, snap, []. rewrite D2. cbn [app]. split; [exact S2|]. split; [exact SN|]. split; [exact O3|]. split; [exact LD|]. split; [constructor|reflexivity].
      + set (dd := d0 :: ds0) in *.
        assert (HB : bind (sort_deltas (s_serial s) dd) (fun ds' => loop {| nt_session := Some s; nt_snapshot := nt_snapshot nt2; nt_deltas := ds' |} post true) = Ok nt).
        { rewrite <- H. unfold dd. destruct (sort_deltas (s_serial s) (d0 :: ds0)); reflexivity. }
        clear H. pose proof (sort_spec (s_serial s) dd) as SO.
        destruct (sort_deltas (s_serial s) dd) as [ds'|e|]; cbn [bind] in HB; try discriminate.
        assert (LL : Z.of_nat (length dd) <= ULONG_MAX).
        { apply listed_length in LI. rewrite !app_length in LEN. cbn [length] in LEN. rewrite app_length in LEN. lia. }
        specialize (SO LL). destruct SO as (P & EA & _). apply loop_other in HB; auto. subst nt. cbn.
        exists s, snap, dd. split; auto. split; auto. split; [|auto]. split; [exact (proj1 O3)|]. cbn [nt_deltas].
        apply Forall_forall. intros d I. destruct O3 as [_ O4]. rewrite D2, Forall_forall in O4. apply O4. eapply Permutation_in; [symmetry; exact P|auto].
    - exfalso. rewrite loop_app in H. destruct (loop _ pre true) as [nt0|e|] eqn:L0; cbn [bind] in H; try discriminate.
      cbn [notif_loop] in H. destruct (n_valid root); cbn [negb] in H; [|discriminate].
      unfold xml_read_notif in H. rewrite TR in H.
      assert (PM : parse_file_metadata J repository tal root None HR_MANDATORY = Err EINVAL) by (unfold parse_file_metadata; rewrite AU; auto).
      destruct NR as [NR|NR].
      + rewrite (not_elem root _ (cstr "delta") NR eq_refl) in H.
        assert (is_elem root (cstr "snapshot") = true) as IR by (apply is_elem_true; auto). rewrite IR, PM in H. discriminate.
      + assert (is_elem root (cstr "delta") = true) as IR by (apply is_elem_true; auto). rewrite IR in H.
        unfold parse_notification_delta in H. rewrite PM in H. destruct (parse_serial root); discriminate.
  Qed.
End Notif.

(** ** Which deltas are applied *)
Lemma skipn_map {A B} (f : A -> B) n l : skipn n (map f l) = map f (skipn n l).
Proof. revert l. induction n; intros [|x l]; cbn; auto. Qed.
Lemma ends_suffix last ds n : ends_at last ds -> (n <= length ds)%nat ->
  map nd_serial (skipn (length ds - n) ds) = zseq (last - Z.of_nat n + 1) n.
Proof.
  unfold ends_at. intros E L. rewrite <- skipn_map, E.
  set (k := (length ds - n)%nat). replace (length ds) with (k + n)%nat by lia.
  rewrite zseq_app. rewrite skipn_app, zseq_length. rewrite skipn_all2 by (rewrite zseq_length; lia).
  replace (k - k)%nat with 0%nat by lia. cbn [skipn app]. f_equal. lia.
Qed.

Section Update.
  Variable J : Z.
  Variable repository : list Z.
  Variable tal : option (list Z).
  Variable http_enabled : bool.
  Variable sha256 : list Z -> list Z.
  Variable xml : list Z -> xdoc.
  Variable base64 : list Z -> option (list Z).
  Variable E : env.
  Variable notif : list Z.
  Notation stored := (stored J repository tal notif).
  Notation handle_delta := (handle_delta J repository tal http_enabled sha256 xml base64 E notif).
  Notation handle_deltas := (handle_deltas J repository tal http_enabled sha256 xml base64 E notif).
  Notation handle_snapshot := (handle_snapshot J repository tal http_enabled sha256 xml base64 E notif).

  (** Each delta, one after the other, successfully. *)
  Inductive applied (id : list Z) : list ndelta -> world -> world -> Prop :=
  | ap_nil w : applied id [] w w
  | ap_cons d ds w w1 w' : handle_delta id d w = (w1, Ret tt) -> applied id ds w1 w' -> applied id (d :: ds) w w'.
  Lemma deltas_loop_iff id ds w w' :
    deltas_loop J repository tal http_enabled sha256 xml base64 E notif id ds w = (w', Ret tt) <-> applied id ds w w'.
  Proof.
    revert w. induction ds as [|d ds IH]; intros w; cbn [deltas_loop].
    - split; intros H; [apply ret_inv in H; destruct H; subst; constructor|inversion H; reflexivity].
    - split; intros H.
      + apply andthen_inv in H. destruct H as ([] & w1 & H1 & H2). econstructor; eauto. apply IH; auto.
      + inversion H as [|? ? ? w1 ? H1 H2]; subst. unfold andthen. rewrite H1. apply IH; auto.
  Qed.

  Lemma handle_deltas_cases s ds old : ends_at (s_serial s) ds ->
    (let diff := s_serial s - old in
     ds = [] \/ diff < 0 \/ 64 < diff \/ Z.of_nat (length ds) < diff ->
     exists e, forall w, handle_deltas s ds old w = (w, Fail e)) /\
    (0 <= s_serial s - old <= 64 -> ds <> [] -> s_serial s - old <= Z.of_nat (length ds) ->
     exists pre todo, ds = pre ++ todo /\ map nd_serial todo = zseq (old + 1) (Z.to_nat (s_serial s - old)) /\
       forall w, handle_deltas s ds old w = deltas_loop J repository tal http_enabled sha256 xml base64 E notif (s_id s) todo w).
  Proof.
    intros EA. split.
    - cbv zeta. intros C. unfold Rrdp.handle_deltas. destruct ds as [|d0 ds0]; [eexists; reflexivity|].
      destruct (s_serial s - old <? 0) eqn:C1; [eexists; reflexivity|].
      assert (C2 : (64 <? (if ULONG_MAX <? s_serial s - old then ULONG_MAX else s_serial s - old))
        || (Z.of_nat (length (d0 :: ds0)) <? (if ULONG_MAX <? s_serial s - old then ULONG_MAX else s_serial s - old)) = true).
      { destruct (ULONG_MAX <? s_serial s - old) eqn:U; [reflexivity|]. destruct C as [C|C]; [discriminate|]. lia. }
      rewrite C2. eexists. reflexivity.
    - intros R NE L. exists (firstn (length ds - Z.to_nat (s_serial s - old)) ds), (skipn (length ds - Z.to_nat (s_serial s - old)) ds).
      split; [symmetry; apply firstn_skipn|]. split.
      + rewrite (ends_suffix _ _ _ EA) by lia. f_equal. lia.
      + intros w. unfold Rrdp.handle_deltas. destruct ds as [|d0 ds0]; [congruence|]. cbv zeta.
        destruct (s_serial s - old <? 0) eqn:C1; [lia|]. destruct (ULONG_MAX <? s_serial s - old) eqn:U; [unfold ULONG_MAX in U; lia|].
        destruct ((64 <? s_serial s - old) || (Z.of_nat (length (d0 :: ds0)) <? s_serial s - old)) eqn:C2; [lia|]. reflexivity.
  Qed.

  (** ** The directory of the repository. *)
  Variable ws : list Z.
  Hypothesis conf : conf_ok repository tal (Some notif).
  Hypothesis WS : bind (get_rrdp_workspace J repository tal notif) pb_string = Ok ws.
  Hypothesis nprint : printable notif.

  Lemma ws_place : exists nt nd np, notif = cstr "https://" ++ nt /\ names nt nd np /\
    ws = join (nonempty [repository; opt tal] ++ cstr "rrdp" :: nd ++ np).
  Proof using conf WS nprint.
    assert (U : uri_create J repository tal UT_CAGED (Some notif) [] = Ok {| u_global := []; u_local := ws; u_type := UT_CAGED |}).
    { unfold uri_create. assert (G : str2global [] = Ok []) by reflexivity. rewrite G. cbn [bind autocomplete_local].
      assert (M : map_caged J repository [] tal notif = Ok ws) by exact WS. rewrite M. reflexivity. }
    apply C27_contained in U; auto. destruct U as (_ & _ & comps & P & _ & L). cbn in L.
    inversion P as [| |nt nd np NM Q1 Q2 Q3|]; subst. exists nt, nd, np. auto.
  Qed.

  Lemma place_below n g comps : place UT_CAGED (Some n) g comps ->
    exists nt nd np rest, n = cstr "https://" ++ nt /\ names nt nd np /\ comps = cstr "rrdp" :: (nd ++ np) ++ rest.
  Proof.
    intros P. inversion P as [| |nt nd np NM|nt nd np text dom path NM NM2]; subst.
    - exists nt, nd, np, []. rewrite app_nil_r. auto.
    - exists nt, nd, np, (dom ++ path). auto.
  Qed.
  Lemma at_or_below_iff d q : at_or_below d q = true <-> q = d \/ exists t, q = d ++ 47 :: t.
  Proof.
    unfold at_or_below. rewrite orb_true_iff, path_eqb_true, starts_iff. split; (intros [H|(t & H)]; [auto|right; exists t]).
    - rewrite <- app_assoc in H. exact H.
    - rewrite <- app_assoc. exact H.
  Qed.
  Lemma stored_below u p : stored u p -> at_or_below ws p = true.
  Proof using conf WS nprint.
    intros (x & U & <-). apply C27_contained in U; auto. destruct U as (_ & _ & comps & P & _ & L).
    destruct ws_place as (nt & nd & np & EN & NM & EW). apply at_or_below_iff. rewrite L, EW.
    destruct (place_below _ _ _ P) as (nt' & nd' & np' & rest & EN' & NM' & EC). rewrite EN in EN'. apply app_inv_head in EN'. subst nt'.
    destruct (names_fun _ _ _ _ _ NM NM'). subst nd' np' comps.
    set (B := nonempty [repository; opt tal]).
    change (B ++ cstr "rrdp" :: (nd ++ np) ++ rest) with (B ++ (cstr "rrdp" :: nd ++ np) ++ rest). rewrite app_assoc.
    rewrite (join_app (B ++ cstr "rrdp" :: nd ++ np)) by (destruct B; discriminate).
    destruct rest as [|y l]; [left; apply ext_nil|right].
      unfold ext. cbn [flat_map app]. eexists. reflexivity.
  Qed.
  Lemma https_outside g x : uri_create J repository tal UT_HTTPS None g = Ok x -> at_or_below ws (u_local x) = false.
  Proof using conf WS nprint.
    intros U. apply C27_contained in U.
    2:{ destruct conf as (A & B & _). repeat split; auto. }
    destruct U as (_ & _ & comps & P & _ & L). destruct ws_place as (nt & nd & np & EN & NM & EW).
    destruct (at_or_below ws (u_local x)) eqn:A; auto. exfalso. apply at_or_below_iff in A. rewrite L, EW in A.
    inversion P as [|n text dom path NM' Q1 Q2 Q3| |]; subst.
    set (B := nonempty [repository; opt tal]) in *. clearbody B.
    assert (F : exists pre, forall y l, join (B ++ y :: l) = pre ++ y ++ flat_map (fun c => 47 :: c) l).
    { destruct B as [|b B]; [exists []; intros; cbn [app]; rewrite join_ext; reflexivity|].
      exists (join (b :: B) ++ [47]). intros. rewrite join_app by discriminate. unfold ext. cbn [flat_map]. rewrite <- app_assoc. reflexivity. }
    destruct F as (pre & F). rewrite !F in A.
    assert (X : exists t, pre ++ cstr "https" ++ flat_map (fun c => 47 :: c) (dom ++ path) = (pre ++ cstr "rrdp" ++ flat_map (fun c => 47 :: c) (nd ++ np)) ++ t).
    { destruct A as [A|(t & A)]; [exists []; rewrite app_nil_r; exact A|eauto]. }
    destruct X as (t & X). rewrite <- !app_assoc in X. apply app_inv_head in X. discriminate.
  Qed.

  (** ** Only the repository's directory matters. *)
  Definition agree (a b : files) : Prop := forall p, at_or_below ws p = true -> a p = b p.

  Lemma put_frame p c fs fs1 : put p c fs fs1 -> forall g, agree fs g -> put p c g (set_file p c g) /\ agree fs1 (set_file p c g).
  Proof using.
    intros [P1 P2] g A. split; [apply set_file_put|]. intros q Q. unfold set_file. destruct (path_eqb q p) eqn:X.
    - apply path_eqb_true in X. subst. auto.
    - apply path_eqb_false in X. rewrite P2; auto.
  Qed.
  Lemma effect_frame fs l fs' : effect stored sha256 fs l fs' ->
    (forall q, at_or_below ws q = false -> fs' q = fs q) /\
    forall g, agree fs g -> exists g', effect stored sha256 g l g' /\ agree fs' g'.
  Proof using conf WS nprint.
    induction 1 as [fs fs' S|fs u p c fs1 l fs' ST PT EF IH|fs u p h old c fs1 l fs' ST FO SH PT EF IH|fs u p h old fs1 l fs' ST FO SH PT EF IH].
    - split; [intros; symmetry; apply S|]. intros g A. exists g. split; [constructor; intros p; auto|]. intros p Q. rewrite <- S. auto.
    - destruct IH as [IH1 IH2]. split.
      + intros q Q. rewrite IH1 by auto. apply PT. intros ->. apply stored_below in ST. congruence.
      + intros g A. destruct (put_frame _ _ _ _ PT g A) as [P' A']. destruct (IH2 _ A') as (g' & EF' & AG'). exists g'. split; auto. eapply ef_publish; eauto.
    - destruct IH as [IH1 IH2]. split.
      + intros q Q. rewrite IH1 by auto. apply PT. intros ->. apply stored_below in ST. congruence.
      + intros g A. destruct (put_frame _ _ _ _ PT g A) as [P' A']. destruct (IH2 _ A') as (g' & EF' & AG'). exists g'. split; auto. eapply ef_replace; eauto.
        rewrite <- A; auto. eapply stored_below; eauto.
    - destruct IH as [IH1 IH2]. split.
      + intros q Q. rewrite IH1 by auto. apply PT. intros ->. apply stored_below in ST. congruence.
      + intros g A. destruct (put_frame _ _ _ _ PT g A) as [P' A']. destruct (IH2 _ A') as (g' & EF' & AG'). exists g'. split; auto. eapply ef_withdraw; eauto.
        rewrite <- A; auto. eapply stored_below; eauto.
  Qed.

  (** ** Files that are left alone, whatever the outcome. *)
  Definition keeps {A} (nl : list Z) (m : io A) : Prop := forall w, w_files (fst (m w)) nl = w_files w nl.
  Lemma keeps_ret {A} nl (a : A) : keeps nl (ret a). Proof using. intros w. reflexivity. Qed.
  Lemma keeps_fail {A} nl e : keeps nl (@fail A e). Proof using. intros w. reflexivity. Qed.
  Lemma keeps_pure {A} nl (r : res A) : keeps nl (pure r). Proof using. intros w. reflexivity. Qed.
  Lemma keeps_bind {A B} nl (m : io A) (f : A -> io B) : keeps nl m -> (forall a w w1, m w = (w1, Ret a) -> keeps nl (f a)) -> keeps nl (andthen m f).
  Proof using.
    intros M F w. unfold andthen. specialize (M w). destruct (m w) as [w1 r] eqn:EM. cbn [fst] in *.
    destruct r as [a|e| |]; cbn [fst]; auto. rewrite (F a w w1 EM). auto.
  Qed.
  Lemma keeps_sysop {A} nl (f : nat -> files -> files * out A) : (forall n fs, fst (f n fs) nl = fs nl) -> keeps nl (sysop E f).
  Proof using. intros F w. unfold sysop. specialize (F (w_ops w) (w_files w)). destruct (f (w_ops w) (w_files w)) as [fs r]. cbn in *. auto. Qed.
  Lemma set_other p c fs nl : p <> nl -> set_file p c fs nl = fs nl.
  Proof using. intros N. unfold set_file. assert (path_eqb nl p = false) as -> by (apply path_eqb_false; congruence). auto. Qed.
  Lemma keeps_hash nl p h : keeps nl (hash_validate_file sha256 E p h).
  Proof using. apply keeps_sysop. intros. reflexivity. Qed.
  Lemma keeps_write nl p c : p <> nl -> keeps nl (write_file E p c).
  Proof using. intros N. apply keeps_sysop. intros n fs. destruct (e_write E n); cbn [fst]; apply set_other; auto. Qed.
  Lemma keeps_delete nl p : p <> nl -> keeps nl (delete_file E p).
  Proof using.
    intros N. apply keeps_sysop. intros n fs. destruct (fs p); [|auto]. destruct (e_del E n) as [|[]]; cbn [fst]; auto; apply set_other; auto.
  Qed.
  Lemma keeps_download nl p : p <> nl -> keeps nl (cache_download http_enabled E p).
  Proof using.
    intros N w. unfold cache_download. destruct (find_attempt p (w_attempts w)) as [[e|]|]; auto.
    revert w. apply keeps_bind.
    - unfold do_download. destruct http_enabled; apply keeps_sysop; intros n fs; [destruct (e_http E n); cbn [fst]; auto; apply set_other; auto|auto].
    - intros [ch r] ? ? _. apply keeps_bind; [intros ?; reflexivity|]. intros [] ? ? _. cbn [fst snd]. destruct r; [apply keeps_fail|apply keeps_ret].
  Qed.
  Lemma keeps_publish nl n rest hr : at_or_below ws nl = false -> keeps nl (handle_publish J repository tal sha256 base64 E n rest notif hr).
  Proof using conf WS nprint.
    intros OUT. unfold handle_publish. apply keeps_bind.
    - unfold parse_publish. apply keeps_bind; [apply keeps_pure|]. intros m ? ? _. destruct rest as [|t r]; [apply keeps_fail|].
      destruct (n_value t); [|apply keeps_fail]. destruct (base64 l); [|apply keeps_fail].
      destruct (m_hash m); [|apply keeps_ret]. apply keeps_bind; [apply keeps_hash|intros; apply keeps_ret].
    - intros [[m c] r] w w1 H. apply keeps_bind; [|intros; apply keeps_ret]. apply keeps_write.
      unfold parse_publish in H. apply andthen_inv in H. destruct H as (m1 & w0 & P & H). apply pure_inv in P. destruct P as [-> P].
      apply metadata_inv in P. destruct P as (u & _ & U & _).
      assert (m1 = m).
      { destruct rest as [|t r0]; [discriminate|]. destruct (n_value t); [|discriminate]. destruct (base64 l); [|discriminate].
        destruct (m_hash m1); [apply andthen_inv in H; destruct H as ([] & ? & _ & H)|]; apply ret_inv in H; destruct H as [_ H]; inversion H; auto. }
      subst m1. intros Q. assert (at_or_below ws (u_local (m_uri m)) = true) by (eapply stored_below; exists (m_uri m); eauto). congruence.
  Qed.
  Lemma keeps_withdraw nl n : at_or_below ws nl = false -> keeps nl (handle_withdraw J repository tal sha256 E n notif).
  Proof using conf WS nprint.
    intros OUT. unfold handle_withdraw. apply keeps_bind; [apply keeps_pure|]. intros m w w1 P. apply pure_inv in P. destruct P as [-> P].
    apply metadata_inv in P. destruct P as (u & _ & U & _). apply keeps_bind; [apply keeps_hash|]. intros [] ? ? _. apply keeps_delete.
    intros Q. assert (at_or_below ws (u_local (m_uri m)) = true) by (eapply stored_below; exists (m_uri m); eauto). congruence.
  Qed.
  Lemma keeps_cb nl wh s n rest : at_or_below ws nl = false -> keeps nl (cb J repository tal sha256 base64 E notif wh s n rest).
  Proof using conf WS nprint.
    intros OUT. unfold cb. destruct wh; [unfold xml_read_delta|unfold xml_read_snapshot]; destruct (n_type n); try apply keeps_ret.
    - destruct (is_elem n (cstr "publish")); [apply keeps_publish; auto|]. destruct (is_elem n (cstr "withdraw")).
      + apply keeps_bind; [apply keeps_withdraw; auto|intros; apply keeps_ret].
      + destruct (is_elem n (cstr "delta")); [|apply keeps_fail]. apply keeps_bind; [apply keeps_pure|intros; apply keeps_ret].
    - destruct (is_elem n (cstr "publish")); [apply keeps_publish; auto|].
      destruct (is_elem n (cstr "snapshot")); [|apply keeps_fail]. apply keeps_bind; [apply keeps_pure|intros; apply keeps_ret].
  Qed.
  Lemma keeps_loop nl wh s ok : at_or_below ws nl = false -> forall fuel nodes, keeps nl (rng_loop (cb J repository tal sha256 base64 E notif wh s) fuel nodes ok).
  Proof using conf WS nprint.
    intros OUT. induction fuel as [|f IH]; intros nodes; cbn [rng_loop]; [intros w; reflexivity|].
    destruct nodes as [|n rest]; [destruct ok; [apply keeps_ret|apply keeps_fail]|].
    destruct (negb (n_valid n)); [apply keeps_fail|]. apply keeps_bind; [apply keeps_cb; auto|]. intros; apply IH.
  Qed.
  Lemma keeps_delta nl id d : at_or_below ws nl = false -> u_local (m_uri (nd_meta d)) <> nl -> keeps nl (handle_delta id d).
  Proof using conf WS nprint.
    intros OUT NE. unfold Rrdp.handle_delta. apply keeps_bind; [apply keeps_download; auto|]. intros ch ? ? _ w. unfold then_delete.
    assert (K : keeps nl (parse_delta J repository tal sha256 xml base64 E notif id d)).
    { unfold parse_delta. apply keeps_bind; [apply keeps_hash|]. intros [] ? ? _. unfold relax_ng_parse.
      apply keeps_bind; [apply keeps_sysop; auto|]. intros x ? ? _. apply (keeps_loop nl true). auto. }
    specialize (K w). destruct (parse_delta J repository tal sha256 xml base64 E notif id d w) as [w2 r]. cbn [fst] in K.
    pose proof (keeps_delete nl _ NE w2) as K2.
    destruct r; cbn [fst]; auto; destruct (delete_file E (u_local (m_uri (nd_meta d))) w2) as [w3 r3]; cbn [fst] in *; congruence.
  Qed.
  Lemma handle_deltas_keeps s ds old nl w w' r : at_or_below ws nl = false ->
    Forall (fun d => u_local (m_uri (nd_meta d)) <> nl) ds -> handle_deltas s ds old w = (w', r) -> w_files w' nl = w_files w nl.
  Proof using conf WS nprint.
    intros OUT F H.
    assert (L : forall l, Forall (fun d => u_local (m_uri (nd_meta d)) <> nl) l ->
      keeps nl (deltas_loop J repository tal http_enabled sha256 xml base64 E notif (s_id s) l)).
    { induction 1 as [|d l N F' IH]; cbn [deltas_loop]; [apply keeps_ret|]. apply keeps_bind; [apply keeps_delta; auto|]. intros; apply IH. }
    assert (K : keeps nl (handle_deltas s ds old)).
    { unfold Rrdp.handle_deltas. destruct ds as [|d0 ds0]; [apply keeps_fail|]. cbv zeta. destruct (s_serial s - old <? 0); [apply keeps_fail|].
      match goal with |- keeps _ (if ?b then _ else _) => destruct b end; [apply keeps_fail|]. apply L.
      rewrite Forall_forall in *. intros d I. apply F. rewrite <- (firstn_skipn (length (d0 :: ds0) - Z.to_nat (if ULONG_MAX <? s_serial s - old then ULONG_MAX else s_serial s - old))).
      apply in_app_iff. right. exact I. }
    specialize (K w). rewrite H in K. exact K.
  Qed.

  Hypothesis NT : no_trunc E.
  Hypothesis RM : forall n p, e_rm E n p = true.

  Lemma parse_inv p s wh w w' : relax_ng_parse xml E p (cb J repository tal sha256 base64 E notif wh s) w = (w', Ret tt) ->
    exists b l, w_files w p = Some b /\ says base64 (root_tag wh) s wh (d_nodes (xml b)) l /\ effect stored sha256 (w_files w) l (w_files w').
  Proof using NT.
    intros H. unfold relax_ng_parse in H. apply andthen_inv in H. destruct H as (d & w1 & H1 & H2).
    apply sysop_inv in H1. destruct H1 as (H1 & _ & _ & _). destruct (w_files w p) as [b|] eqn:F; [|discriminate].
    destruct (e_read E (w_ops w)); [|discriminate]. inversion H1; subst.
    apply loop_sound in H2; auto. destruct H2 as (_ & _ & l & SY & EF). exists b, l. split; auto. split; auto. congruence.
  Qed.
  Lemma delete_frame p w w' r : delete_file E p w = (w', r) -> forall q, q <> p -> w_files w' q = w_files w q.
  Proof using.
    unfold delete_file, sysop. intros H q Q. apply path_eqb_false in Q.
    destruct (w_files w p); [destruct (e_del E (w_ops w)) as [|[]]|]; inversion H; subst; cbn [w_files]; auto;
      unfold set_file; rewrite Q; auto.
  Qed.
  Lemma then_delete_inv m p w w' : then_delete E m p w = (w', Ret tt) ->
    exists w1, m w = (w1, Ret tt) /\ forall q, q <> p -> w_files w' q = w_files w1 q.
  Proof using.
    unfold then_delete. destruct (m w) as [w1 r]. destruct (delete_file E p w1) as [w2 r2] eqn:D.
    destruct r as [[]|e| |]; try discriminate.
    - intros H. exists w1. split; auto. apply (delete_frame _ _ _ r2). destruct r2; inversion H; subst; exact D.
    - destruct r2; discriminate.
  Qed.
  Lemma download_inv p w w' ch : cache_download http_enabled E p w = (w', Ret ch) ->
    (forall q, q <> p -> w_files w' q = w_files w q) /\ (ch = false -> w_files w' = w_files w) /\
    (ch = true -> exists n b, e_http E n = HBody b /\ w_files w' p = Some b).
  Proof using.
    unfold cache_download. destruct (find_attempt p (w_attempts w)) as [[e|]|].
    - discriminate.
    - intros H. inversion H; subst. repeat split; auto; discriminate.
    - intros H. apply andthen_inv in H. destruct H as ([ch' r] & w1 & H1 & H2). apply andthen_inv in H2. destruct H2 as ([] & w2 & H2 & H3).
      inversion H2; subst. cbn [fst snd] in *. destruct r; [discriminate|]. apply ret_inv in H3. destruct H3 as [-> ->]. cbn [w_files].
      unfold do_download in H1. destruct http_enabled; apply sysop_inv in H1; destruct H1 as (H1 & _).
      + destruct (e_http E (w_ops w)) as [| |b] eqn:HB; inversion H1; subst.
        * split; auto. split; auto. discriminate.
        * split; [|split; [discriminate|]].
          -- intros q Q. unfold set_file. apply path_eqb_false in Q. rewrite Q. auto.
          -- intros _. exists (w_ops w), b. split; auto. unfold set_file. assert (path_eqb p p = true) as -> by (apply path_eqb_true; auto). auto.
      + inversion H1; subst. split; auto. split; auto. discriminate.
  Qed.

  Variable state : list Z -> Z -> files.
  Definition current (s : session) (fs : files) : Prop := agree fs (state (s_id s) (s_serial s)).

  (** A snapshot leaves the files it lists, whatever was there before. *)
  Lemma snapshot_sync s snap nl w w' : meta_ok J repository tal snap ->
    (forall b l fs', m_hash snap = Some (sha256 b) -> says base64 (cstr "snapshot") s false (d_nodes (xml b)) l ->
       effect stored sha256 (fun _ => None) l fs' -> same_files fs' (state (s_id s) (s_serial s))) ->
    u_local (m_uri snap) <> nl -> at_or_below ws nl = false ->
    handle_snapshot s snap w = (w', Ret tt) -> current s (w_files w') /\ w_files w' nl = w_files w nl.
  Proof using conf WS nprint NT RM.
    intros [[g G] [h MH]] HON NE OUT H. pose proof (https_outside _ _ G) as PO.
    unfold Rrdp.handle_snapshot in H. apply andthen_inv in H. destruct H as ([] & w1 & H1 & H).
    unfold delete_rpp in H1. apply andthen_inv in H1. destruct H1 as (ws' & w0 & P & H1). apply pure_inv in P. destruct P as [-> P].
    rewrite WS in P. inversion P; subst ws'. apply sysop_inv in H1. destruct H1 as (H1 & _). inversion H1 as [F1]. clear H1.
    apply andthen_inv in H. destruct H as (ch & w2 & H2 & H). apply download_inv in H2. destruct H2 as (K2 & _).
    apply then_delete_inv in H. destruct H as (w3 & H & K4).
    unfold parse_snapshot in H. apply andthen_inv in H. destruct H as ([] & w4 & H4 & H5).
    unfold validate_hash in H4. rewrite MH in H4. apply hash_inv in H4. destruct H4 as (F4 & _ & b & FB & SB).
    change (xml_read_snapshot J repository tal sha256 base64 E notif s) with (cb J repository tal sha256 base64 E notif false s) in H5.
    apply parse_inv in H5. destruct H5 as (b' & l & FB' & SY & EF). rewrite F4 in FB', EF. rewrite FB in FB'. inversion FB'; subst b'.
    apply effect_frame in EF. destruct EF as [EO EI].
    assert (EMP : agree (w_files w2) (fun _ => None)).
    { intros q Q. rewrite K2 by (intros ->; congruence). rewrite <- F1. rewrite Q, RM. reflexivity. }
    destruct (EI _ EMP) as (g' & EF' & AG).
    assert (SF := HON b l g' ltac:(congruence) SY EF'). split.
    - intros q Q. rewrite K4 by (intros ->; congruence). rewrite AG by auto. apply SF.
    - rewrite K4 by auto. rewrite EO by auto. rewrite K2 by auto. rewrite <- F1. rewrite OUT. reflexivity.
  Qed.

  Lemma delta_sync id d nl w w' : meta_ok J repository tal (nd_meta d) ->
    (forall b l fs fs', m_hash (nd_meta d) = Some (sha256 b) ->
         says base64 (cstr "delta") {| s_id := id; s_serial := nd_serial d |} true (d_nodes (xml b)) l ->
         same_files fs (state id (nd_serial d - 1)) -> effect stored sha256 fs l fs' ->
         same_files fs' (state id (nd_serial d))) ->
    u_local (m_uri (nd_meta d)) <> nl -> at_or_below ws nl = false ->
    current {| s_id := id; s_serial := nd_serial d - 1 |} (w_files w) ->
    handle_delta id d w = (w', Ret tt) ->
    current {| s_id := id; s_serial := nd_serial d |} (w_files w') /\ w_files w' nl = w_files w nl.
  Proof using conf WS nprint NT.
    intros [[g G] [h MH]] HON NE OUT CUR H. pose proof (https_outside _ _ G) as PO.
    unfold Rrdp.handle_delta in H. apply andthen_inv in H. destruct H as (ch & w2 & H2 & H). apply download_inv in H2. destruct H2 as (K2 & _).
    apply then_delete_inv in H. destruct H as (w3 & H & K4).
    unfold parse_delta in H. apply andthen_inv in H. destruct H as ([] & w4 & H4 & H5).
    unfold validate_hash in H4. rewrite MH in H4. apply hash_inv in H4. destruct H4 as (F4 & _ & b & FB & SB).
    change (xml_read_delta J repository tal sha256 base64 E notif) with (cb J repository tal sha256 base64 E notif true) in H5.
    apply parse_inv in H5. destruct H5 as (b' & l & FB' & SY & EF). rewrite F4 in FB', EF. rewrite FB in FB'. inversion FB'; subst b'.
    apply effect_frame in EF. destruct EF as [EO EI].
    assert (AG0 : agree (w_files w2) (state id (nd_serial d - 1))).
    { intros q Q. rewrite K2 by (intros ->; congruence). apply CUR. auto. }
    destruct (EI _ AG0) as (g' & EF' & AG).
    assert (SF := HON b l _ g' ltac:(congruence) SY ltac:(intros ?; reflexivity) EF'). split.
    - intros q Q. rewrite K4 by (intros ->; congruence). rewrite AG by auto. apply SF.
    - rewrite K4 by auto. rewrite EO by auto. rewrite K2 by auto. reflexivity.
  Qed.
  Lemma deltas_sync id nl ds : forall old w w', 
    Forall (fun d => meta_ok J repository tal (nd_meta d) /\ u_local (m_uri (nd_meta d)) <> nl /\
      forall b l fs fs', m_hash (nd_meta d) = Some (sha256 b) ->
         says base64 (cstr "delta") {| s_id := id; s_serial := nd_serial d |} true (d_nodes (xml b)) l ->
         same_files fs (state id (nd_serial d - 1)) -> effect stored sha256 fs l fs' ->
         same_files fs' (state id (nd_serial d))) ds ->
    at_or_below ws nl = false -> map nd_serial ds = zseq (old + 1) (length ds) ->
    current {| s_id := id; s_serial := old |} (w_files w) -> applied id ds w w' ->
    current {| s_id := id; s_serial := old + Z.of_nat (length ds) |} (w_files w') /\ w_files w' nl = w_files w nl.
  Proof using conf WS nprint NT RM.
    induction ds as [|d ds IH]; intros old w w' F OUT SER CUR AP.
    - inversion AP; subst. cbn [length]. replace (old + Z.of_nat 0) with old by lia. auto.
    - inversion AP as [|? ? ? w1 ? H1 H2]; subst. cbn [map length zseq] in SER. injection SER as S1 S2.
      inversion F as [|? ? (M & NE & HON) F']; subst.
      destruct (delta_sync id d nl w w1 M HON NE OUT) as [C1 K1]; auto. { rewrite S1. replace (old + 1 - 1) with old by lia. auto. }
      rewrite S1 in C1. destruct (IH (old + 1) w1 w' F' OUT S2 C1 H2) as [C2 K2]. cbn [length].
      replace (old + Z.of_nat (S (length ds))) with (old + 1 + Z.of_nat (length ds)) by lia. split; auto. congruence.
  Qed.
End Update.
