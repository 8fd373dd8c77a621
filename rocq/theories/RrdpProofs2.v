(** Proofs about applying snapshots and deltas (C33). *)
From Coq Require Import String Permutation.
From Verif Require Import Base BaseLemmas CString CLib PathBuilder PathSpec PathProofs3 Rrdp RrdpSpec RrdpProofs.
Notation length := List.length.

Lemma path_eqb_true a b : path_eqb a b = true <-> a = b.
Proof. unfold path_eqb. split; [apply list_eqb_eq|intros ->; apply list_eqb_refl]. Qed.
Lemma path_eqb_false a b : path_eqb a b = false <-> a <> b.
Proof. rewrite <- path_eqb_true. destruct (path_eqb a b); split; congruence. Qed.
Lemma set_file_put p c fs : put p c fs (set_file p c fs).
Proof.
  unfold set_file. split.
  - assert (path_eqb p p = true) as -> by (apply path_eqb_true; auto). auto.
  - intros q N. apply path_eqb_false in N. rewrite N. auto.
Qed.
Lemma is_elem_true n s : is_elem n s = true <-> n_name n = s.
Proof. apply path_eqb_true. Qed.

Lemma andthen_inv {A B} (m : io A) (f : A -> io B) w w' b : andthen m f w = (w', Ret b) ->
  exists a w1, m w = (w1, Ret a) /\ f a w1 = (w', Ret b).
Proof. unfold andthen. destruct (m w) as [w1 [a|e| |]]; try discriminate. eauto. Qed.
Lemma pure_inv {A} (r : res A) w w' a : pure r w = (w', Ret a) -> w' = w /\ r = Ok a.
Proof. unfold pure. destruct r; intros H; inversion H; auto. Qed.
Lemma ret_inv {A} (a b : A) w w' : ret a w = (w', Ret b) -> w' = w /\ a = b.
Proof. unfold ret. intros H. inversion H. auto. Qed.

Section Docs.
  Variable J : Z.
  Variable repository : list Z.
  Variable tal : option (list Z).
  Variable http_enabled : bool.
  Variable sha256 : list Z -> list Z.
  Variable xml : list Z -> xdoc.
  Variable base64 : list Z -> option (list Z).
  Variable E : env.
  Variable notif : list Z.

  (** Where the object [u] of this repository is stored. *)
  Definition stored (u p : list Z) : Prop :=
    exists x, uri_create J repository tal UT_CAGED (Some notif) u = Ok x /\ u_local x = p.

  Lemma sysop_inv {A} f w w' (a : A) : sysop E f w = (w', Ret a) ->
    f (w_ops w) (w_files w) = (w_files w', Ret a) /\ e_dies E (w_ops w) = false /\
    w_attempts w' = w_attempts w /\ w_ops w' = S (w_ops w).
  Proof.
    unfold sysop. destruct (f (w_ops w) (w_files w)) as [fs r]. destruct (e_dies E (w_ops w)); intros H; inversion H; subst; auto.
  Qed.

  Lemma hash_inv p h w w' : hash_validate_file sha256 E p h w = (w', Ret tt) ->
    w_files w' = w_files w /\ w_attempts w' = w_attempts w /\ exists c, w_files w p = Some c /\ sha256 c = h.
  Proof.
    unfold hash_validate_file. intros H. apply sysop_inv in H. destruct H as (H & _ & A & _). destruct (w_files w p) as [c|] eqn:F; [|discriminate].
    destruct (negb (e_read E (w_ops w))); [inversion H|]. destruct (path_eqb h (sha256 c)) eqn:Q; [|discriminate].
    inversion H. apply path_eqb_true in Q. repeat split; auto. exists c. split; congruence.
  Qed.

  Definition no_trunc : Prop := forall n c, e_write E n <> WrTrunc c.

  Lemma write_inv p c w w' : no_trunc -> write_file E p c w = (w', Ret tt) ->
    w_files w' = set_file p (Some c) (w_files w) /\ w_attempts w' = w_attempts w.
  Proof.
    unfold write_file. intros NT H. apply sysop_inv in H. destruct H as (H & _ & A & _). specialize (NT (w_ops w)).
    destruct (e_write E (w_ops w)); inversion H; auto. exfalso. eapply NT; eauto.
  Qed.
  Lemma delete_inv p w w' : delete_file E p w = (w', Ret tt) ->
    w_files w' = set_file p None (w_files w) /\ w_attempts w' = w_attempts w.
  Proof.
    unfold delete_file. intros H. apply sysop_inv in H. destruct H as (H & _ & A & _).
    destruct (w_files w p); [|discriminate]. destruct (e_del E (w_ops w)) as [|[]]; inversion H; auto.
  Qed.

  Lemma metadata_inv n nt hr m : parse_file_metadata J repository tal n nt hr = Ok m ->
    exists u, attr n (cstr "uri") = Some u /\
      uri_create J repository tal (match nt with Some _ => UT_CAGED | None => UT_HTTPS end) nt u = Ok (m_uri m) /\
      match hr with
      | HR_IGNORE => m_hash m = None
      | HR_MANDATORY => exists x h, attr n (cstr "hash") = Some x /\ hex_bytes x h /\ length h = 32%nat /\ m_hash m = Some h
      | HR_OPTIONAL => (attr n (cstr "hash") = None /\ m_hash m = None) \/
          exists x h, attr n (cstr "hash") = Some x /\ hex_bytes x h /\ length h = 32%nat /\ m_hash m = Some h
      end.
  Proof.
    unfold parse_file_metadata. destruct (attr n (cstr "uri")) as [u|]; [|discriminate].
    destruct (uri_create _ _ _ _ _ u) as [x|e|] eqn:UC; cbn [bind]; try discriminate.
    intros H. exists u. split; auto.
    destruct hr; cbn [parse_hash] in H.
    - destruct (attr n (cstr "hash")) as [t|]; [|discriminate]. pose proof (hexstr_spec t) as S.
      destruct (hexstr2sha256 t) as [h|e|]; try discriminate. cbn [bind] in H. inversion H; subst; cbn. destruct S. split; [exact UC|]. exists t, h. auto.
    - destruct (attr n (cstr "hash")) as [t|]; cbn [bind] in H.
      + pose proof (hexstr_spec t) as S. destruct (hexstr2sha256 t) as [h|e|]; try discriminate. cbn [bind] in H. inversion H; subst; cbn.
        destruct S. split; [exact UC|]. right. exists t, h. auto.
      + inversion H; subst; cbn. auto.
    - inversion H; subst; cbn. auto.
  Qed.

  Definition cb (wh : bool) := if wh then xml_read_delta J repository tal sha256 base64 E notif
                               else xml_read_snapshot J repository tal sha256 base64 E notif.
  Definition hr_of (wh : bool) := if wh then HR_OPTIONAL else HR_IGNORE.
  Definition root_tag (wh : bool) : list Z := if wh then cstr "delta" else cstr "snapshot".

  Lemma publish_inv wh n rest w w' rest' : no_trunc ->
    handle_publish J repository tal sha256 base64 E n rest notif (hr_of wh) w = (w', Ret rest') ->
    exists t u c p, rest = t :: rest' /\ attr n (cstr "uri") = Some u /\
      (exists text, n_value t = Some text /\ base64 text = Some c) /\ stored u p /\
      w_files w' = set_file p (Some c) (w_files w) /\ w_attempts w' = w_attempts w /\
      ((wh = false \/ attr n (cstr "hash") = None) \/
       (wh = true /\ exists x h old, attr n (cstr "hash") = Some x /\ hex_bytes x h /\ length h = 32%nat /\
          w_files w p = Some old /\ sha256 old = h)).
  Proof.
    intros NT H. unfold handle_publish in H. apply andthen_inv in H. destruct H as ([[m c] r'] & w1 & H1 & H2).
    apply andthen_inv in H2. destruct H2 as ([] & w2 & H2 & H3). apply ret_inv in H3. destruct H3 as [-> ->].
    apply write_inv in H2; auto. destruct H2 as [F2 A2].
    unfold parse_publish in H1. apply andthen_inv in H1. destruct H1 as (m1 & w0 & H0 & H1).
    apply pure_inv in H0. destruct H0 as [-> PM]. apply metadata_inv in PM. destruct PM as (u & AU & UC & HH).
    destruct rest as [|t rest1]; [discriminate|].
    destruct (n_value t) as [text|] eqn:V; [|discriminate]. destruct (base64 text) as [content|] eqn:B; [|discriminate].
    destruct (m_hash m1) as [h|] eqn:MH.
    - apply andthen_inv in H1. destruct H1 as ([] & w3 & H3 & H1). apply ret_inv in H1. destruct H1 as [-> EQ]. inversion EQ; subst.
      unfold validate_hash in H3. rewrite MH in H3. apply hash_inv in H3. destruct H3 as (F3 & A3 & old & FO & SH).
      exists t, u, c, (u_local (m_uri m)). rewrite F2, F3, A2, A3. repeat split; eauto; [exists (m_uri m); auto|].
      right. destruct wh; cbn [hr_of] in HH; [|congruence]. destruct HH as [[_ ?]|(x & h' & X1 & X2 & X3 & X4)]; [congruence|].
      split; auto. exists x, h', old. repeat split; auto. congruence.
    - apply ret_inv in H1. destruct H1 as [-> EQ]. inversion EQ; subst.
      exists t, u, c, (u_local (m_uri m)). rewrite F2, A2. repeat split; eauto; [exists (m_uri m); auto|].
      left. destruct wh; cbn [hr_of] in HH; auto. right. destruct HH as [[]|(x & h' & X1 & X2 & X3 & X4)]; [auto|congruence].
  Qed.

  Lemma session_valid n s : validate_session n s = Ok tt <-> parse_session n = Ok s.
  Proof.
    unfold validate_session. destruct (parse_session n) as [a|e|]; cbn [bind]; [|split; discriminate|split; discriminate].
    change (list_eqb Z.eqb) with path_eqb.
    destruct (path_eqb (s_id s) (s_id a)) eqn:Q; cbn [negb].
    - apply path_eqb_true in Q. destruct (s_serial a =? s_serial s) eqn:S; cbn [negb].
      + split; auto. intros _. f_equal. destruct a, s; cbn in *. f_equal; [auto|lia].
      + split; [discriminate|]. intros H. inversion H; subst. lia.
    - apply path_eqb_false in Q. split; [discriminate|]. intros H. inversion H; subst. congruence.
  Qed.

  Lemma cb_inv wh s n rest w w' rest' : no_trunc -> cb wh s n rest w = (w', Ret rest') ->
    (n_type n <> NElement /\ rest' = rest /\ w' = w) \/
    (root_of n (root_tag wh) s /\ rest' = rest /\ w' = w) \/
    (n_type n = NElement /\ n_name n = cstr "publish" /\
     handle_publish J repository tal sha256 base64 E n rest notif (hr_of wh) w = (w', Ret rest')) \/
    (wh = true /\ n_type n = NElement /\ n_name n = cstr "withdraw" /\ rest' = rest /\
     handle_withdraw J repository tal sha256 E n notif w = (w', Ret tt)).
  Proof.
    intros NT. unfold cb. destruct wh; [unfold xml_read_delta|unfold xml_read_snapshot].
    - destruct (n_type n) eqn:T; [|intros H; apply ret_inv in H; left; repeat split; try congruence; intuition congruence..].
      destruct (is_elem n (cstr "publish")) eqn:I1. { apply is_elem_true in I1. intros H. right. right. left. auto. }
      destruct (is_elem n (cstr "withdraw")) eqn:I2.
      { apply is_elem_true in I2. intros H. right. right. right. apply andthen_inv in H. destruct H as ([] & w1 & H & R).
        apply ret_inv in R. destruct R; subst. auto. }
      destruct (is_elem n (cstr "delta")) eqn:I3; [|discriminate]. apply is_elem_true in I3.
      intros H. apply andthen_inv in H. destruct H as ([] & w1 & H & R). apply ret_inv in R. apply pure_inv in H.
      right. left. destruct R, H; subst. split; auto. split; auto. split; auto. apply session_valid; auto.
    - destruct (n_type n) eqn:T; [|intros H; apply ret_inv in H; left; repeat split; try congruence; intuition congruence..].
      destruct (is_elem n (cstr "publish")) eqn:I1. { apply is_elem_true in I1. intros H. right. right. left. auto. }
      destruct (is_elem n (cstr "snapshot")) eqn:I3; [|discriminate]. apply is_elem_true in I3.
      intros H. apply andthen_inv in H. destruct H as ([] & w1 & H & R). apply ret_inv in R. apply pure_inv in H.
      right. left. destruct R, H; subst. split; auto. split; auto. split; auto. apply session_valid; auto.
  Qed.

  Lemma loop_sound wh s ok : no_trunc -> forall fuel nodes w w', rng_loop (cb wh s) fuel nodes ok w = (w', Ret tt) ->
    ok = true /\ w_attempts w' = w_attempts w /\
    exists l, says base64 (root_tag wh) s wh nodes l /\ effect stored sha256 (w_files w) l (w_files w').
  Proof.
    intros NT. induction fuel as [|f IH]; intros nodes w w' H; cbn [rng_loop] in H; [discriminate|].
    destruct nodes as [|n rest].
    { destruct ok; [|discriminate]. apply ret_inv in H. destruct H as [-> _]. repeat split. exists []. split; constructor. intros p; auto. }
    destruct (n_valid n) eqn:NV; cbn [negb] in H; [|discriminate].
    apply andthen_inv in H. destruct H as (rest' & w1 & C & R). apply IH in R. destruct R as (-> & A & l & SY & EF).
    apply cb_inv in C; auto.
    destruct C as [(T & -> & ->)|[(RO & -> & ->)|[(T & NM & HP)|(-> & T & NM & -> & HW)]]].
    - repeat split; auto. exists l. split; auto. constructor; auto.
    - repeat split; auto. exists l. split; auto. apply sy_root; auto.
    - apply publish_inv in HP; auto. destruct HP as (t & u & c & p & -> & AU & TX & ST & F & A1 & HS).
      split; auto. split; [congruence|].
      assert (PB : publish_of base64 n t u c) by (repeat split; auto).
      rewrite F in EF. destruct HS as [HS|(-> & x & h & old & AH & HB & LH & FO & SH)].
      + exists (Publish u None c :: l). split; [eapply sy_publish; eauto|].
        eapply ef_publish; eauto. apply set_file_put.
      + exists (Publish u (Some h) c :: l). split; [eapply sy_replace; eauto|].
        eapply ef_replace; eauto. apply set_file_put.
    - unfold handle_withdraw in HW. apply andthen_inv in HW. destruct HW as (m & w2 & H1 & H2). apply pure_inv in H1.
      destruct H1 as [-> PM]. apply metadata_inv in PM. destruct PM as (u & AU & UC & x & h & AH & HB & LH & MH).
      apply andthen_inv in H2. destruct H2 as ([] & w3 & H2 & H3). unfold validate_hash in H2. rewrite MH in H2.
      apply hash_inv in H2. destruct H2 as (F2 & A2 & old & FO & SH). apply delete_inv in H3. destruct H3 as [F3 A3].
      split; auto. split; [congruence|]. rewrite F3, F2 in EF.
      exists (Withdraw u h :: l). split; [eapply sy_withdraw; eauto|].
      eapply ef_withdraw; eauto; [exists (m_uri m); eauto|apply set_file_put].
  Qed.

  (** *** The other way: nothing goes wrong. *)
  Definition calm : Prop := forall n, e_dies E n = false /\ e_write E n = WrOk /\ e_del E n = DelOk /\ e_read E n = true /\
    forall p, e_rm E n p = true.

  Lemma stored_fun u p q : stored u p -> stored u q -> p = q.
  Proof. intros (x & Ux & Px) (y & Uy & Py). rewrite Ux in Uy. inversion Uy; subst. auto. Qed.
  Lemma put_same p c fs fs1 g : put p c fs fs1 -> same_files fs g -> same_files fs1 (set_file p c g).
  Proof.
    intros [H1 H2] S q. unfold set_file. destruct (path_eqb q p) eqn:Q.
    - apply path_eqb_true in Q. subst. auto.
    - apply path_eqb_false in Q. rewrite H2 by auto. apply S.
  Qed.

  Lemma hex_parses x h : hex_bytes x h -> length h = 32%nat -> hexstr2sha256 x = Ok h.
  Proof.
    intros H L. pose proof (hexstr_spec x) as S. destruct (hexstr2sha256 x) as [h'|e|].
    - destruct S as [S _]. f_equal. eapply hex_bytes_fun; eauto.
    - destruct S as [_ S]. exfalso. eapply S; eauto.
    - destruct S.
  Qed.

  Lemma not_elem n s s' : n_name n = s -> path_eqb s s' = false -> is_elem n s' = false.
  Proof. unfold is_elem, path_eqb. intros -> H. exact H. Qed.

  Lemma loop_complete wh s : calm -> forall nodes l, says base64 (root_tag wh) s wh nodes l ->
    forall fs fs', effect stored sha256 fs l fs' -> forall w fuel, same_files fs (w_files w) -> (length nodes < fuel)%nat ->
    exists w', rng_loop (cb wh s) fuel nodes true w = (w', Ret tt) /\ same_files fs' (w_files w').
  Proof.
    intros CALM. induction 1 as [|n ns l NV T SY IH|n ns l NV RO SY IH|n t ns l u c NV PB HS SY IH
      |n t ns l u c x h NV PB WH AH HB LH SY IH|n ns l u x h NV WH T NM AU AH HB LH SY IH];
      intros fs fs' EF w fuel SF L; (destruct fuel as [|f]; [cbn in L; lia|]); cbn [rng_loop].
    - inversion EF; subst. exists w. split; auto. intros p. rewrite <- SF. symmetry. auto.
    - rewrite NV. cbn [negb]. destruct (IH _ _ EF w f SF ltac:(cbn in L; lia)) as (w' & R & S'). exists w'. split; auto.
      unfold andthen, cb. destruct wh; [unfold xml_read_delta|unfold xml_read_snapshot]; destruct (n_type n); try congruence; exact R.
    - rewrite NV. cbn [negb]. destruct (IH _ _ EF w f SF ltac:(cbn in L; lia)) as (w' & R & S'). exists w'. split; auto.
      destruct RO as (T & NM & PS). apply session_valid in PS.
      unfold andthen, cb. destruct wh; [unfold xml_read_delta|unfold xml_read_snapshot]; rewrite T.
      + rewrite (not_elem n _ (cstr "publish") NM eq_refl), (not_elem n _ (cstr "withdraw") NM eq_refl).
        assert (is_elem n (cstr "delta") = true) as -> by (apply is_elem_true; auto). rewrite PS. exact R.
      + rewrite (not_elem n _ (cstr "publish") NM eq_refl).
        assert (is_elem n (cstr "snapshot") = true) as -> by (apply is_elem_true; auto). rewrite PS. exact R.
    - rewrite NV. cbn [negb]. destruct PB as (T & NM & AU & text & V & B).
      inversion EF as [|? ? p ? fs1 ? ? ST PT EF1| |]; subst.
      pose proof (put_same _ _ _ _ _ PT SF) as SF1. destruct ST as (uri & UC & <-).
      set (w1 := {| w_files := set_file (u_local uri) (Some c) (w_files w); w_attempts := w_attempts w; w_ops := S (w_ops w) |}).
      destruct (IH _ _ EF1 w1 f SF1 ltac:(cbn in L; lia)) as (w' & R & S'). exists w'. split; auto.
      assert (HP : handle_publish J repository tal sha256 base64 E n (t :: ns) notif (hr_of wh) w = (w1, Ret ns)).
      { unfold handle_publish, parse_publish, parse_file_metadata, andthen, pure. rewrite AU, UC. cbn [bind].
        assert (MH : match hr_of wh with
          | HR_IGNORE => Ok {| m_uri := uri; m_hash := None |}
          | _ => bind (parse_hash n (hr_of wh)) (fun h => Ok {| m_uri := uri; m_hash := h |}) end = Ok {| m_uri := uri; m_hash := None |}).
        { destruct wh; cbn [hr_of]; auto. destruct HS as [|HS]; [discriminate|]. unfold parse_hash. rewrite HS. reflexivity. }
        rewrite MH, V, B. cbn [m_hash]. unfold ret, write_file, sysop. cbn [m_uri]. destruct (CALM (w_ops w)) as (D & W & _). rewrite W, D. reflexivity. }
      unfold andthen, cb. destruct wh; [unfold xml_read_delta|unfold xml_read_snapshot]; rewrite T;
        (assert (is_elem n (cstr "publish") = true) as -> by (apply is_elem_true; auto)); cbn [hr_of] in HP; rewrite HP; exact R.
    - rewrite NV. cbn [negb]. destruct PB as (T & NM & AU & text & V & B). subst wh.
      inversion EF as [| |? ? p ? old ? fs1 ? ? ST FO SH PT EF1|]; subst.
      pose proof (put_same _ _ _ _ _ PT SF) as SF1. destruct ST as (uri & UC & <-).
      set (w1 := {| w_files := set_file (u_local uri) (Some c) (w_files w); w_attempts := w_attempts w; w_ops := S (S (w_ops w)) |}).
      destruct (IH _ _ EF1 w1 f SF1 ltac:(cbn in L; lia)) as (w' & R & S'). exists w'. split; auto.
      assert (HP : handle_publish J repository tal sha256 base64 E n (t :: ns) notif HR_OPTIONAL w = (w1, Ret ns)).
      { unfold handle_publish, parse_publish, parse_file_metadata, andthen, pure. rewrite AU, UC. cbn [bind].
        unfold parse_hash. rewrite AH, (hex_parses _ _ HB LH). cbn [bind]. rewrite V, B. cbn [m_hash].
        unfold validate_hash, hash_validate_file, sysop, ret. cbn [m_hash m_uri]. rewrite <- SF, FO.
        destruct (CALM (w_ops w)) as (D & _ & _ & RD & _). rewrite RD, D. cbn [negb].
        assert (path_eqb (sha256 old) (sha256 old) = true) as -> by (apply path_eqb_true; auto).
        unfold write_file, sysop. cbn [w_ops w_files w_attempts]. destruct (CALM (S (w_ops w))) as (D' & W' & _). rewrite W', D'. reflexivity. }
      unfold andthen, cb, xml_read_delta. rewrite T.
      assert (is_elem n (cstr "publish") = true) as -> by (apply is_elem_true; auto). rewrite HP. exact R.
    - rewrite NV. cbn [negb]. subst wh.
      inversion EF as [| | |? ? p ? old fs1 ? ? ST FO SH PT EF1]; subst.
      pose proof (put_same _ _ _ _ _ PT SF) as SF1. destruct ST as (uri & UC & <-).
      set (w1 := {| w_files := set_file (u_local uri) None (w_files w); w_attempts := w_attempts w; w_ops := S (S (w_ops w)) |}).
      destruct (IH _ _ EF1 w1 f SF1 ltac:(cbn in L; lia)) as (w' & R & S'). exists w'. split; auto.
      assert (HP : handle_withdraw J repository tal sha256 E n notif w = (w1, Ret tt)).
      { unfold handle_withdraw, parse_file_metadata, andthen, pure. rewrite AU, UC. cbn [bind].
        unfold parse_hash. rewrite AH, (hex_parses _ _ HB LH). cbn [bind].
        unfold validate_hash, hash_validate_file, sysop, ret. cbn [m_hash m_uri]. rewrite <- SF, FO.
        destruct (CALM (w_ops w)) as (D & _ & _ & RD & _). rewrite RD, D. cbn [negb].
        assert (path_eqb (sha256 old) (sha256 old) = true) as -> by (apply path_eqb_true; auto).
        unfold delete_file, sysop. cbn [w_ops w_files w_attempts]. rewrite <- SF, FO. destruct (CALM (S (w_ops w))) as (D' & _ & W' & _). rewrite W', D'. reflexivity. }
      unfold andthen at 1, cb, xml_read_delta. rewrite T.
      rewrite (not_elem n _ (cstr "publish") NM eq_refl).
      assert (is_elem n (cstr "withdraw") = true) as -> by (apply is_elem_true; auto). unfold andthen. rewrite HP. exact R.
  Qed.
End Docs.
