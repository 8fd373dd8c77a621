(** Proofs for C104. *)
From Coq Require Import String.
From Verif Require Import Base BaseLemmas CString PathBuilder PathProofs Http HttpSpec HttpProofs Init InitSpec.
Notation length := List.length.
Open Scope list_scope.
Open Scope Z_scope.

Lemma body_empty a : body a = [] -> forall c, In c (at_chunks a) -> c = [].
Proof. unfold body. intros E c H. apply in_split in H. destruct H as (l1 & l2 & H). rewrite H, concat_app in E. cbn in E. apply app_eq_nil in E. destruct E as (_ & E). apply app_eq_nil in E. tauto. Qed.
Lemma perform_empty max a : forall cs i w, (forall j c, nth_error cs j = Some c -> at_fwrite a (i + j) = Z.of_nat (length c)) -> (forall c, In c cs -> c = []) -> wc_total w <= max -> wc_error w <> - E_FBIG -> 0 <= at_open a ->
  exists w', perform max a i cs w = (at_res a, w') /\ wc_error w' <> - E_FBIG /\ wc_data w' = wc_data w.
Proof.
  induction cs as [|c cs IH]; intros i w Hw He Ht Hr Ho; [exists w; auto|]. pose proof (He c (or_introl eq_refl)) as ->. cbn [perform]. unfold write_callback. cbn [length Z.of_nat]. rewrite Z.add_0_r.
  destruct (Z.ltb_spec max (wc_total w)); [lia|]. pose proof (Hw 0%nat [] eq_refl) as W0. rewrite Nat.add_0_r in W0. cbn in W0.
  assert (Hw' : forall j d, nth_error cs j = Some d -> at_fwrite a (S i + j) = Z.of_nat (length d)).
  { intros j d Hj. specialize (Hw (S j) d Hj). replace (S i + j)%nat with (i + S j)%nat by lia. exact Hw. }
  destruct (negb (wc_open w) && negb (at_open a =? 0))%bool.
  - cbn [Z.eqb]. destruct (IH (S i) {| wc_total := wc_total w; wc_error := at_open a; wc_open := false; wc_data := wc_data w |} Hw') as (w' & A); auto; [intros d Hd; apply He; right; exact Hd|cbn; unfold E_FBIG; lia|]. exists w'. exact A.
  - rewrite W0. cbn [Z.eqb Z.to_nat firstn]. rewrite app_nil_r. destruct (IH (S i) {| wc_total := wc_total w; wc_error := if wc_open w then wc_error w else 0; wc_open := true; wc_data := wc_data w |} Hw') as (w' & A); auto;
      [intros d Hd; apply He; right; exact Hd|cbn; destruct (wc_open w); [exact Hr|unfold E_FBIG; lia]|]. exists w'. exact A.
Qed.
Lemma success_zero max dst a f : sane a -> 0 <= max -> success max a -> st_error (http_fetch max dst a f) = 0.
Proof.
  intros Sa Hm (S1 & S2 & S3 & S4 & S5 & S6 & S7 & S8). destruct (body a) as [|b0 bs] eqn:Eb.
  - unfold http_fetch. rewrite S1. cbn [negb]. destruct (perform_empty max a (at_chunks a) 0%nat {| wc_total := 0; wc_error := 0; wc_open := false; wc_data := [] |}) as (w & E & N & _);
      [exact S8|apply body_empty; exact Eb|exact Hm|unfold E_FBIG; cbn; lia|apply Sa|]. rewrite E, S3. unfold fetch_result, validate_file_size. rewrite S2. apply Z.eqb_neq in N. rewrite N. cbn [Z.eqb negb].
    destruct (Z.leb_spec 400 (at_code a)); [lia|]. apply Z.eqb_neq in S5. rewrite S5. cbn. destruct (at_code a =? 304); reflexivity.
  - apply fresh_result; auto. assert (T : transferred a). { unfold transferred. split; [exact S1|]. split; [exact S2|]. split; [exact S3|]. split; [intros _; apply S7; discriminate|exact S8]. }
    destruct (Z.eq_dec (at_code a) 304) as [E|N]; [right; split; auto|left; unfold fresh; rewrite Eb; auto].
Qed.
Lemma result_errors a r w e ch : fetch_result a r w = (e, ch) -> In e [0; -22; 11; -27].
Proof.
  unfold fetch_result. assert (V : In (validate_file_size w) [0; -22; 11; -27]) by (unfold validate_file_size; destruct (wc_error w =? - E_FBIG); cbn; auto).
  assert (H : In (handle_http_response_code (at_code a)) [0; -22; 11; -27]).
  { unfold handle_http_response_code. destruct ((at_code a =? 408) || (at_code a =? 429))%bool; [cbn; auto|]. destruct ((500 <=? at_code a) && (at_code a <? 600))%bool; cbn; auto. }
  destruct (negb (validate_file_size w =? 0)); [intros E; injection E as <- <-; exact V|]. destruct (negb (at_getinfo a)); [intros E; injection E as <- <-; cbn; auto|].
  destruct (negb (r =? 0)). { intros E. injection E as <- <-. destruct (r =? 63); [cbn; auto|]. destruct ((r =? 28) || (r =? 6) || (r =? 5) || (r =? 12))%bool; [cbn; auto|]. destruct (r =? 47); [cbn; auto|exact H]. }
  destruct ((400 <=? at_code a) || (at_code a =? 204))%bool; [intros E; injection E as <- <-; exact H|]. destruct (at_code a =? 304); intros E; injection E as <- <-; cbn; auto.
Qed.
Lemma direct_spec max dst a f : sane a -> 0 <= max -> let s := http_direct_download max dst a f in
  elsewhere dst f (st_fs s) /\ Forall (elsewhere dst f) (st_trace s) /\ In (st_error s) [0; -22; 11; -27] /\ (st_error s = 0 <-> success max a) /\
  (st_error s = 0 -> arrived a (f dst) (st_fs s dst)) /\ (st_error s <> 0 -> at_init a = true -> st_fs s dst = None).
Proof.
  intros Sa Hm s. unfold s, http_direct_download. clear s. destruct (fetch_spec max dst a f Sa Hm) as (F1 & F2 & F3 & F4 & F5). set (s := http_fetch max dst a f) in *.
  split; [exact F1|]. split; [exact F2|].
  assert (Q : In (st_error s) [0; -22; 11; -27] /\ (st_error s <> 0 -> at_init a = true -> st_fs s dst = None) /\ (body a = [] -> st_error s = 0 -> st_fs s dst = f dst \/ st_fs s dst = Some [])).
  { unfold s, http_fetch. destruct (at_init a) eqn:Ei; cbn [negb]; [|split; [cbn; auto|split; [intros _ K; discriminate K|intros _ K; discriminate K]]].
    destruct (perform max a 0 (at_chunks a) _) as (r, w) eqn:Ep. destruct (fetch_result a r w) as (e, ch) eqn:Er. cbn [st_error st_fs]. split; [eapply result_errors; exact Er|]. split.
    - intros N _. apply Z.eqb_neq in N. rewrite N. apply put_same.
    - intros Eb ->. cbn [Z.eqb]. destruct (wc_open w); [right|left; reflexivity]. rewrite put_same. f_equal. destruct (result_spec _ _ _ _ _ Er) as (R0 & _). destruct (R0 eq_refl) as (_ & _ & R & _).
      destruct Sa as (Sw & So & _). destruct (perform_spec max a So (at_chunks a) 0%nat {| wc_total := 0; wc_error := 0; wc_open := false; wc_data := [] |} r w Sw Hm ltac:(cbn; discriminate) Ep) as [(_ & P & _)|P]; [|congruence].
      cbn in P. fold (body a) in P. rewrite P, Eb. apply firstn_nil. }
  destruct Q as (Q1 & Q2 & Q3). split; [exact Q1|]. split; [split|split; [|exact Q2]].
  - intros E. destruct (st_changed s) eqn:Ec.
    + destruct (F4 E eq_refl) as (G1 & G2 & G3 & G4 & G5 & G6 & G7 & G8 & G9). unfold success. repeat (split; [assumption|]). split; [|exact G8]. intros N. destruct G9 as [(G & _)|(_ & G)]; [exact G|contradiction].
    + destruct (F5 E eq_refl) as (((T1 & T2 & T3 & T4 & T5) & U) & _). pose proof Sa as (_ & _ & S3). specialize (S3 U). unfold success, body. rewrite S3. cbn. repeat (split; [assumption || lia|]). split; [congruence|]. intros i c K. destruct i; discriminate K.
  - intros H. apply success_zero; auto.
  - intros E. split; [|intros Eb; apply Q3; auto]. intros N. destruct (st_changed s) eqn:Ec.
    + destruct (F4 E eq_refl) as (G1 & G2 & G3 & G4 & G5 & G6 & G7 & G8 & G9). destruct G9 as [(_ & G)|(_ & G)]; [exact G|contradiction].
    + destruct (F5 E eq_refl) as ((_ & U) & _). pose proof Sa as (_ & _ & S3). specialize (S3 U). unfold body in N. rewrite S3 in N. contradiction N. reflexivity.
Qed.

Section Run.
  Variable J max : Z.
  Variable tal : list Z.
  Variable srv : list Z -> attempt.
  Hypothesis Hm : 0 <= max.
  Hypothesis Sn : forall u, sane (srv u).
  Hypothesis T0 : tal <> [].
  Hypothesis TN : ~ In 0 tal.

  (** One element of a list: the request, and what it was. *)
  Definition stepped (x : string * string) (r r' : run) (e : Z) : Prop :=
    (~ short (file tal x) /\ e = 28 /\ r_fs r' = r_fs r /\ r_trace r' = r_trace r /\ r_requests r' = r_requests r /\ r_said r' = r_said r ++ [NoPath 28]) \/
    (short (file tal x) /\ r_requests r' = r_requests r ++ [url x] /\ elsewhere (file tal x) (r_fs r) (r_fs r') /\
     (exists t, r_trace r' = r_trace r ++ t /\ Forall (elsewhere (file tal x) (r_fs r)) t) /\
     (e = 0 /\ success max (srv (url x)) /\ arrived (srv (url x)) (r_fs r (file tal x)) (r_fs r' (file tal x)) /\ r_said r' = r_said r ++ [Fetched (file tal x)] \/
      e <> 0 /\ ~ success max (srv (url x)) /\ (at_init (srv (url x)) = true -> r_fs r' (file tal x) = None) /\ exists n, In (n, Z.land e 255) failures /\ r_said r' = r_said r ++ [NotFetched (file tal x) n])).
  Lemma fetch_step x r : ~ In 0 (cstr (snd x)) -> cstr (snd x) <> [] ->
    exists e r', fetch_url J max tal srv (url x) (cstr (snd x)) r = Ok (e, r') /\ stepped x r r' e.
  Proof.
    intros N0 N1. unfold fetch_url. destruct (append_spec J (pb_init J) [] tal (init_repr J) TN) as (A1 & A2).
    assert (G : (match tal with [] => [] | _ => glue [] tal end) = tal) by (destruct tal; reflexivity). rewrite G in A1, A2.
    assert (SH : short (file tal x) <-> fits (glue tal (cstr (snd x)))).
    { unfold short, fits, file, glue. destruct tal; [congruence|]. change (cstr "/") with [47]. rewrite !app_length. cbn [length]. lia. }
    destruct (le_lt_dec (length tal + 1) 4096) as [L|L].
    2:{ rewrite (A2 ltac:(unfold fits; lia)). exists 28. eexists. split; [reflexivity|]. left. split; [|cbn; auto]. rewrite SH. unfold fits, glue. destruct tal; [congruence|]. rewrite !app_length. cbn [length] in *. lia. }
    destruct (A1 L) as (pb & E & R). rewrite E. destruct (append_spec J pb tal (cstr (snd x)) R N0) as (B1 & B2).
    assert (G2 : (match cstr (snd x) with [] => tal | _ => glue tal (cstr (snd x)) end) = glue tal (cstr (snd x))) by (destruct (cstr (snd x)); [congruence|reflexivity]). rewrite G2 in B1, B2.
    assert (D : fits (glue tal (cstr (snd x))) \/ ~ fits (glue tal (cstr (snd x)))) by (unfold fits; lia).
    destruct D as [D|D].
    2:{ rewrite (B2 D). exists 28. eexists. split; [reflexivity|]. left. split; [rewrite SH; exact D|cbn; auto]. }
    destruct (B1 D) as (pb' & E' & R'). rewrite E'. rewrite (string_spec _ _ R'). cbn [bind].
    assert (F : glue tal (cstr (snd x)) = file tal x) by (unfold glue, file; destruct tal; [congruence|reflexivity]). rewrite F.
    destruct (direct_spec max (file tal x) (srv (url x)) (r_fs r) (Sn _) Hm) as (P1 & P2 & P3 & P4 & P5 & P6). set (s := http_direct_download _ _ _ _) in *.
    eexists. eexists. split; [reflexivity|]. right. split; [rewrite SH; exact D|]. cbn [r_requests r_fs r_trace r_said]. split; [reflexivity|]. split; [exact P1|]. split; [exists (st_trace s); auto|].
    destruct (Z.eqb_spec (st_error s) 0) as [E0|E0].
    - left. split; [exact E0|]. split; [apply P4; exact E0|]. split; [apply P5; exact E0|reflexivity].
    - right. split; [exact E0|]. split; [intros K; apply E0; apply P4; exact K|]. split; [apply P6; exact E0|]. exists (Z.abs (st_error s)). split; [|reflexivity].
      cbn in P3. destruct P3 as [P3|[P3|[P3|[P3|[]]]]]; [congruence| | |]; rewrite <- P3; cbn; auto.
  Qed.

  (** A list of them. *)
  Fixpoint fetch_all (l : list (string * string)) (r : run) : res (Z * run) :=
    match l with
    | [] => Ok (0, r)
    | x :: l => and_then (fetch_url J max tal srv (url x) (cstr (snd x)) r) (fetch_all l)
    end.
  Lemma all_app l1 l2 r : fetch_all (l1 ++ l2) r = and_then (fetch_all l1 r) (fetch_all l2).
  Proof.
    revert r. induction l1 as [|x l1 IH]; intros r; cbn [app fetch_all]; [reflexivity|]. unfold and_then. destruct (fetch_url J max tal srv (url x) (cstr (snd x)) r) as [[e r']| |]; cbn [bind]; try reflexivity.
    destruct (negb (e =? 0)) eqn:Ee; cbn [bind]; [rewrite Ee; reflexivity|]. rewrite IH. reflexivity.
  Qed.
  Lemma last_step x r : and_then (fetch_url J max tal srv (url x) (cstr (snd x)) r) (fun r => Ok (0, r)) = fetch_url J max tal srv (url x) (cstr (snd x)) r.
  Proof. unfold and_then. destruct (fetch_url J max tal srv (url x) (cstr (snd x)) r) as [[e r']| |]; cbn [bind]; try reflexivity. destruct (Z.eqb_spec e 0); [subst; reflexivity|reflexivity]. Qed.
  Lemma and_then_ext x f g : (forall r, f r = g r) -> and_then x f = and_then x g.
  Proof. intros H. unfold and_then. destruct x as [[e r]| |]; cbn [bind]; try reflexivity. destruct (negb (e =? 0)); [reflexivity|apply H]. Qed.
  Lemma tals_all r : download_tals J max tal srv r = fetch_all core r.
  Proof. unfold download_tals, core. cbn [fetch_all]. do 4 (apply and_then_ext; intros ?). symmetry. apply (last_step ("https://tal.rpki.ripe.net/ripe-ncc.tal", "ripe-ncc.tal")%string). Qed.
  Lemma tal0s_all r : download_tal0s J max tal srv r = fetch_all as0 r.
  Proof. unfold download_tal0s, as0. cbn [fetch_all]. apply and_then_ext; intros ?. symmetry. apply (last_step ("https://www.lacnic.net/innovaportal/file/4983/1/lacnic-as0.tal", "lacnic-as0.tal")%string). Qed.
  Lemma init_all a b f : init_tals J max tal srv a b f = bind (fetch_all (wanted a b) {| r_fs := f; r_trace := []; r_requests := []; r_said := [] |}) (fun '(e, r) => Ok (Z.land e 255, r)).
  Proof.
    unfold init_tals, wanted. rewrite all_app. set (r0 := {| r_fs := f; r_trace := []; r_requests := []; r_said := [] |}).
    assert (E : (if a then download_tals J max tal srv r0 else Ok (0, r0)) = fetch_all (if a then core else []) r0) by (destruct a; [apply tals_all|reflexivity]). rewrite E.
    destruct (fetch_all (if a then core else []) r0) as [[e r]| |]; cbn [bind and_then]; try reflexivity.
    destruct (Z.eqb_spec e 0) as [->|N]; cbn [negb andb]; [|reflexivity]. destruct b; [rewrite tal0s_all; reflexivity|reflexivity].
  Qed.

  Definition within (l : list (string * string)) (f g : fs) : Prop := forall m, (forall x, In x l -> m <> file tal x) -> g m = f m.
  Lemma file_inj x y : file tal x = file tal y -> cstr (snd x) = cstr (snd y).
  Proof. unfold file. intros H. apply app_inv_head in H. apply app_inv_head in H. exact H. Qed.
  Lemma all_spec l : (forall x, In x l -> ~ In 0 (cstr (snd x)) /\ cstr (snd x) <> []) -> NoDup (map (fun x => cstr (snd x)) l) -> forall r,
    exists e r', fetch_all l r = Ok (e, r') /\ exists done rest, l = done ++ rest /\
      Forall (fun x => short (file tal x) /\ success max (srv (url x)) /\ arrived (srv (url x)) (r_fs r (file tal x)) (r_fs r' (file tal x))) done /\
      within (done ++ firstn 1 rest) (r_fs r) (r_fs r') /\ (exists t, r_trace r' = r_trace r ++ t /\ Forall (within (done ++ firstn 1 rest) (r_fs r)) t) /\
      match rest with
      | [] => e = 0 /\ r_requests r' = r_requests r ++ map url done /\ r_said r' = r_said r ++ map (fun x => Fetched (file tal x)) done
      | x :: _ => e <> 0 /\
        (~ short (file tal x) /\ e = 28 /\ r_requests r' = r_requests r ++ map url done /\ r_said r' = r_said r ++ map (fun x => Fetched (file tal x)) done ++ [NoPath 28] /\ r_fs r' (file tal x) = r_fs r (file tal x) \/
         short (file tal x) /\ ~ success max (srv (url x)) /\ r_requests r' = r_requests r ++ map url done ++ [url x] /\ (at_init (srv (url x)) = true -> r_fs r' (file tal x) = None) /\
         exists n, In (n, Z.land e 255) failures /\ r_said r' = r_said r ++ map (fun x => Fetched (file tal x)) done ++ [NotFetched (file tal x) n])
      end.
  Proof.
    induction l as [|x l IH]; intros Hn Hd r.
    - exists 0, r. split; [reflexivity|]. exists [], []. cbn. rewrite !app_nil_r. split; [reflexivity|]. split; [constructor|]. split; [intros m _; reflexivity|]. split; [exists []; rewrite app_nil_r; auto|auto].
    - cbn [map] in Hd. inversion Hd as [|? ? Hx Hd']; subst. destruct (Hn x (or_introl eq_refl)) as (N0 & N1). destruct (fetch_step x r N0 N1) as (e & r1 & E & S1). cbn [fetch_all]. unfold and_then at 1. rewrite E. cbn [bind].
      assert (NX : forall y, In y l -> file tal y <> file tal x). { intros y Hy K. apply Hx. apply file_inj in K. rewrite <- K. apply (in_map (fun x => cstr (snd x))). exact Hy. }
      destruct S1 as [(B1 & -> & B3 & B4 & B5 & B6)|(B1 & B2 & B3 & (t1 & B4 & B5) & B6)].
      + cbn [Z.eqb negb]. exists 28, r1. split; [reflexivity|]. exists [], (x :: l). cbn [app firstn]. split; [reflexivity|]. split; [constructor|]. split; [intros m _; rewrite B3; reflexivity|].
        split; [exists []; rewrite app_nil_r; auto|]. split; [discriminate|]. left. cbn. rewrite app_nil_r, B3. auto 10.
      + destruct B6 as [(-> & C1 & C2 & C3)|(Ne & C1 & C2 & n & C3 & C4)].
        * cbn [Z.eqb negb]. destruct (IH ltac:(intros y Hy; apply Hn; right; exact Hy) Hd' r1) as (e & r' & E' & done & rest & -> & F & W & (t2 & T1 & T2) & M). exists e, r'. split; [exact E'|]. exists (x :: done), rest. split; [reflexivity|].
          assert (WX : forall g, within (done ++ firstn 1 rest) (r_fs r1) g -> within ((x :: done) ++ firstn 1 rest) (r_fs r) g).
          { intros g Hg m Hm'. rewrite Hg; [apply B3; apply Hm'; left; reflexivity|]. intros y Hy. apply Hm'. right. exact Hy. }
          assert (I1 : forall y, In y (done ++ firstn 1 rest) -> In y (done ++ rest)). { intros y Hy. apply in_app_or in Hy. apply in_or_app. destruct Hy as [Hy|Hy]; [left; exact Hy|right; rewrite <- (firstn_skipn 1 rest); apply in_or_app; left; exact Hy]. }
          split; [|split; [exact (WX _ W)|split]].
          { constructor. - split; [exact B1|]. split; [exact C1|]. rewrite (W (file tal x)); [exact C2|]. intros y Hy K. apply (NX y (I1 y Hy)). congruence.
            - apply Forall_forall. intros y Hy. rewrite Forall_forall in F. destruct (F y Hy) as (F1 & F2 & F3). split; [exact F1|]. split; [exact F2|]. rewrite <- (B3 (file tal y)); [exact F3|]. apply NX. apply in_or_app. left. exact Hy. }
          { exists (t1 ++ t2). split; [rewrite T1, B4, app_assoc; reflexivity|]. apply Forall_app. split.
            - eapply Forall_impl; [|exact B5]. intros g Hg m Hm'. apply Hg. apply Hm'. left. reflexivity.
            - eapply Forall_impl; [|exact T2]. intros g Hg. apply WX. exact Hg. }
          destruct rest as [|z rest].
          { destruct M as (M1 & M2 & M3). split; [exact M1|]. rewrite M2, M3, B2, C3. cbn [map]. rewrite <- !app_assoc. auto. }
          { destruct M as (M0 & M). split; [exact M0|]. destruct M as [(M1 & M2 & M3 & M4 & M5)|(M1 & M2 & M3 & M4 & n & M5 & M6)]; [left|right].
            - rewrite M3, M4, B2, C3. cbn [map]. rewrite <- !app_assoc. repeat (split; [assumption || reflexivity|]). rewrite M5. apply B3. apply NX. apply in_or_app. right. left. reflexivity.
            - rewrite M3, B2. cbn [map]. rewrite <- !app_assoc. repeat (split; [assumption || reflexivity|]). exists n. rewrite M6, C3. cbn [map]. rewrite <- !app_assoc. auto. }
        * apply Z.eqb_neq in Ne as Ne'. rewrite Ne'. cbn [negb]. exists e, r1. split; [reflexivity|]. exists [], (x :: l). cbn [app firstn map]. split; [reflexivity|]. split; [constructor|].
          split; [intros m Hm'; apply B3; apply Hm'; left; reflexivity|]. split; [exists t1; split; [exact B4|]; eapply Forall_impl; [|exact B5]; intros g Hg m Hm'; apply Hg; apply Hm'; left; reflexivity|].
          split; [exact Ne|]. right. repeat (split; [assumption|]). exists n. auto.
  Qed.
End Run.
