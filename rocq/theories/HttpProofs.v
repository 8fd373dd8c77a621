(** Proofs for C84. *)
From Verif Require Import Base BaseLemmas Http HttpSpec.
Notation length := List.length.

Lemma path_eqb_spec a b : reflect (a = b) (path_eqb a b).
Proof. unfold path_eqb. destruct (list_eqb Z.eqb a b) eqn:E; constructor; [apply (list_eqb_spec Z.eqb Z.eqb_eq) in E; exact E|]. intros K. apply (list_eqb_spec Z.eqb Z.eqb_eq) in K. congruence. Qed.
Lemma put_same f n c : put f n c n = c.
Proof. unfold put. destruct (path_eqb_spec n n); congruence. Qed.
Lemma put_other f n c m : m <> n -> put f n c m = f m.
Proof. unfold put. intros H. destruct (path_eqb_spec m n); congruence. Qed.

Lemma perform_spec max a : 0 <= at_open a -> forall cs i w r w',
  (forall j c, nth_error cs j = Some c -> 0 <= at_fwrite a (i + j) <= Z.of_nat (length c)) ->
  wc_total w <= max -> wc_error w <> - E_FBIG ->
  perform max a i cs w = (r, w') ->
  (r = at_res a /\ wc_data w' = wc_data w ++ concat cs /\ (wc_open w' = false -> wc_open w = false /\ concat cs = []) /\ wc_error w' <> - E_FBIG /\
   wc_total w' = wc_total w + Z.of_nat (length (concat cs)) /\ wc_total w' <= max /\
   (wc_open w = false -> wc_open w' = true -> at_open a = 0) /\ (wc_open w' = true -> wc_open w = true \/ cs <> []) /\
   (forall j c, nth_error cs j = Some c -> at_fwrite a (i + j) = Z.of_nat (length c) \/ c = [])) \/ r = 23.
Proof.
  intros Ho. induction cs as [|c cs IH]; intros i w r w' Hs Ht He E; cbn [perform] in E.
  - injection E as <- <-. left. cbn [concat length]. rewrite app_nil_r. repeat split; auto; try lia; try congruence. intros j c Hj. destruct j; discriminate Hj.
  - destruct (write_callback max a i c w) as (r1, w1) eqn:E1. destruct (Z.eqb_spec r1 (Z.of_nat (length c))) as [Er|Nr]; [|injection E as <- <-; right; reflexivity].
    unfold write_callback in E1. pose proof (Hs 0%nat c eq_refl) as H0. rewrite Nat.add_0_r in H0.
    assert (Hs' : forall j d, nth_error cs j = Some d -> 0 <= at_fwrite a (S i + j) <= Z.of_nat (length d)).
    { intros j d Hj. specialize (Hs (S j) d Hj). replace (S i + j)%nat with (i + S j)%nat by lia. exact Hs. }
    destruct (Z.ltb_spec max (wc_total w + Z.of_nat (length c))) as [L|L].
    { injection E1 as <- <-. lia. }
    destruct (negb (wc_open w) && negb (at_open a =? 0)) eqn:Eo.
    + injection E1 as <- <-. assert (Lc : c = []) by (destruct c; [reflexivity|cbn in Er; lia]). subst c. apply andb_prop in Eo. destruct Eo as (Eo1 & Eo2). apply negb_true_iff in Eo1, Eo2. apply Z.eqb_neq in Eo2.
      cbn [length Z.of_nat] in *. rewrite Z.add_0_r in *.
      destruct (fun u v => IH (S i) _ r w' Hs' u v E) as [(A1 & A2 & A3 & A4 & A5 & A6 & A7 & A8 & A9)|A]; [cbn; lia|cbn; unfold E_FBIG; lia|left|right; exact A]. cbn [wc_data wc_open wc_total wc_error concat app] in *.
      split; [exact A1|]. split; [exact A2|]. split; [intros K; split; [exact Eo1|apply (A3 K)]|]. split; [exact A4|]. split; [exact A5|]. split; [exact A6|].
      split; [intros _ K; exact (A7 eq_refl K)|]. split; [intros K; right; discriminate|]. intros [|j] d Hj; [injection Hj as <-; right; reflexivity|]. replace (i + S j)%nat with (S i + j)%nat by lia. exact (A9 j d Hj).
    + injection E1 as <- <-. rewrite Er, Nat2Z.id, firstn_all in E.
      destruct (fun u v => IH (S i) _ r w' Hs' u v E) as [(A1 & A2 & A3 & A4 & A5 & A6 & A7 & A8 & A9)|A]; [cbn; lia|cbn; destruct (wc_open w); [exact He|unfold E_FBIG; lia]|left|right; exact A]. cbn [wc_data wc_open wc_total wc_error concat] in *.
      split; [exact A1|]. split; [rewrite A2, <- app_assoc; reflexivity|]. split; [intros K; destruct (A3 K) as (K' & _); discriminate K'|]. split; [exact A4|]. split; [rewrite A5, app_length; lia|]. split; [exact A6|].
      split; [intros K _; rewrite K in Eo; cbn in Eo; apply negb_false_iff in Eo; apply Z.eqb_eq in Eo; exact Eo|]. split; [intros _; right; discriminate|].
      intros [|j] d Hj; [injection Hj as <-; left; rewrite Nat.add_0_r; congruence|]. replace (i + S j)%nat with (S i + j)%nat by lia. exact (A9 j d Hj).
Qed.
Definition elsewhere (dst : path) (f g : fs) : Prop := forall n, n <> dst -> g n = f n.
Lemma code_not0 c : handle_http_response_code c <> 0.
Proof. unfold handle_http_response_code, E_AGAIN, E_INVAL. destruct ((c =? 408) || (c =? 429)); [lia|]. destruct ((500 <=? c) && (c <? 600)); lia. Qed.
Lemma result_spec a r w e ch : fetch_result a r w = (e, ch) ->
  (e = 0 -> wc_error w <> - E_FBIG /\ at_getinfo a = true /\ r = 0 /\ at_code a < 400 /\ at_code a <> 204 /\ (ch = false <-> at_code a = 304)) /\ (ch = true -> e = 0).
Proof.
  unfold fetch_result, validate_file_size. pose proof (code_not0 (at_code a)) as N. intros E.
  destruct (Z.eqb_spec (wc_error w) (- E_FBIG)) as [K|K]; cbn in E; [injection E as <- <-; split; [discriminate|discriminate]|].
  destruct (at_getinfo a); cbn in E; [|injection E as <- <-; split; [discriminate|discriminate]].
  destruct (Z.eqb_spec r 0) as [R|R]; cbn in E.
  - destruct (Z.leb_spec 400 (at_code a)) as [L|L]; cbn in E; [injection E as <- <-; split; [intros; contradiction|discriminate]|].
    destruct (Z.eqb_spec (at_code a) 204) as [L2|L2]; cbn in E; [injection E as <- <-; split; [intros; contradiction|discriminate]|].
    destruct (Z.eqb_spec (at_code a) 304) as [L3|L3]; injection E as <- <-; (split; [intros _; repeat split; auto; try lia; try discriminate; try congruence|auto]).
  - destruct (r =? 63); [injection E as <- <-; split; discriminate|]. destruct ((r =? 28) || (r =? 6) || (r =? 5) || (r =? 12)); [injection E as <- <-; split; discriminate|].
    destruct (r =? 47); [injection E as <- <-; split; discriminate|]. injection E as <- <-. split; [intros; contradiction|discriminate].
Qed.

Lemma fetch_spec max dst a f : sane a -> 0 <= max ->
  let s := http_fetch max dst a f in
  elsewhere dst f (st_fs s) /\ Forall (elsewhere dst f) (st_trace s) /\
  (st_error s <> 0 -> st_changed s = false /\ (f dst = None -> st_fs s dst = None)) /\
  (st_error s = 0 -> st_changed s = true -> at_init a = true /\ at_getinfo a = true /\ at_res a = 0 /\ at_code a < 400 /\ at_code a <> 204 /\ at_code a <> 304 /\
     Z.of_nat (length (body a)) <= max /\ (forall i c, nth_error (at_chunks a) i = Some c -> at_fwrite a i = Z.of_nat (length c)) /\
     (at_open a = 0 /\ st_fs s dst = Some (firstn (at_flush a) (body a)) \/ st_fs s dst = f dst /\ body a = [])) /\
  (st_error s = 0 -> st_changed s = false -> unchanged a /\ st_fs s dst = f dst).
Proof.
  intros (Sw & So & S3) Hm s. unfold s, http_fetch. clear s. destruct (at_init a) eqn:Ei; cbn [negb].
  2:{ cbn [st_error st_changed st_fs st_trace]. split; [intros n _; reflexivity|]. split; [constructor|]. split; [auto|]. split; intros K; discriminate K. }
  destruct (perform max a 0 (at_chunks a) _) as (r, w) eqn:Ep. destruct (fetch_result a r w) as (e, ch) eqn:Er. cbn [st_error st_changed st_fs st_trace].
  pose proof (perform_spec max a So (at_chunks a) 0%nat {| wc_total := 0; wc_error := 0; wc_open := false; wc_data := [] |} r w Sw Hm ltac:(cbn; discriminate) Ep) as P. cbn [wc_data wc_open wc_total app] in P.
  destruct (result_spec a r w e ch Er) as (R0 & R1).
  set (f1 := if wc_open w then put f dst (Some []) else f). set (f2 := if wc_open w then put f dst (Some (firstn (at_flush a) (wc_data w))) else f).
  assert (B1 : elsewhere dst f f1) by (intros n Hn; unfold f1; destruct (wc_open w); [apply put_other; exact Hn|reflexivity]).
  assert (B2 : elsewhere dst f f2) by (intros n Hn; unfold f2; destruct (wc_open w); [apply put_other; exact Hn|reflexivity]).
  assert (B3 : elsewhere dst f (if e =? 0 then f2 else put f2 dst None)).
  { intros n Hn. destruct (e =? 0); [apply B2; exact Hn|]. rewrite put_other by exact Hn. apply B2. exact Hn. }
  split; [exact B3|]. split; [repeat (constructor; try assumption)|]. split; [|split].
  - intros N. split; [destruct ch; [exfalso; apply N; apply R1; reflexivity|reflexivity]|]. intros _. apply Z.eqb_neq in N. rewrite N. apply put_same.
  - intros E0 C1. rewrite E0. cbn [Z.eqb]. destruct (R0 E0) as (W1 & G & -> & L1 & L2 & L3).
    destruct P as [(P1 & P2 & P3 & P4 & P5 & P6 & P7 & P8 & P9)|P]; [|discriminate P].
    split; [reflexivity|]. split; [exact G|]. split; [congruence|]. split; [exact L1|]. split; [exact L2|]. split; [intros K; apply L3 in K; congruence|].
    split; [unfold body; lia|]. split.
    + intros i c Hc. destruct (P9 i c Hc) as [K|K]; [exact K|]. subst c. specialize (Sw i [] Hc). cbn in *. lia.
    + unfold f2. rewrite P2. destruct (wc_open w) eqn:Ew; [left; split; [apply P7; reflexivity|apply put_same]|right; split; [reflexivity|apply P3; reflexivity]].
  - intros E0 C1. rewrite E0. cbn [Z.eqb]. destruct (R0 E0) as (W1 & G & -> & L1 & L2 & L3). apply L3 in C1.
    specialize (S3 C1). destruct P as [(P1 & P2 & P3 & P4 & P5 & P6 & P7 & P8 & P9)|P]; [|discriminate P].
    split; [split; [|exact C1]|].
    + unfold transferred. rewrite S3. repeat split; auto; try congruence. intros i c K. destruct i; discriminate K.
    + unfold f2. rewrite S3 in P8. destruct (wc_open w); [|reflexivity]. destruct (P8 eq_refl) as [K|K]; congruence.
Qed.

(** All attempts of a list of states. *)
Lemma elsewhere_trans dst f g h : elsewhere dst f g -> elsewhere dst g h -> elsewhere dst f h.
Proof. intros A B n Hn. rewrite (B n Hn). apply A. exact Hn. Qed.
Definition done (max : Z) (dst : path) (srv : nat -> attempt) (lo hi : nat) (s : step) : Prop :=
  exists k, (lo <= k <= hi)%nat /\ (forall i, (lo <= i < k)%nat -> ~ fresh max (srv i) /\ ~ unchanged (srv i)) /\
    (st_changed s = false /\ unchanged (srv k) /\ st_fs s dst = None \/
     st_changed s = true /\ (at_open (srv k) = 0 /\ fresh max (srv k) /\ st_fs s dst = Some (firstn (at_flush (srv k)) (body (srv k))) \/ st_fs s dst = None)).
Lemma fresh_result max dst a f : sane a -> 0 <= max -> fresh max a \/ unchanged a -> st_error (http_fetch max dst a f) = 0.
Proof.
  intros (Sw & So & S3) Hm H. assert (T : transferred a) by (destruct H as [(T & _)|(T & _)]; exact T).
  destruct T as (Ti & Tg & Tr & To & Tw). unfold http_fetch. rewrite Ti. cbn [negb].
  assert (P : forall cs i w, (forall j c, nth_error cs j = Some c -> at_fwrite a (i + j) = Z.of_nat (length c)) -> (cs <> [] -> at_open a = 0) -> wc_total w + Z.of_nat (length (concat cs)) <= max -> wc_error w = 0 ->
    exists w', perform max a i cs w = (at_res a, w') /\ wc_error w' = 0).
  { induction cs as [|c cs IH]; intros i w Hw Hop Ht He; [exists w; auto|]. cbn [perform concat] in *. rewrite app_length in Ht. unfold write_callback.
    destruct (Z.ltb_spec max (wc_total w + Z.of_nat (length c))) as [L|L]; [lia|]. rewrite Hop by discriminate. cbn [Z.eqb negb]. rewrite andb_false_r.
    pose proof (Hw 0%nat c eq_refl) as W0. rewrite Nat.add_0_r in W0. rewrite W0, Z.eqb_refl. apply IH.
    - intros j d Hj. specialize (Hw (S j) d Hj). replace (S i + j)%nat with (i + S j)%nat by lia. exact Hw.
    - intros _. apply Hop. discriminate.
    - cbn [wc_total]. lia.
    - cbn [wc_error]. destruct (wc_open w); auto. }
  destruct (P (at_chunks a) 0%nat {| wc_total := 0; wc_error := 0; wc_open := false; wc_data := [] |}) as (w & E & Ew).
  { exact Tw. } { exact To. } { cbn [wc_total]. destruct H as [(_ & _ & _ & _ & Hb)|(_ & Hc)]; [unfold body in Hb; lia|]. rewrite (S3 Hc). cbn. lia. } { reflexivity. }
  rewrite E, Tr. unfold fetch_result, validate_file_size. rewrite Ew, Tg. cbn [Z.eqb negb Z.opp E_FBIG].
  destruct H as [(_ & H1 & H2 & H3 & _)|(_ & H3)].
  - destruct (Z.leb_spec 400 (at_code a)); [lia|]. apply Z.eqb_neq in H2, H3. rewrite H2, H3. reflexivity.
  - rewrite H3. reflexivity.
Qed.
Lemma retries_spec max dst srv : 0 <= max -> (forall i, sane (srv i)) -> forall more r f, f dst = None ->
  let s := do_retries max dst srv more r false f in
  elsewhere dst f (st_fs s) /\ Forall (elsewhere dst f) (st_trace s) /\
  (st_error s <> 0 -> st_changed s = false /\ st_fs s dst = None) /\
  (st_error s = 0 -> done max dst srv r (r + more) s).
Proof.
  intros Hm Sn. induction more as [|more IH]; intros r f Hf s; unfold s; clear s; cbn [do_retries];
    destruct (fetch_spec max dst (srv r) f (Sn r) Hm) as (F1 & F2 & F3 & F4 & F5); set (t := http_fetch max dst (srv r) f) in *;
    (assert (D0 : st_error t = 0 -> done max dst srv r r {| st_error := 0; st_changed := st_changed t; st_fs := st_fs t; st_trace := st_trace t |});
     [intros E0; exists r; split; [lia|]; split; [intros i Hi; lia|]; cbn [st_changed st_fs]; destruct (st_changed t) eqn:Ec;
      [right; split; [reflexivity|]; destruct (F4 E0 eq_refl) as (G1 & G2 & G3 & G4 & G5 & G6 & G7 & G8 & [(G9 & G10)|(G9 & G10)]);
        [left; split; [exact G9|]; split; [unfold fresh, transferred; auto 12|exact G10]|right; congruence]
      |left; destruct (F5 E0 eq_refl) as (U & V); split; [reflexivity|]; split; [exact U|congruence]]|]).
  - rewrite Nat.add_0_r. cbn [orb]. destruct (Z.eqb_spec (st_error t) 0) as [E0|E0]; cbn [st_error st_changed st_fs st_trace].
    + split; [exact F1|]. split; [exact F2|]. split; [intros K; congruence|]. intros _. exact (D0 E0).
    + destruct (F3 E0) as (C & K). destruct (negb (st_error t =? E_AGAIN)); cbn [st_error st_changed st_fs st_trace];
        (split; [exact F1|]; split; [exact F2|]; split; [auto|intros X; try discriminate X; contradiction]).
  - cbn [orb]. destruct (Z.eqb_spec (st_error t) 0) as [E0|E0]; cbn [st_error st_changed st_fs st_trace].
    + split; [exact F1|]. split; [exact F2|]. split; [intros K; congruence|]. intros _. destruct (D0 E0) as (k & Hk & R). exists k. split; [lia|exact R].
    + destruct (F3 E0) as (C & K). destruct (Z.eqb_spec (st_error t) E_AGAIN) as [Ea|Ea]; cbn [negb st_error st_changed st_fs st_trace].
      * rewrite C. destruct (IH (S r) (st_fs t) (K Hf)) as (I1 & I2 & I3 & I4). split; [eapply elsewhere_trans; eassumption|].
        split; [apply Forall_app; split; [exact F2|eapply Forall_impl; [|exact I2]; intros g Hg; eapply elsewhere_trans; eassumption]|]. split; [exact I3|].
        intros X. destruct (I4 X) as (k & Hk & Hi & R). exists k. split; [lia|]. split; [|exact R]. intros i Hi'. destruct (Nat.eq_dec i r) as [->|Ne]; [|apply Hi; lia].
        split; intros Y; apply E0; apply fresh_result; auto.
      * split; [exact F1|]. split; [exact F2|]. split; [auto|contradiction].
Qed.

Lemma retries_live max dst srv : 0 <= max -> (forall i, sane (srv i)) -> forall more r f k, f dst = None -> (r <= k <= r + more)%nat ->
  (forall i, (r <= i < k)%nat -> temporary max (srv i)) -> fresh max (srv k) ->
  let s := do_retries max dst srv more r false f in
  st_error s = 0 /\ st_changed s = true /\ (at_chunks (srv k) <> [] -> st_fs s dst = Some (firstn (at_flush (srv k)) (body (srv k)))).
Proof.
  intros Hm Sn.
  assert (P : forall a cs i w, (forall j c, nth_error cs j = Some c -> at_fwrite a (i + j) = Z.of_nat (length c)) -> (cs <> [] -> at_open a = 0) -> wc_total w + Z.of_nat (length (concat cs)) <= max -> wc_error w = 0 ->
    exists w', perform max a i cs w = (at_res a, w') /\ wc_error w' = 0 /\ wc_data w' = wc_data w ++ concat cs /\ wc_open w' = (wc_open w || match cs with [] => false | _ => true end)%bool).
  { intros a. induction cs as [|c cs IH]; intros i w Hw Hop Ht He; [exists w; rewrite orb_false_r, app_nil_r; auto|]. cbn [perform concat] in *. rewrite app_length in Ht. unfold write_callback.
    destruct (Z.ltb_spec max (wc_total w + Z.of_nat (length c))) as [L|L]; [lia|]. rewrite Hop by discriminate. cbn [Z.eqb negb]. rewrite andb_false_r.
    pose proof (Hw 0%nat c eq_refl) as W0. rewrite Nat.add_0_r in W0. rewrite W0, Z.eqb_refl, Nat2Z.id, firstn_all.
    edestruct (IH (S i)) as (w' & E1 & E2 & E3 & E4); [| | | |exists w'; split; [exact E1|]; split; [exact E2|]; split; [rewrite E3; cbn [wc_data]; rewrite <- app_assoc; reflexivity|rewrite E4; cbn [wc_open]; rewrite orb_true_r; reflexivity]].
    - intros j d Hj. specialize (Hw (S j) d Hj). replace (S i + j)%nat with (i + S j)%nat by lia. exact Hw.
    - intros _. apply Hop. discriminate.
    - cbn [wc_total]. lia.
    - cbn [wc_error]. destruct (wc_open w); auto. }
  assert (T : forall a f, temporary max a -> f dst = None -> let s := http_fetch max dst a f in st_error s = E_AGAIN /\ st_changed s = false /\ st_fs s dst = None).
  { intros a f (T1 & T2 & T3 & T4 & T5 & T6) Hf s. unfold s, http_fetch. rewrite T1. cbn [negb].
    destruct (P a (at_chunks a) 0%nat {| wc_total := 0; wc_error := 0; wc_open := false; wc_data := [] |}) as (w & E & Ew & _); [exact T4|auto|exact T5|reflexivity|]. rewrite E.
    assert (R : fetch_result a (at_res a) w = (E_AGAIN, false)).
    { unfold fetch_result, validate_file_size. rewrite Ew, T2. cbn [Z.eqb negb Z.opp E_FBIG]. unfold handle_http_response_code.
      assert (H5 : forall c, c = 408 \/ c = 429 \/ 500 <= c < 600 -> (if (c =? 408) || (c =? 429) then E_AGAIN else if (500 <=? c) && (c <? 600) then E_AGAIN else - E_INVAL) = E_AGAIN).
      { intros c [->|[->|Hc]]; [reflexivity|reflexivity|]. destruct ((c =? 408) || (c =? 429)); [reflexivity|]. destruct (Z.leb_spec 500 c); [|lia]. destruct (Z.ltb_spec c 600); [reflexivity|lia]. }
      destruct T6 as [T6|(T6 & T7)].
      - cbn in T6. destruct T6 as [<-|[<-|[<-|[]]]]; reflexivity.
      - cbn in T6. destruct T6 as [<-|[<-|[]]]; cbn [Z.eqb negb Pos.eqb orb].
        + destruct (Z.leb_spec 400 (at_code a)) as [L|L]; [|lia]. cbn [orb]. rewrite (H5 _ T7). reflexivity.
        + rewrite (H5 _ T7). reflexivity. }
    rewrite R. cbn [st_error st_changed st_fs]. split; [reflexivity|]. split; [reflexivity|]. change (E_AGAIN =? 0) with false. cbn iota. apply put_same. }
  induction more as [|more IH]; intros r f k Hf Hk Ht Hfr s; unfold s; clear s; cbn [do_retries].
  - assert (k = r) by lia. subst k. pose proof (fresh_result max dst (srv r) f (Sn r) Hm (or_introl Hfr)) as E0. rewrite E0. cbn [Z.eqb st_error st_changed st_fs orb].
    destruct Hfr as ((F1 & F2 & F3 & F4 & F5) & F6 & F7 & F8 & F9).
    destruct (P (srv r) (at_chunks (srv r)) 0%nat {| wc_total := 0; wc_error := 0; wc_open := false; wc_data := [] |}) as (w & E & Ew & Ed & Eo); [exact F5|exact F4|exact F9|reflexivity|].
    unfold http_fetch in E0 |- *. rewrite F1 in E0 |- *. cbn [negb] in E0 |- *. rewrite E in E0 |- *.
    assert (R : fetch_result (srv r) (at_res (srv r)) w = (0, true)).
    { unfold fetch_result, validate_file_size. rewrite Ew, F2, F3. cbn [Z.eqb negb Z.opp E_FBIG]. destruct (Z.leb_spec 400 (at_code (srv r))); [lia|]. apply Z.eqb_neq in F7, F8. rewrite F7, F8. reflexivity. }
    rewrite R. cbn [st_error st_changed st_fs Z.eqb]. split; [reflexivity|]. split; [reflexivity|]. intros Hc. rewrite Eo, Ed. cbn [wc_open wc_data orb app]. destruct (at_chunks (srv r)) eqn:Ec; [contradiction|]. unfold body. rewrite Ec. apply put_same.
  - destruct (Nat.eq_dec k r) as [->|Ne].
    + specialize (IH r f r Hf). (* the same as above *)
      pose proof (fresh_result max dst (srv r) f (Sn r) Hm (or_introl Hfr)) as E0.
      assert (IH' := IH ltac:(lia) ltac:(intros i Hi; lia) Hfr). clear IH. rewrite E0. cbn [Z.eqb st_error st_changed st_fs orb].
      destruct more as [|more]; cbn [do_retries] in IH'; rewrite E0 in IH'; exact IH'.
    + destruct (T (srv r) f (Ht r ltac:(lia)) Hf) as (E1 & E2 & E3). rewrite E1, E2. change (E_AGAIN =? 0) with false. change (E_AGAIN =? E_AGAIN) with true. cbn [negb orb st_error st_changed st_fs].
      apply IH; [exact E3|lia|intros i Hi; apply Ht; lia|exact Hfr].
Qed.

Lemma download_spec max retries tmp final w f : tmp <> final -> f tmp = None -> 0 <= max -> (forall d i, sane (w_server w d i)) ->
  let s := http_download max retries tmp final w f in let srv := w_server w (since w f final) in
  (forall g n, In g (st_fs s :: st_trace s) -> n <> tmp -> n <> final -> g n = f n) /\
  (forall g, In g (st_fs s :: st_trace s) -> g final = f final \/ exists k, taken max retries srv k /\ g final = Some (firstn (at_flush (srv k)) (body (srv k)))) /\
  st_fs s tmp = None /\
  (st_error s <> 0 -> st_fs s final = f final) /\
  (st_error s = 0 -> st_changed s = true -> exists k, taken max retries srv k /\ st_fs s final = Some (firstn (at_flush (srv k)) (body (srv k)))) /\
  (st_error s = 0 -> st_changed s = false -> st_fs s final = f final /\ exists k, (k <= retries)%nat /\ unchanged (srv k) /\ forall i, (i < k)%nat -> ~ fresh max (srv i)).
Proof.
  intros Nt Hf Hm Sn s srv. unfold s, http_download. clear s.
  destruct (Z.eqb_spec (w_tmpfile w) 0) as [T0|T0]; cbn [negb].
  2:{ cbn [st_error st_changed st_fs st_trace]. split; [intros g n [<-|[]]; reflexivity|]. split; [intros g [<-|[]]; left; reflexivity|]. split; [exact Hf|]. split; [reflexivity|]. split; intros K; contradiction. }
  unfold get_ims. assert (X : match f final with Some _ => if w_stat w =? 0 then (0, w_mtime w) else (w_stat w, 0) | None => (0, 0) end = (0, since w f final) \/
     exists e, e <> 0 /\ match f final with Some _ => if w_stat w =? 0 then (0, w_mtime w) else (w_stat w, 0) | None => (0, 0) end = (e, 0)).
  { unfold since. destruct (f final); [|left; reflexivity]. destruct (Z.eqb_spec (w_stat w) 0) as [K|K]; [left; reflexivity|right; exists (w_stat w); auto]. }
  destruct X as [->|(e & Ne & ->)].
  2:{ apply Z.eqb_neq in Ne. rewrite Ne. cbn [negb st_error st_changed st_fs st_trace]. apply Z.eqb_neq in Ne. split; [intros g n [<-|[]]; reflexivity|]. split; [intros g [<-|[]]; left; reflexivity|]. split; [exact Hf|]. split; [reflexivity|]. split; intros K; contradiction. }
  cbn [Z.eqb negb]. fold srv. destruct (retries_spec max tmp srv Hm (Sn _) retries 0%nat f Hf) as (I1 & I2 & I3 & I4). cbn [Nat.add] in I4.
  set (t := do_retries max tmp srv retries 0 false f) in *. rewrite Forall_forall in I2.
  assert (O : forall g n, In g (st_fs t :: st_trace t) -> n <> tmp -> g n = f n) by (intros g n [<-|Hg] Hn; [apply I1; exact Hn|apply (I2 g Hg); exact Hn]).
  assert (Of : forall g, In g (st_fs t :: st_trace t) -> g final = f final) by (intros g Hg; apply O; [exact Hg|congruence]).
  destruct (Z.eqb_spec (st_error t) 0) as [E0|E0]; cbn [negb orb].
  2:{ destruct (I3 E0) as (C & D). split; [intros g n Hg Hn _; apply O; assumption|]. split; [intros g Hg; left; apply Of; exact Hg|]. split; [exact D|]. split; [intros _; apply Of; left; reflexivity|]. split; intros K; contradiction. }
  destruct (I4 E0) as (k & Hk & Hi & [(C & U & D)|(C & R)]); rewrite C; cbn [negb].
  { split; [intros g n Hg Hn _; apply O; assumption|]. split; [intros g Hg; left; apply Of; exact Hg|]. split; [exact D|]. split; [intros _; apply Of; left; reflexivity|].
    split; [intros _ K; congruence|]. intros _ _. split; [apply Of; left; reflexivity|]. exists k. split; [lia|]. split; [exact U|]. intros i Hi'. apply Hi. lia. }
  assert (Drop : forall n, n <> tmp -> put (st_fs t) tmp None n = f n) by (intros n Hn; rewrite put_other by exact Hn; apply O; [left; reflexivity|exact Hn]).
  assert (Fin : forall g, In g ((put (st_fs t) tmp None) :: st_trace t ++ [put (st_fs t) tmp None]) -> forall n, n <> tmp -> g n = f n).
  { intros g [<-|Hg] n Hn; [apply Drop; exact Hn|]. apply in_app_or in Hg. destruct Hg as [Hg|[<-|[]]]; [apply O; [right; exact Hg|exact Hn]|apply Drop; exact Hn]. }
  destruct (Z.eqb_spec (w_mkdir w) 0) as [M0|M0]; cbn [negb].
  2:{ cbn [st_error st_changed st_fs st_trace]. split; [intros g n Hg Hn _; apply (Fin g Hg n Hn)|]. split; [intros g Hg; left; apply (Fin g Hg); congruence|]. split; [apply put_same|].
      split; [intros _; apply Drop; congruence|]. split; intros K; contradiction. }
  destruct R as [(R1 & R2 & R3)|R]; [|rewrite R].
  2:{ cbn [st_error st_changed st_fs st_trace]. split; [intros g n Hg Hn _; apply O; assumption|]. split; [intros g Hg; left; apply Of; exact Hg|]. split; [exact R|]. split; [intros _; apply Of; left; reflexivity|]. split; intros K; discriminate K. }
  rewrite R3. assert (Tk : taken max retries srv k) by (split; [lia|]; split; [exact R2|]; intros i Hi'; apply Hi; lia).
  destruct (Z.eqb_spec (w_rename w) 0) as [N0|N0]; cbn [negb st_error st_changed st_fs st_trace].
  2:{ split; [intros g n Hg Hn _; apply (Fin g Hg n Hn)|]. split; [intros g Hg; left; apply (Fin g Hg); congruence|]. split; [apply put_same|].
      split; [intros _; apply Drop; congruence|]. split; intros K; contradiction. }
  set (c := firstn (at_flush (srv k)) (body (srv k))). set (g0 := put (put (st_fs t) final (Some c)) tmp None).
  assert (G1 : g0 final = Some c) by (unfold g0; rewrite put_other by congruence; apply put_same).
  assert (G2 : forall n, n <> tmp -> n <> final -> g0 n = f n) by (intros n H1 H2; unfold g0; rewrite !put_other by assumption; apply O; [left; reflexivity|exact H1]).
  split; [|split; [|split; [|split; [|split]]]].
  - intros g n Hg H1 H2. destruct Hg as [<-|Hg]; [apply G2; assumption|]. apply in_app_or in Hg. destruct Hg as [Hg|[<-|[]]]; [apply O; [right; exact Hg|exact H1]|apply G2; assumption].
  - intros g Hg. destruct Hg as [<-|Hg]; [right; exists k; auto|]. apply in_app_or in Hg. destruct Hg as [Hg|[<-|[]]]; [left; apply Of; right; exact Hg|right; exists k; auto].
  - apply put_same.
  - congruence.
  - intros _ _. exists k. auto.
  - discriminate.
Qed.
