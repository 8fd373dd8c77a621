(** * C106: the timestamps of the index *)
From Coq Require Import String.
From Verif Require Import Base BaseLemmas CString CLib PathBuilder PathProps Rrdp RrdpProofs2 Slurm LocalCache LocalCacheSpec LocalCacheProps Calendar CalendarSpec CalendarProofs CalendarProofs2.
Notation length := List.length.
Open Scope list_scope.
Open Scope Z_scope.

(** ** Digits *)
Lemma pad2 n : 0 <= n < 100 -> pad 2 n = [48 + n / 10; 48 + n mod 10].
Proof. intros H. cbn [pad app]. rewrite (Z.mod_small (n / 10)); auto. split; [apply Z.div_pos|apply Z.div_lt_upper_bound]; lia. Qed.
Lemma two_pad n : 0 <= n < 100 -> two_digits n = pad 2 n. Proof. intros. rewrite pad2; auto. Qed.
Lemma pad_length k : forall n, length (pad k n) = k.
Proof. induction k as [|k IH]; intros n; cbn [pad]; auto. rewrite app_length, IH. cbn. lia. Qed.
Lemma decimal_year y : 1000 <= y <= 9999 -> decimal y = pad 4 y.
Proof.
  intros H. assert (A : 100 <= y / 10 <= 999) by (Z.to_euclidean_division_equations; lia).
  assert (B : 10 <= y / 10 / 10 <= 99) by (clear H; Z.to_euclidean_division_equations; lia).
  assert (C : 1 <= y / 10 / 10 / 10 <= 9) by (clear H A; Z.to_euclidean_division_equations; lia).
  unfold decimal. destruct (y <? 0) eqn:E; [lia|]. cbn [digits].
  destruct (y <? 10) eqn:E1; [lia|]. destruct (y / 10 <? 10) eqn:E2; [lia|]. destruct (y / 10 / 10 <? 10) eqn:E3; [lia|]. destruct (y / 10 / 10 / 10 <? 10) eqn:E4; [|lia].
  reflexivity.
Qed.
Lemma digits_length f : forall n acc, (length acc + (if Nat.eqb f 0 then 0 else 1) <= length (digits f n acc))%nat.
Proof.
  induction f as [|f IH]; intros n acc; cbn [digits Nat.eqb]; [lia|]. destruct (n <? 10); [cbn; lia|].
  specialize (IH (n / 10) ((48 + n mod 10) :: acc)). cbn [length] in IH. destruct (Nat.eqb f 0); lia.
Qed.
Lemma decimal_late y : 10000 <= y -> (5 <= length (decimal y))%nat.
Proof.
  intros H. assert (A : 1000 <= y / 10) by (apply Z.div_le_lower_bound; lia). assert (B : 100 <= y / 10 / 10) by (apply Z.div_le_lower_bound; lia).
  assert (C : 10 <= y / 10 / 10 / 10) by (apply Z.div_le_lower_bound; lia).
  unfold decimal. destruct (y <? 0) eqn:E; [lia|]. assert (F : 16%nat <> 0%nat) by discriminate. change 20%nat with (S (S (S (S 16)))). revert F. generalize 16%nat. intros f F. cbn [digits].
  destruct (y <? 10) eqn:E1; [lia|]. destruct (y / 10 <? 10) eqn:E2; [lia|]. destruct (y / 10 / 10 <? 10) eqn:E3; [lia|]. destruct (y / 10 / 10 / 10 <? 10) eqn:E4; [lia|].
  etransitivity; [|apply digits_length]. cbn [length]. destruct f; [congruence|]. cbn [Nat.eqb]. lia.
Qed.

(** ** Numbers are read back *)
Lemma digit_range n : 48 <= 48 + n mod 10 <= 57.
Proof. pose proof (Z.mod_pos_bound n 10 ltac:(lia)). lia. Qed.
Lemma skip_digit n r : skip_spaces ((48 + n mod 10) :: r) = (48 + n mod 10) :: r.
Proof. cbn [skip_spaces]. pose proof (digit_range n). destruct (_ =? 32) eqn:E; [lia|reflexivity]. Qed.
Lemma isdigit_digit n : isdigit (48 + n mod 10) = true.
Proof. unfold isdigit. pose proof (digit_range n). lia. Qed.
Lemma get2 from to v r : from <= v <= to -> 0 <= v < 100 -> get_number from to 2 (pad 2 v ++ r) = Some (v, r).
Proof.
  intros F R. change (pad 2 v ++ r) with ((48 + (v / 10) mod 10) :: (48 + v mod 10) :: r). unfold get_number. rewrite skip_digit, isdigit_digit. cbn [pred number].
  assert (Q : (v / 10) mod 10 = v / 10) by (apply Z.mod_small; split; [apply Z.div_pos|apply Z.div_lt_upper_bound]; lia).
  pose proof (Z.div_mod v 10 ltac:(lia)) as D. pose proof (Z.mod_pos_bound v 10 ltac:(lia)). rewrite isdigit_digit, Q.
  destruct (true && ((48 + v / 10 - 48) * 10 <=? to)) eqn:E; [|lia].
  replace ((48 + v / 10 - 48) * 10 + (48 + v mod 10 - 48)) with v by lia. destruct ((v <? from) || (to <? v)) eqn:G; [lia|]. reflexivity.
Qed.
Lemma get4 v r : 0 <= v <= 9999 -> get_number 0 9999 4 (pad 4 v ++ r) = Some (v, r).
Proof.
  intros R. change (pad 4 v ++ r) with ((48 + (v / 10 / 10 / 10) mod 10) :: (48 + (v / 10 / 10) mod 10) :: (48 + (v / 10) mod 10) :: (48 + v mod 10) :: r).
  set (a := v / 10 / 10 / 10). set (b := v / 10 / 10). set (c := v / 10).
  assert (Dc : v = 10 * c + v mod 10) by (apply Z.div_mod; lia). assert (Db : c = 10 * b + c mod 10) by (apply Z.div_mod; lia). assert (Da : b = 10 * a + b mod 10) by (apply Z.div_mod; lia).
  pose proof (Z.mod_pos_bound v 10 ltac:(lia)). pose proof (Z.mod_pos_bound c 10 ltac:(lia)). pose proof (Z.mod_pos_bound b 10 ltac:(lia)).
  clearbody a b c. assert (Qa : a mod 10 = a) by (apply Z.mod_small; lia).
  unfold get_number. rewrite skip_digit, isdigit_digit. cbn [pred number]. rewrite !isdigit_digit, Qa.
  destruct (true && ((48 + a - 48) * 10 <=? 9999)) eqn:E1; [|lia].
  destruct (true && (((48 + a - 48) * 10 + (48 + b mod 10 - 48)) * 10 <=? 9999)) eqn:E2; [|lia].
  destruct (true && ((((48 + a - 48) * 10 + (48 + b mod 10 - 48)) * 10 + (48 + c mod 10 - 48)) * 10 <=? 9999)) eqn:E3; [|lia].
  replace ((((48 + a - 48) * 10 + (48 + b mod 10 - 48)) * 10 + (48 + c mod 10 - 48)) * 10 + (48 + v mod 10 - 48)) with v by lia.
  destruct ((v <? 0) || (9999 <? v)) eqn:G; [lia|]. reflexivity.
Qed.
Lemma reads y m d H M S : 0 <= y <= 9999 -> 1 <= m <= 12 -> 1 <= d <= 31 -> 0 <= H < 24 -> 0 <= M < 60 -> 0 <= S < 60 ->
  str2tt (timestamp y m d H M S) = let t := days_from_civil y m d * 86400 + H * 3600 + M * 60 + S in if t =? -1 then Err EINVAL else Ok t.
Proof.
  intros RY Rm Rd RH RM RS. unfold str2tt, timestamp, JSON_TS_FORMAT.
  change (cstr "-") with [45]. change (cstr "T") with [84]. change (cstr ":") with [58]. change (cstr "Z") with [90].
  cbn [strptime parse]. rewrite get4 by lia. cbn [option_map app Z.eqb Pos.eqb].
  rewrite (get2 1 12) by lia. cbn [option_map app Z.eqb Pos.eqb].
  rewrite (get2 1 31) by lia. cbn [option_map app Z.eqb Pos.eqb].
  rewrite (get2 0 23) by lia. cbn [option_map app Z.eqb Pos.eqb].
  rewrite (get2 0 59) by lia. cbn [option_map app Z.eqb Pos.eqb].
  rewrite (get2 0 61) by lia. cbn [option_map app Z.eqb Pos.eqb].
  unfold timegm. cbn [with_field tm_zero tm_year tm_mon tm_mday tm_hour tm_min tm_sec].
  replace (y - 1900 + 1900) with y by lia. replace (m - 1 + 1) with m by lia. reflexivity.
Qed.
Lemma valid_bounds y m d : validb (y, m, d) = true -> 1 <= m <= 12 /\ 1 <= d <= 31.
Proof. unfold validb. intros V. pose proof (mlen28 y m). lia. Qed.

(** ** C106 *)
Definition is_clock (t : Z) : Prop := 0 <= t < year_10000.
Lemma writes t : is_clock t -> let '(y, m, d) := civil (t / 86400) in
  tt2str t = Ok (timestamp y m d (t mod 86400 / 3600) (t mod 86400 / 60 mod 60) (t mod 86400 mod 60)) /\ 1970 <= y <= 9999 /\ validb (y, m, d) = true.
Proof.
  unfold is_clock, year_10000. intros T. assert (D : 0 <= t / 86400 < 2932897) by (split; [apply Z.div_pos|apply Z.div_lt_upper_bound]; lia).
  pose proof (year_range _ D) as Y. pose proof (civil_valid (t / 86400)) as V. unfold tt2str, gmtime_r.
  destruct (civil (t / 86400)) as [[y m] d]. split; [|split; auto].
  apply valid_bounds in V. pose proof (Z.mod_pos_bound t 86400 ltac:(lia)) as S. set (s := t mod 86400) in *. clearbody s.
  assert (H1 : 0 <= s / 3600 < 100) by (split; [apply Z.div_pos|apply Z.div_lt_upper_bound]; lia).
  pose proof (Z.mod_pos_bound (s / 60) 60 ltac:(lia)). pose proof (Z.mod_pos_bound s 60 ltac:(lia)).
  destruct ((y - 1900 <? -2147483648) || (2147483647 <? y - 1900)) eqn:E; [lia|].
  unfold strftime, JSON_TS_FORMAT. cbn [flat_map print tm_year tm_mon tm_mday tm_hour tm_min tm_sec].
  replace (y - 1900 + 1900) with y by lia. replace (m - 1 + 1) with m by lia. rewrite decimal_year by lia. rewrite !two_pad by lia.
  change (pad 4 y ++ [45] ++ pad 2 m ++ [45] ++ pad 2 d ++ [84] ++ pad 2 (s / 3600) ++ [58] ++ pad 2 (s / 60 mod 60) ++ [58] ++ pad 2 (s mod 60) ++ [90] ++ [])
    with (timestamp y m d (s / 3600) (s / 60 mod 60) (s mod 60)).
  assert (L : length (timestamp y m d (s / 3600) (s / 60 mod 60) (s mod 60)) = 20%nat).
  { unfold timestamp. rewrite !app_length, !pad_length. reflexivity. }
  rewrite L. reflexivity.
Qed.

(** The text of a time until the year 10000 is its UTC date and time. *)
Theorem C106_text t : is_clock t -> (exists s, text_of t s) /\ forall s, tt2str t = Ok s <-> text_of t s.
Proof.
  intros T. pose proof (writes t T) as W. pose proof (civil_is_day (t / 86400)) as I. destruct (civil (t / 86400)) as [[y m] d] eqn:C. destruct W as (W & _).
  pose proof (Z.div_mod t 86400 ltac:(lia)) as D. pose proof (Z.mod_pos_bound t 86400 ltac:(lia)) as S. set (s := t mod 86400) in *.
  assert (E : exists H M S, 0 <= H < 24 /\ 0 <= M < 60 /\ 0 <= S < 60 /\ s = H * 3600 + M * 60 + S /\ H = s / 3600 /\ M = s / 60 mod 60 /\ S = s mod 60).
  { exists (s / 3600), (s / 60 mod 60), (s mod 60). pose proof (Z.mod_pos_bound (s / 60) 60 ltac:(lia)). pose proof (Z.mod_pos_bound s 60 ltac:(lia)).
    assert (A := Z.div_mod s 60 ltac:(lia)). assert (B := Z.div_mod (s / 60) 60 ltac:(lia)). assert (F : s / 60 / 60 = s / 3600) by (rewrite Z.div_div by lia; reflexivity).
    assert (0 <= s / 3600 < 24) by (split; [apply Z.div_pos|apply Z.div_lt_upper_bound]; lia). repeat split; lia. }
  destruct E as (H & M & S' & RH & RM & RS & ES & EH & EM & ESS). rewrite <- EH, <- EM, <- ESS in W.
  assert (X : text_of t (timestamp y m d H M S')) by (exists (t / 86400), y, m, d, H, M, S'; repeat split; auto; lia).
  split; [eauto|]. intros x. rewrite W. split; [intros [= <-]; auto|].
  intros (n & y' & m' & d' & H' & M' & S'' & I' & RH' & RM' & RS' & T' & ->).
  assert (N : n = t / 86400) by (apply (Z.div_unique t 86400 n (H' * 3600 + M' * 60 + S'')); lia). subst n.
  apply is_day_civil in I'. rewrite C in I'. injection I' as -> -> ->.
  assert (H = H') by lia. subst H'. assert (M = M') by lia. subst M'. assert (S' = S'') by lia. subst. reflexivity.
Qed.
(** Later times are refused; there's no overflow of the buffer. *)
Theorem C106_late t : year_10000 <= t -> exists e, tt2str t = Err e.
Proof.
  unfold year_10000. intros T. assert (D : 2932897 <= t / 86400) by (apply Z.div_le_lower_bound; lia). pose proof (year_late _ D) as Y. unfold tt2str, gmtime_r.
  destruct (civil (t / 86400)) as [[y m] d]. destruct (_ || _); [eauto|]. unfold strftime. cbn [tm_year].
  match goal with |- context [flat_map ?f JSON_TS_FORMAT] => assert (L : (21 <= length (flat_map f JSON_TS_FORMAT))%nat) end.
  { unfold JSON_TS_FORMAT. cbn [flat_map print tm_year tm_mon tm_mday tm_hour tm_min tm_sec]. unfold two_digits. rewrite app_length. cbn [length app].
    replace (y - 1900 + 1900) with y by lia. pose proof (decimal_late y Y). lia. }
  destruct (_ <=? JSON_TS_LEN) eqn:E; [unfold JSON_TS_LEN in E; lia|eauto].
Qed.
(** A text of a date of the years 0 to 9999, and a time of day, is read as that time. *)
Theorem C106_reads n y m d H M S : is_day n (y, m, d) -> 0 <= y <= 9999 -> 0 <= H < 24 -> 0 <= M < 60 -> 0 <= S < 60 ->
  n * 86400 + H * 3600 + M * 60 + S <> -1 -> str2tt (timestamp y m d H M S) = Ok (n * 86400 + H * 3600 + M * 60 + S).
Proof.
  intros I RY RH RM RS N. apply is_day_civil in I. pose proof (civil_valid n) as V. rewrite <- I in V. apply valid_bounds in V.
  rewrite reads by tauto. rewrite (civil_back n) by auto. cbv zeta. destruct (_ =? -1) eqn:E; [lia|reflexivity].
Qed.
(** What is written is read back. *)
Theorem C106_roundtrip t : is_clock t -> exists s, tt2str t = Ok s /\ str2tt s = Ok t.
Proof.
  intros T. destruct (C106_text t T) as ((s & X) & E). exists s. split; [apply E; auto|].
  pose proof (writes t T) as W. destruct X as (n & y & m & d & H & M & S & I & RH & RM & RS & D & ->). rewrite D.
  assert (N : n = t / 86400) by (apply (Z.div_unique t 86400 n (H * 3600 + M * 60 + S)); lia).
  apply C106_reads; auto; unfold is_clock in T; [|lia]. rewrite <- N in W. apply is_day_civil in I. rewrite <- I in W. lia.
Qed.
(** So the index survives a restart, whenever its downloads happened. *)
Theorem C106_index J repository tal ht : conf_ok repository (Some tal) None ->
  Forall (fun n => url_ok J repository tal (cn_url n) /\ -2147483648 <= cn_result n <= 2147483647 /\ is_clock (cn_ts n) /\
                   (if cn_happened n then is_clock (cn_sts n) else cn_sts n = 0)) ht ->
  load_tal_json J repository (fun s => ok_of (str2tt s)) tal (Some (JArr (build_tal_json (fun t => ok_of (tt2str t)) ht))) = Ok ht.
Proof.
  intros C F. apply C57_roundtrip; auto. eapply Forall_impl; [|exact F]. intros n (U & R & T & H). split; [auto|]. split; [auto|].
  assert (G : forall t, is_clock t -> exists s, ok_of (tt2str t) = Some s /\ ok_of (str2tt s) = Some t).
  { intros t X. destruct (C106_roundtrip t X) as (s & A & B). exists s. rewrite A, B. auto. }
  split; [apply G; auto|]. destruct (cn_happened n); auto.
Qed.

(** ** Only timestamps are accepted *)
Lemma skip_spec s : exists j, s = repeat 32 j ++ skip_spaces s.
Proof.
  induction s as [|c r (j & IH)]; [exists 0%nat; reflexivity|]. cbn [skip_spaces]. destruct (c =? 32) eqn:E; [|exists 0%nat; reflexivity].
  apply Z.eqb_eq in E. subst c. exists (S j). cbn [repeat app]. congruence.
Qed.
Lemma number_spec n to : forall val s v r, number n to val s = (v, r) ->
  exists ds, s = ds ++ r /\ (length ds <= n)%nat /\ Forall digit ds /\ v = fold_left (fun a c => a * 10 + (c - 48)) ds val.
Proof.
  induction n as [|n IH]; intros val s v r H.
  { assert (number 0 to val s = (val, s)) by (destruct s; reflexivity). rewrite H0 in H. injection H as <- <-. exists []. repeat split; auto. }
  destruct s as [|c s]; [injection H as <- <-; exists []; repeat split; auto; cbn; lia|]. cbn [number] in H.
  destruct (isdigit c && (val * 10 <=? to)) eqn:E; [|injection H as <- <-; exists []; repeat split; auto; cbn; lia].
  apply IH in H. destruct H as (ds & -> & L & F & ->). exists (c :: ds). repeat split; [cbn; lia|]. constructor; auto. unfold isdigit in E. unfold digit. lia.
Qed.
Lemma get_spec from to n s v r : (1 <= n)%nat -> get_number from to n s = Some (v, r) -> exists f, s = f ++ r /\ number_text n from to f v.
Proof.
  intros N H. unfold get_number in H. destruct (skip_spec s) as (j & E). destruct (skip_spaces s) as [|c s']; [discriminate|].
  destruct (isdigit c) eqn:I; [|discriminate]. destruct (number (pred n) to (c - 48) s') as [w q] eqn:P. destruct ((w <? from) || (to <? w)) eqn:R; [discriminate|].
  injection H as -> ->. apply number_spec in P. destruct P as (ds & -> & L & F & V).
  exists (repeat 32 j ++ c :: ds). split; [rewrite E, <- app_assoc; reflexivity|]. exists j, (c :: ds). split; auto. split; [cbn; lia|].
  split; [constructor; auto; unfold isdigit in I; unfold digit; lia|]. split; [|lia]. rewrite V. reflexivity.
Qed.
(** Texts of this form only, if numbers may be shorter than they should and may
    be preceded by spaces; days and seconds beyond the end of the month and of
    the minute are counted on. *)
Theorem C106_accepts_partial s t : str2tt s = Ok t -> exists y m d H M S sy sm sd sH sM sS,
  s = sy ++ cstr "-" ++ sm ++ cstr "-" ++ sd ++ cstr "T" ++ sH ++ cstr ":" ++ sM ++ cstr ":" ++ sS ++ cstr "Z" /\
  number_text 4 0 9999 sy y /\ number_text 2 1 12 sm m /\ number_text 2 1 31 sd d /\ number_text 2 0 23 sH H /\ number_text 2 0 59 sM M /\ number_text 2 0 61 sS S /\
  exists first, is_day first (y, m, 1) /\ t = (first + (d - 1)) * 86400 + H * 3600 + M * 60 + S.
Proof.
  unfold str2tt, JSON_TS_FORMAT. intros E. cbn [strptime parse] in E.
  destruct (get_number 0 9999 4 s) as [[y r1]|] eqn:Y; [|discriminate]. cbn [option_map] in E. destruct r1 as [|c1 r1]; [discriminate|]. destruct (c1 =? 45) eqn:C1; [|discriminate].
  destruct (get_number 1 12 2 r1) as [[m r2]|] eqn:Mo; [|discriminate]. cbn [option_map] in E. destruct r2 as [|c2 r2]; [discriminate|]. destruct (c2 =? 45) eqn:C2; [|discriminate].
  destruct (get_number 1 31 2 r2) as [[d r3]|] eqn:D; [|discriminate]. cbn [option_map] in E. destruct r3 as [|c3 r3]; [discriminate|]. destruct (c3 =? 84) eqn:C3; [|discriminate].
  destruct (get_number 0 23 2 r3) as [[H r4]|] eqn:HH; [|discriminate]. cbn [option_map] in E. destruct r4 as [|c4 r4]; [discriminate|]. destruct (c4 =? 58) eqn:C4; [|discriminate].
  destruct (get_number 0 59 2 r4) as [[M r5]|] eqn:MM; [|discriminate]. cbn [option_map] in E. destruct r5 as [|c5 r5]; [discriminate|]. destruct (c5 =? 58) eqn:C5; [|discriminate].
  destruct (get_number 0 61 2 r5) as [[S r6]|] eqn:SS; [|discriminate]. cbn [option_map] in E. destruct r6 as [|c6 r6]; [discriminate|]. destruct (c6 =? 90) eqn:C6; [|discriminate].
  destruct r6; [|discriminate]. unfold timegm in E. cbn [with_field tm_zero tm_year tm_mon tm_mday tm_hour tm_min tm_sec] in E. cbv zeta in E.
  destruct (_ =? -1); [discriminate|]. injection E as E. rewrite Z.eqb_eq in *. subst c1 c2 c3 c4 c5 c6.
  apply get_spec in Y, Mo, D, HH, MM, SS; try lia.
  destruct Y as (sy & -> & NY), Mo as (sm & -> & Nm), D as (sd & -> & Nd), HH as (sH & -> & NH), MM as (sM & -> & NM), SS as (sS & -> & NS).
  exists y, m, d, H, M, S, sy, sm, sd, sH, sM, sS. split; [reflexivity|]. do 6 (split; [assumption|]).
  exists (days_from_civil y m 1). split; [apply first_of_month; destruct Nm as (? & ? & ? & ? & ? & ? & ?); lia|].
  rewrite <- E, <- dfc_day. replace (y - 1900 + 1900) with y by lia. replace (m - 1 + 1) with m by lia. reflexivity.
Qed.

(** ** Refuted *)

(** Dates which don't exist are accepted: the 30th of February is the second of March. *)
Theorem C106_nonexistent_refuted : (forall n, ~ is_day n (2023, 2, 30)) /\
  str2tt (timestamp 2023 2 30 0 0 0) = str2tt (timestamp 2023 3 2 0 0 0) /\ exists t, str2tt (timestamp 2023 2 30 0 0 0) = Ok t.
Proof.
  split; [|split; [reflexivity|eexists; reflexivity]]. intros n I. apply is_day_civil in I. pose proof (civil_valid n) as V. rewrite <- I in V. discriminate.
Qed.
(** And so are texts which aren't timestamps. *)
Theorem C106_shape_refuted : exists s t, str2tt s = Ok t /\ forall y m d H M S, s <> timestamp y m d H M S.
Proof.
  exists (cstr "  2023-1-1T0:0: 60Z"). eexists. split; [reflexivity|]. intros y m d H M S E.
  assert (L : length (timestamp y m d H M S) = 20%nat) by (unfold timestamp; rewrite !app_length, !pad_length; reflexivity). rewrite <- E in L. discriminate.
Qed.
(** The last second of 1969 is written, but not read. *)
Theorem C106_minus_one_refuted : exists s, text_of (-1) s /\ tt2str (-1) = Ok s /\ str2tt s = Err EINVAL.
Proof.
  exists (timestamp 1969 12 31 23 59 59). split; [|split; reflexivity].
  exists (-1), 1969, 12, 31, 23, 59, 59. split; [apply (civil_is_day (-1))|]. repeat split; try lia.
Qed.

Example C106_nonvacuous : is_clock 1709210096 /\ tt2str 1709210096 = Ok (cstr "2024-02-29T12:34:56Z") /\ str2tt (cstr "2024-02-29T12:34:56Z") = Ok 1709210096 /\
  is_day (1709210096 / 86400) (2024, 2, 29).
Proof. split; [unfold is_clock, year_10000; lia|]. do 2 (split; [reflexivity|]). apply (civil_is_day (1709210096 / 86400)). Qed.

Print Assumptions C106_text. Print Assumptions C106_late. Print Assumptions C106_reads. Print Assumptions C106_roundtrip. Print Assumptions C106_index. Print Assumptions C106_accepts_partial.
Print Assumptions C106_nonexistent_refuted. Print Assumptions C106_shape_refuted. Print Assumptions C106_minus_one_refuted.
