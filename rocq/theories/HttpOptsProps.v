(** * C105: what requests FORT makes, and of whom *)
From Coq Require Import String.
From Verif Require Import Base BaseLemmas CString HttpOpts HttpOptsSpec.
Notation length := List.length.
Open Scope list_scope.
Open Scope Z_scope.

(** ** The handle *)
Lemma long_follow o v h : h_follow (setopt_long o v h) = match o with CURLOPT_FOLLOWLOCATION => if accepts_long o v then negb (v =? 0) else h_follow h | _ => h_follow h end.
Proof. unfold setopt_long. destruct o; destruct (accepts_long _ v); reflexivity. Qed.
Lemma str_follow o v h : h_follow (setopt_str o v h) = h_follow h.
Proof. unfold setopt_str. destruct v as [v|]; [destruct (accepts_str v); reflexivity|reflexivity]. Qed.
Lemma long_maxredirs o v h : h_maxredirs (setopt_long o v h) = match o with CURLOPT_MAXREDIRS => if accepts_long o v then v else h_maxredirs h | _ => h_maxredirs h end.
Proof. unfold setopt_long. destruct o; destruct (accepts_long _ v); reflexivity. Qed.
Lemma str_maxredirs o v h : h_maxredirs (setopt_str o v h) = h_maxredirs h.
Proof. unfold setopt_str. destruct v as [v|]; [destruct (accepts_str v); reflexivity|reflexivity]. Qed.
Lemma long_connect_ms o v h : h_connect_ms (setopt_long o v h) = match o with CURLOPT_CONNECTTIMEOUT => if accepts_long o v then v * 1000 else h_connect_ms h | _ => h_connect_ms h end.
Proof. unfold setopt_long. destruct o; destruct (accepts_long _ v); reflexivity. Qed.
Lemma str_connect_ms o v h : h_connect_ms (setopt_str o v h) = h_connect_ms h.
Proof. unfold setopt_str. destruct v as [v|]; [destruct (accepts_str v); reflexivity|reflexivity]. Qed.
Lemma long_timeout_ms o v h : h_timeout_ms (setopt_long o v h) = match o with CURLOPT_TIMEOUT => if accepts_long o v then v * 1000 else h_timeout_ms h | _ => h_timeout_ms h end.
Proof. unfold setopt_long. destruct o; destruct (accepts_long _ v); reflexivity. Qed.
Lemma str_timeout_ms o v h : h_timeout_ms (setopt_str o v h) = h_timeout_ms h.
Proof. unfold setopt_str. destruct v as [v|]; [destruct (accepts_str v); reflexivity|reflexivity]. Qed.
Lemma long_low_limit o v h : h_low_limit (setopt_long o v h) = match o with CURLOPT_LOW_SPEED_LIMIT => if accepts_long o v then v else h_low_limit h | _ => h_low_limit h end.
Proof. unfold setopt_long. destruct o; destruct (accepts_long _ v); reflexivity. Qed.
Lemma str_low_limit o v h : h_low_limit (setopt_str o v h) = h_low_limit h.
Proof. unfold setopt_str. destruct v as [v|]; [destruct (accepts_str v); reflexivity|reflexivity]. Qed.
Lemma long_low_time o v h : h_low_time (setopt_long o v h) = match o with CURLOPT_LOW_SPEED_TIME => if accepts_long o v then v else h_low_time h | _ => h_low_time h end.
Proof. unfold setopt_long. destruct o; destruct (accepts_long _ v); reflexivity. Qed.
Lemma str_low_time o v h : h_low_time (setopt_str o v h) = h_low_time h.
Proof. unfold setopt_str. destruct v as [v|]; [destruct (accepts_str v); reflexivity|reflexivity]. Qed.
Lemma long_maxsize o v h : h_maxsize (setopt_long o v h) = match o with CURLOPT_MAXFILESIZE => if accepts_long o v then v else h_maxsize h | _ => h_maxsize h end.
Proof. unfold setopt_long. destruct o; destruct (accepts_long _ v); reflexivity. Qed.
Lemma str_maxsize o v h : h_maxsize (setopt_str o v h) = h_maxsize h.
Proof. unfold setopt_str. destruct v as [v|]; [destruct (accepts_str v); reflexivity|reflexivity]. Qed.
Lemma long_verifyhost o v h : h_verifyhost (setopt_long o v h) = match o with CURLOPT_SSL_VERIFYHOST => if accepts_long o v then v else h_verifyhost h | _ => h_verifyhost h end.
Proof. unfold setopt_long. destruct o; destruct (accepts_long _ v); reflexivity. Qed.
Lemma str_verifyhost o v h : h_verifyhost (setopt_str o v h) = h_verifyhost h.
Proof. unfold setopt_str. destruct v as [v|]; [destruct (accepts_str v); reflexivity|reflexivity]. Qed.
Lemma long_verifypeer o v h : h_verifypeer (setopt_long o v h) = match o with CURLOPT_SSL_VERIFYPEER => if accepts_long o v then negb (v =? 0) else h_verifypeer h | _ => h_verifypeer h end.
Proof. unfold setopt_long. destruct o; destruct (accepts_long _ v); reflexivity. Qed.
Lemma str_verifypeer o v h : h_verifypeer (setopt_str o v h) = h_verifypeer h.
Proof. unfold setopt_str. destruct v as [v|]; [destruct (accepts_str v); reflexivity|reflexivity]. Qed.
Lemma long_failonerror o v h : h_failonerror (setopt_long o v h) = match o with CURLOPT_FAILONERROR => if accepts_long o v then negb (v =? 0) else h_failonerror h | _ => h_failonerror h end.
Proof. unfold setopt_long. destruct o; destruct (accepts_long _ v); reflexivity. Qed.
Lemma str_failonerror o v h : h_failonerror (setopt_str o v h) = h_failonerror h.
Proof. unfold setopt_str. destruct v as [v|]; [destruct (accepts_str v); reflexivity|reflexivity]. Qed.
Lemma long_timevalue o v h : h_timevalue (setopt_long o v h) = match o with CURLOPT_TIMEVALUE_LARGE => if accepts_long o v then v else h_timevalue h | _ => h_timevalue h end.
Proof. unfold setopt_long. destruct o; destruct (accepts_long _ v); reflexivity. Qed.
Lemma str_timevalue o v h : h_timevalue (setopt_str o v h) = h_timevalue h.
Proof. unfold setopt_str. destruct v as [v|]; [destruct (accepts_str v); reflexivity|reflexivity]. Qed.
Lemma long_ifmodsince o v h : h_ifmodsince (setopt_long o v h) = match o with CURLOPT_TIMECONDITION => if accepts_long o v then v =? 1 else h_ifmodsince h | _ => h_ifmodsince h end.
Proof. unfold setopt_long. destruct o; destruct (accepts_long _ v); reflexivity. Qed.
Lemma str_ifmodsince o v h : h_ifmodsince (setopt_str o v h) = h_ifmodsince h.
Proof. unfold setopt_str. destruct v as [v|]; [destruct (accepts_str v); reflexivity|reflexivity]. Qed.
Lemma str_capath o v h : h_capath (setopt_str o v h) = match o with CURLOPT_CAPATH => match v with Some s => if accepts_str s then Some s else h_capath h | None => h_capath h end | _ => h_capath h end.
Proof. unfold setopt_str. destruct v as [v|]; [destruct (accepts_str v); destruct o; reflexivity|destruct o; reflexivity]. Qed.
Lemma long_capath o v h : h_capath (setopt_long o v h) = h_capath h.
Proof. unfold setopt_long. destruct (accepts_long o v); reflexivity. Qed.
Lemma str_url o v h : h_url (setopt_str o v h) = match o with CURLOPT_URL => match v with Some s => if accepts_str s then Some s else h_url h | None => h_url h end | _ => h_url h end.
Proof. unfold setopt_str. destruct v as [v|]; [destruct (accepts_str v); destruct o; reflexivity|destruct o; reflexivity]. Qed.
Lemma long_url o v h : h_url (setopt_long o v h) = h_url h.
Proof. unfold setopt_long. destruct (accepts_long o v); reflexivity. Qed.
Lemma handle_spec c ims src : valid c -> Z.of_nat (length src) <= 8000000 -> let h := fetch_handle c ims src in
  h_capath h = ca_path c /\ h_url h = Some src /\ h_follow h = true /\ h_maxredirs h = max_redirs c /\
  h_connect_ms h = (if connect_timeout c <=? 2147483 then connect_timeout c * 1000 else 0) /\
  h_timeout_ms h = (if transfer_timeout c <=? 2147483 then transfer_timeout c * 1000 else 0) /\
  h_low_limit h = low_speed_limit c /\ h_low_time h = low_speed_time c /\ h_maxsize h = max_file_size c /\ h_verifyhost h = 2 /\ h_verifypeer h = true /\ h_failonerror h = true /\
  h_ifmodsince h = (0 <? ims) /\ (0 < ims -> h_timevalue h = ims).
Proof.
  intros (V1 & V2 & V2' & V3 & V4 & V5 & V6 & V7) Hs h. unfold h, fetch_handle, http_easy_init. clear h. unfold uint in *. cbv zeta.
  assert (A1 : accepts_str src = true) by (apply Z.leb_le; exact Hs).
  assert (A2 : match ca_path c with Some s => if accepts_str s then Some s else None | None => None end = ca_path c).
  { destruct (ca_path c) as [p|]; [|reflexivity]. unfold accepts_str. rewrite (proj2 (Z.leb_le _ _) (V7 p eq_refl)). reflexivity. }
  assert (B1 : accepts_long CURLOPT_MAXREDIRS (max_redirs c) = true) by (apply Z.leb_le; lia).
  assert (B2 : accepts_long CURLOPT_LOW_SPEED_LIMIT (low_speed_limit c) = true) by (apply Z.leb_le; lia).
  assert (B3 : accepts_long CURLOPT_LOW_SPEED_TIME (low_speed_time c) = true) by (apply Z.leb_le; lia).
  assert (B4 : accepts_long CURLOPT_MAXFILESIZE (max_file_size c) = true) by (apply Z.leb_le; lia).
  assert (B5 : accepts_long CURLOPT_CONNECTTIMEOUT (connect_timeout c) = (connect_timeout c <=? 2147483)) by (cbn; replace (0 <=? connect_timeout c) with true by (symmetry; apply Z.leb_le; lia); reflexivity).
  assert (B6 : accepts_long CURLOPT_TIMEOUT (transfer_timeout c) = (transfer_timeout c <=? 2147483)) by (cbn; replace (0 <=? transfer_timeout c) with true by (symmetry; apply Z.leb_le; lia); reflexivity).
  rewrite str_capath, str_url. cbv iota. rewrite A1.
  repeat match goal with |- _ /\ _ => split end; try intros I;
    destruct (Z.ltb_spec 0 ims); try lia;
    repeat (first [rewrite long_capath | rewrite str_capath | rewrite long_url | rewrite str_url | rewrite long_follow | rewrite str_follow | rewrite long_maxredirs | rewrite str_maxredirs | rewrite long_connect_ms | rewrite str_connect_ms | rewrite long_timeout_ms | rewrite str_timeout_ms | rewrite long_low_limit | rewrite str_low_limit | rewrite long_low_time | rewrite str_low_time | rewrite long_maxsize | rewrite str_maxsize | rewrite long_verifyhost | rewrite str_verifyhost | rewrite long_verifypeer | rewrite str_verifypeer | rewrite long_failonerror | rewrite str_failonerror | rewrite long_timevalue | rewrite str_timevalue | rewrite long_ifmodsince | rewrite str_ifmodsince]; cbv iota beta);
    rewrite ?B1, ?B2, ?B3, ?B4, ?B5, ?B6; cbn [accepts_long Z.eqb negb curl_easy_init h_capath h_url h_follow h_maxredirs h_connect_ms h_timeout_ms h_low_limit h_low_time h_maxsize h_verifyhost h_verifypeer h_failonerror h_timevalue h_ifmodsince]; auto; lia.
Qed.

Lemma prefix_https u : is_https u = true <-> https u.
Proof.
  unfold is_https, scheme_is, https. rewrite (list_eqb_spec Z.eqb Z.eqb_eq). split.
  - intros E. exists (skipn (length (cstr "https://")) u). rewrite E at 1. symmetry. apply firstn_skipn.
  - intros (r & ->). rewrite firstn_app, firstn_all, Nat.sub_diag, app_nil_r. reflexivity.
Qed.

Section Follow.
  Variable net : list Z -> option Z -> exchange.
  Variable c : http_config.
  Variable h : handle.
  Variable d : option Z.
  Hypothesis D : (if h_ifmodsince h then Some (h_timevalue h) else None) = d.
  Hypothesis Vp : h_verifypeer h = true.
  Hypothesis Vh : h_verifyhost h = 2.
  Hypothesis Ca : h_capath h = ca_path c.
  Hypothesis Fo : h_follow h = true.
  Hypothesis Fe : h_failonerror h = true.
  Definition connect_limit : Z := if h_connect_ms h =? 0 then 300000 else h_connect_ms h.

  (** What each request sent satisfies; what each request that led to a document satisfies. *)
  Definition sent_ok (q : request) : Prop := snd q = d /\ (https (fst q) -> verified c (net (fst q) d)) /\ exceeds connect_limit (x_connect (net (fst q) d)) = false.
  Definition used_ok (q : request) : Prop := (0 < h_low_limit h -> 0 < h_low_time h -> x_slow (net (fst q) d) (h_low_limit h) < h_low_time h).
  Lemma follow_spec more : forall spent u sent, let o := follow net h more spent u sent in
    (exists l, o_requests o = sent ++ l /\ (length l <= S more)%nat /\ Forall sent_ok l /\ (l = [] -> o_result o <> 0) /\ (forall q l', l = q :: l' -> q = (u, d)) /\
      (o_result o = 0 -> Forall used_ok l /\ exceeds (h_timeout_ms h) (spent + total net l) = false /\
        exists v x, last l (u, d) = (v, d) /\ x = net v d /\ x_answer x = Response (o_code o) (o_document o) /\ o_code o < 400 /\ (forall n, x_length x = Some n -> exceeds (h_maxsize h) n = false))).
  Proof.
    induction more as [|more IH]; intros spent u sent; cbn [follow]; rewrite D; set (x := net u d); fold connect_limit.
    all: destruct (exceeds connect_limit (x_connect x)) eqn:Ec; [exists []; cbn; rewrite app_nil_r; repeat split; auto; try lia; try discriminate|].
    all: rewrite Vp, Vh, Ca; cbn [andb Z.eqb negb]; rewrite !andb_true_r.
    all: destruct (is_https u && negb (x_trusted x (ca_path c)))%bool eqn:Et; [exists []; cbn; rewrite app_nil_r; repeat split; auto; try lia; try discriminate|].
    all: destruct (is_https u && negb (x_named x))%bool eqn:En; [exists []; cbn; rewrite app_nil_r; repeat split; auto; try lia; try discriminate|].
    all: assert (Q : sent_ok (u, d)); [split; [reflexivity|]; split; [|exact Ec]; cbn [fst]; intros Hh; apply prefix_https in Hh; rewrite Hh in Et, En; cbn [andb] in Et, En; apply negb_false_iff in Et, En; split; assumption|].
    all: assert (Q1 : Forall sent_ok [(u, d)]) by (apply Forall_cons; [exact Q|apply Forall_nil]).
    all: destruct (exceeds (h_timeout_ms h) (spent + x_duration x)) eqn:Em; [exists [(u, d)]; cbn; repeat split; auto; try lia; try discriminate; intros ? ? K; injection K as <- <-; reflexivity|].
    all: destruct ((0 <? h_low_limit h) && (0 <? h_low_time h) && (h_low_time h <=? x_slow x (h_low_limit h)))%bool eqn:El; [exists [(u, d)]; cbn; repeat split; auto; try lia; try discriminate; intros ? ? K; injection K as <- <-; reflexivity|].
    all: assert (U : used_ok (u, d)); [unfold used_ok; cbn [fst]; fold x; intros L1 L2; rewrite (proj2 (Z.ltb_lt _ _) L1), (proj2 (Z.ltb_lt _ _) L2) in El; cbn [andb] in El; apply Z.leb_gt in El; exact El|].
    all: destruct (x_answer x) as [v|code document] eqn:Ea; rewrite ?Fo, ?Fe.
    - exists [(u, d)]. cbn. repeat split; auto; try lia; try discriminate; intros ? ? K; injection K as <- <-; reflexivity.
    - destruct (Z.leb_spec 400 code) as [L|L]; cbn [andb]; [exists [(u, d)]; cbn; repeat split; auto; try lia; try discriminate; intros ? ? K; injection K as <- <-; reflexivity|].
      destruct (match x_length x with Some n => exceeds (h_maxsize h) n | None => false end) eqn:Es; [exists [(u, d)]; cbn; repeat split; auto; try lia; try discriminate; intros ? ? K; injection K as <- <-; reflexivity|].
      exists [(u, d)]. cbn [o_requests o_result o_code o_document]. split; [reflexivity|]. split; [cbn; lia|]. split; [exact Q1|]. split; [discriminate|]. split; [intros q l' K; injection K as <- <-; reflexivity|]. intros _.
      split; [apply Forall_cons; [exact U|apply Forall_nil]|]. split; [cbn [total]; fold x; rewrite Z.add_0_r; exact Em|]. exists u, x. repeat split; auto. intros n Hn. rewrite Hn in Es. exact Es.
    - destruct (redirects_to v).
      2:{ exists [(u, d)]. cbn. repeat split; auto; try lia; try discriminate; intros ? ? K; injection K as <- <-; reflexivity. }
      destruct (IH (spent + x_duration x) v (sent ++ [(u, d)])) as (l & I1 & I2 & I3 & I4 & I5 & I6). exists ((u, d) :: l). split; [rewrite I1, <- app_assoc; reflexivity|]. split; [cbn; lia|].
      split; [apply Forall_cons; assumption|]. split; [discriminate|]. split; [intros q l' K; injection K as <- <-; reflexivity|]. intros Z0. destruct (I6 Z0) as (J1 & J2 & w & y & J3 & J4 & J5 & J6 & J7).
      split; [apply Forall_cons; assumption|]. split; [cbn [total]; fold x; rewrite Z.add_assoc; exact J2|]. exists w, y. split; [|auto].
      destruct l as [|q l]; [exfalso; exact (I4 eq_refl Z0)|]. rewrite <- J3. cbn [last]. clear. revert q. induction l as [|r l IH]; intros q; [reflexivity|]. exact (IH r).
    - destruct (Z.leb_spec 400 code) as [L|L]; cbn [andb]; [exists [(u, d)]; cbn; repeat split; auto; try lia; try discriminate; intros ? ? K; injection K as <- <-; reflexivity|].
      destruct (match x_length x with Some n => exceeds (h_maxsize h) n | None => false end) eqn:Es; [exists [(u, d)]; cbn; repeat split; auto; try lia; try discriminate; intros ? ? K; injection K as <- <-; reflexivity|].
      exists [(u, d)]. cbn [o_requests o_result o_code o_document]. split; [reflexivity|]. split; [cbn; lia|]. split; [exact Q1|]. split; [discriminate|]. split; [intros q l' K; injection K as <- <-; reflexivity|]. intros _.
      split; [apply Forall_cons; [exact U|apply Forall_nil]|]. split; [cbn [total]; fold x; rewrite Z.add_0_r; exact Em|]. exists u, x. repeat split; auto. intros n Hn. rewrite Hn in Es. exact Es.
  Qed.
End Follow.

Lemma get_follow c ims src net : valid c -> Z.of_nat (length src) <= 8000000 ->
  get c ims src net = follow net (fetch_handle c ims src) (Z.to_nat (max_redirs c)) 0 src [].
Proof. intros V Hs. unfold get, curl_easy_perform. destruct (handle_spec c ims src V Hs) as (_ & -> & _ & -> & _). reflexivity. Qed.
Definition date (ims : Z) : option Z := if 0 <? ims then Some ims else None.
Lemma get_spec c ims src net : valid c -> Z.of_nat (length src) <= 8000000 -> let h := fetch_handle c ims src in let o := get c ims src net in let l := o_requests o in
  (length l <= S (Z.to_nat (max_redirs c)))%nat /\ Forall (sent_ok net c h (date ims)) l /\ (l = [] -> o_result o <> 0) /\ (forall q l', l = q :: l' -> q = (src, date ims)) /\
  (o_result o = 0 -> Forall (used_ok net h (date ims)) l /\ exceeds (h_timeout_ms h) (total net l) = false /\
     exists v x, last l (src, date ims) = (v, date ims) /\ x = net v (date ims) /\ x_answer x = Response (o_code o) (o_document o) /\ o_code o < 400 /\
       (forall n, x_length x = Some n -> exceeds (h_maxsize h) n = false)).
Proof.
  intros V Hs h o l. destruct (handle_spec c ims src V Hs) as (H1 & H2 & H3 & H4 & H5 & H6 & H7 & H8 & H9 & H10 & H11 & H12 & H13 & H14). fold h in H1, H2, H3, H4, H5, H6, H7, H8, H9, H10, H11, H12, H13, H14.
  assert (D : (if h_ifmodsince h then Some (h_timevalue h) else None) = date ims) by (unfold date; rewrite H13; destruct (Z.ltb_spec 0 ims) as [L|L]; [rewrite (H14 L)|]; reflexivity).
  destruct (follow_spec net c h (date ims) D H11 H10 H1 H3 H12 (Z.to_nat (max_redirs c)) 0 src []) as (l' & A1 & A2 & A3 & A4 & A5 & A6).
  unfold l, o. rewrite (get_follow c ims src net V Hs). fold h. rewrite A1. cbn [app]. auto.
Qed.

(** ** For every valid configuration and whatever the servers do: no request is sent to an HTTPS server that didn't prove its identity with a certificate of the
    configured CAs; there are at most http.max-redirs redirects; the first request is the one asked for, and all have the file's date, if there is one. *)
Theorem C105_requests : forall c ims src net, valid c -> Z.of_nat (length src) <= 8000000 ->
  let o := get c ims src net in
  (forall u d, In (u, d) (o_requests o) -> condition ims d /\ (https u -> verified c (net u d))) /\
  Z.of_nat (length (o_requests o)) <= max_redirs c + 1 /\
  (forall q l, o_requests o = q :: l -> fst q = src).
Proof.
  intros c ims src net V Hs o. destruct (get_spec c ims src net V Hs) as (A1 & A2 & A3 & A4 & _). fold o in A1, A2, A3, A4. split; [|split].
  - intros u d Hin. rewrite Forall_forall in A2. destruct (A2 _ Hin) as (B1 & B2 & _). cbn [fst snd] in *. subst d. split; [|exact B2]. unfold condition, date. destruct (Z.ltb_spec 0 ims); split; intros; try lia; reflexivity.
  - destruct V as ((V & _) & _). lia.
  - intros q l E. rewrite (A4 q l E). reflexivity.
Qed.
Print Assumptions C105_requests.

(** ** A document is taken only from a server that answered with it, within the limits that are configured: the connections, and everything together, were quick
    enough; no server was too slow for too long; the size it announced isn't too large.
    (Missing: timeouts of more than 2147483 seconds.  See below.) *)
Theorem C105_limits_partial : forall c ims src net, valid c -> Z.of_nat (length src) <= 8000000 -> connect_timeout c <= 2147483 -> transfer_timeout c <= 2147483 ->
  let o := get c ims src net in o_result o = 0 ->
  (exists l u d, o_requests o = l ++ [(u, d)] /\ x_answer (net u d) = Response (o_code o) (o_document o) /\ o_code o < 400 /\
     (forall n, x_length (net u d) = Some n -> max_file_size c <> 0 -> n <= max_file_size c)) /\
  (transfer_timeout c <> 0 -> total net (o_requests o) <= 1000 * transfer_timeout c) /\
  (forall u d, In (u, d) (o_requests o) -> x_connect (net u d) <= 1000 * connect_timeout c /\
     (0 < low_speed_limit c -> 0 < low_speed_time c -> x_slow (net u d) (low_speed_limit c) < low_speed_time c)).
Proof.
  intros c ims src net V Hs Lc Lt o Z0. destruct (handle_spec c ims src V Hs) as (H1 & H2 & H3 & H4 & H5 & H6 & H7 & H8 & H9 & _).
  destruct (get_spec c ims src net V Hs) as (A1 & A2 & A3 & A4 & A5). fold o in A1, A2, A3, A4, A5. destruct (A5 Z0) as (B1 & B2 & v & x & B3 & -> & B5 & B6 & B7).
  rewrite H6 in B2. rewrite H9 in B7. destruct V as (_ & (_ & _) & Vc & (Vt & _) & _ & _ & Vm & _).
  rewrite (proj2 (Z.leb_le _ _) Lc) in H5. rewrite (proj2 (Z.leb_le _ _) Lt) in B2. split; [|split].
  - destruct (o_requests o) as [|q l] eqn:E; [exfalso; exact (A3 eq_refl Z0)|]. exists (removelast (q :: l)), v, (date ims). split; [rewrite (app_removelast_last (src, date ims) (l := q :: l)) at 1 by discriminate; rewrite B3; reflexivity|].
    split; [exact B5|]. split; [exact B6|]. intros n Hn Nz. specialize (B7 n Hn). unfold exceeds in B7. replace (0 <? max_file_size c) with true in B7 by (symmetry; apply Z.ltb_lt; lia). cbn [andb] in B7. apply Z.ltb_ge in B7. exact B7.
  - intros Nz. unfold exceeds in B2. replace (0 <? transfer_timeout c * 1000) with true in B2 by (symmetry; apply Z.ltb_lt; lia). cbn [andb] in B2. apply Z.ltb_ge in B2. lia.
  - intros u d Hin. rewrite Forall_forall in A2, B1. pose proof (B1 _ Hin) as U. destruct (A2 _ Hin) as (S1 & _ & S3). cbn [fst snd] in *. subst d. unfold used_ok in U. cbn [fst] in U. rewrite H7, H8 in U. split; [|exact U].
    unfold connect_limit in S3. rewrite H5 in S3. destruct (Z.eqb_spec (connect_timeout c * 1000) 0); [lia|]. unfold exceeds in S3. replace (0 <? connect_timeout c * 1000) with true in S3 by (symmetry; apply Z.ltb_lt; lia). cbn [andb] in S3. apply Z.ltb_ge in S3. lia.
Qed.
Print Assumptions C105_limits_partial.

(** ** And a document that can be had within the limits is: if redirects (at most http.max-redirs) lead, by verified HTTPS servers, to a document. *)
Theorem C105_found : forall c ims src net d l x code document, valid c -> Z.of_nat (length src) <= 8000000 -> https src -> condition ims d ->
  chain net d src l x -> x_answer x = Response code document -> code < 400 -> (forall n, x_length x = Some n -> n <= max_file_size c) ->
  Z.of_nat (length l) <= max_redirs c + 1 -> (forall u, In (u, d) l -> verified c (net u d) /\ prompt c (net u d) /\ 0 <= x_duration (net u d)) ->
  total net l <= 1000 * Z.min (transfer_timeout c) 2147483 ->
  get c ims src net = {| o_result := 0; o_code := code; o_document := document; o_requests := l |}.
Proof.
  intros c ims src net d l x code document V Hs Hh Cd Ch Ax Lc Ls Lr Hl Ht. rewrite (get_follow c ims src net V Hs). destruct (handle_spec c ims src V Hs) as (H1 & H2 & H3 & H4 & H5 & H6 & H7 & H8 & H9 & H10 & H11 & H12 & H13 & H14).
  set (h := fetch_handle c ims src) in *.
  assert (D : (if h_ifmodsince h then Some (h_timevalue h) else None) = d) by (destruct Cd as (C1 & C2); rewrite H13; destruct (Z.ltb_spec 0 ims) as [L|L]; [rewrite (H14 L), (C1 L)|rewrite (C2 L)]; reflexivity).
  assert (V' := V). destruct V' as ((V1 & _) & (_ & _) & Vc & (Vt & _) & _ & _ & Vm & _).
  assert (T : forall s, 0 <= s -> s <= 1000 * Z.min (transfer_timeout c) 2147483 -> exceeds (h_timeout_ms h) s = false).
  { intros s S0 S1. unfold exceeds. apply andb_false_iff. rewrite H6. destruct (Z.leb_spec (transfer_timeout c) 2147483); [|left; apply Z.ltb_ge; lia]. right. apply Z.ltb_ge. lia. }
  assert (TT : forall v m y, chain net d v m y -> (forall u, In (u, d) m -> 0 <= x_duration (net u d)) -> 0 <= total net m).
  { induction 1 as [v|v w m y E Hw C IH]; intros Hd; cbn [total]; [specialize (Hd v (or_introl eq_refl)); lia|]. pose proof (Hd v (or_introl eq_refl)). specialize (IH ltac:(intros u Hu; apply Hd; right; exact Hu)). lia. }
  assert (G : forall v m y, chain net d v m y -> forall more spent sent, https v -> y = x -> (length m <= S more)%nat -> 0 <= spent -> spent + total net m <= 1000 * Z.min (transfer_timeout c) 2147483 ->
    (forall u, In (u, d) m -> verified c (net u d) /\ prompt c (net u d) /\ 0 <= x_duration (net u d)) ->
    follow net h more spent v sent = {| o_result := 0; o_code := code; o_document := document; o_requests := sent ++ m |}).
  { induction 1 as [v|v w m y E Hw C IH]; intros more spent sent Hv Y Lm S0 Ht' Hm.
    1: destruct (Hm v (or_introl eq_refl)) as ((T1 & T2) & (P1 & P2) & Dn).
    2: destruct (Hm v (or_introl eq_refl)) as ((T1 & T2) & (P1 & P2) & Dn).
    all: assert (Ec : exceeds (if h_connect_ms h =? 0 then 300000 else h_connect_ms h) (x_connect (net v d)) = false) by
      (unfold exceeds; apply andb_false_iff; right; apply Z.ltb_ge; rewrite H5; destruct (connect_timeout c <=? 2147483); [destruct (Z.eqb_spec (connect_timeout c * 1000) 0); lia|change (0 =? 0) with true; cbv iota; lia]).
    all: assert (Lo : ((0 <? low_speed_limit c) && (0 <? low_speed_time c) && (low_speed_time c <=? x_slow (net v d) (low_speed_limit c)))%bool = false) by
      (destruct (Z.ltb_spec 0 (low_speed_limit c)) as [Q1|]; [|reflexivity]; destruct (Z.ltb_spec 0 (low_speed_time c)) as [Q2|]; [|reflexivity]; cbn [andb]; apply Z.leb_gt; apply P2; assumption).
    - destruct more; cbn [follow]; rewrite D, Ec, H11, H10, H1, T1, T2; cbn [Z.eqb negb]; rewrite !andb_false_r, H7, H8, Lo; cbn [total] in Ht'; rewrite (T (spent + x_duration (net v d))) by lia; rewrite Y, Ax, H12; replace (400 <=? code) with false by (symmetry; apply Z.leb_gt; lia); cbn [andb];
        (destruct (x_length x) as [n|] eqn:El; [|reflexivity]); unfold exceeds; rewrite H9; pose proof (Ls n eq_refl); replace (max_file_size c <? n) with false by (symmetry; apply Z.ltb_ge; lia); rewrite andb_false_r; reflexivity.
    - cbn [length] in Lm. destruct more as [|more]; [destruct C; cbn in Lm; lia|]. cbn [follow]. rewrite D, Ec, H11, H10, H1, T1, T2. cbn [Z.eqb negb]. rewrite !andb_false_r, H7, H8, Lo. cbn [total] in Ht'.
      assert (0 <= total net m) by (apply (TT _ _ _ C); intros u Hu; apply (Hm u (or_intror Hu))).
      rewrite (T (spent + x_duration (net v d))) by lia. rewrite E, H3.
      assert (R : redirects_to w = true). { unfold redirects_to. apply prefix_https in Hw. unfold is_https in Hw. rewrite Hw. cbn [orb]. rewrite orb_true_r. reflexivity. }
      rewrite R. rewrite (IH more (spent + x_duration (net v d)) (sent ++ [(v, d)])); auto; try lia; [rewrite <- app_assoc; reflexivity|]. intros u Hu. apply Hm. right. exact Hu. }
  apply (G src l x Ch (Z.to_nat (max_redirs c)) 0 []); auto; lia.
Qed.
Print Assumptions C105_found.

(** FORT's defaults. *)
Definition defaults : http_config :=
  {| user_agent := cstr "fort/1.5.4"; max_redirs := 10; connect_timeout := 30; transfer_timeout := 900; low_speed_limit := 100000; low_speed_time := 10; max_file_size := 1000000000; ca_path := None |}.
Definition rrdp (host : string) : list Z := cstr "https://" ++ cstr host ++ cstr "/notification.xml".
Definition honest (a : answer) : exchange :=
  {| x_connect := 20; x_trusted := fun ca => match ca with None => true | Some _ => false end; x_named := true; x_duration := 300; x_slow := fun _ => 0; x_length := None; x_answer := a |}.
(** rrdp.example redirects to cdn.example, which has the document; moved.example redirects to a server without TLS. *)
Definition plain : list Z := cstr "http://cdn.example/notification.xml".
Definition ex_net (u : list Z) (d : option Z) : exchange :=
  if list_eqb Z.eqb u (rrdp "rrdp.example") then honest (Redirect (rrdp "cdn.example"))
  else if list_eqb Z.eqb u (rrdp "moved.example") then honest (Redirect plain)
  else if list_eqb Z.eqb u plain then {| x_connect := 20; x_trusted := fun _ => false; x_named := false; x_duration := 300; x_slow := fun _ => 0; x_length := None; x_answer := Response 200 (cstr "forged") |}
  else if list_eqb Z.eqb u (rrdp "loop.example") then honest (Redirect (rrdp "loop.example"))
  else if list_eqb Z.eqb u (rrdp "endless.example") then {| x_connect := 20; x_trusted := fun _ => true; x_named := true; x_duration := 10000000000; x_slow := fun _ => 0; x_length := None; x_answer := Response 200 (cstr "slowly") |}
  else honest (Response 200 (cstr "<notification/>")).
Lemma defaults_valid : valid defaults.
Proof. unfold valid, uint. cbn. repeat split; try lia. intros p K. discriminate K. Qed.
Example C105_example : valid defaults /\
  get defaults 0 (rrdp "rrdp.example") ex_net = {| o_result := 0; o_code := 200; o_document := cstr "<notification/>"; o_requests := [(rrdp "rrdp.example", None); (rrdp "cdn.example", None)] |} /\
  (let o := get defaults 1700000000 (rrdp "loop.example") ex_net in o_result o = 47 /\ length (o_requests o) = 11%nat /\ snd (hd ([], None) (o_requests o)) = Some 1700000000) /\
  get {| user_agent := []; max_redirs := 10; connect_timeout := 30; transfer_timeout := 900; low_speed_limit := 0; low_speed_time := 0; max_file_size := 1000; ca_path := Some (cstr "/etc/ca") |} 0 (rrdp "rrdp.example") ex_net = failed 60 [] /\
  chain ex_net None (rrdp "rrdp.example") [(rrdp "rrdp.example", None); (rrdp "cdn.example", None)] (ex_net (rrdp "cdn.example") None).
Proof.
  split; [exact defaults_valid|]. split; [vm_compute; reflexivity|]. split; [vm_compute; auto|]. split; [vm_compute; reflexivity|].
  apply (chain_redirect _ _ _ (rrdp "cdn.example")); [reflexivity|eexists; reflexivity|apply chain_end].
Qed.

(** ** False: documents are taken from servers that proved their identity ("Always expect HTTPS usage", src/http/http.c:175).  A redirect may lead to plain HTTP: anyone on
    the way can answer. *)
Theorem C105_plain_refuted : https (rrdp "moved.example") /\
  let o := get defaults 0 (rrdp "moved.example") ex_net in
  o_result o = 0 /\ o_code o = 200 /\ o_document o = cstr "forged" /\ last (o_requests o) ([], None) = (plain, None) /\ ~ https plain /\ ~ verified defaults (ex_net plain None).
Proof. split; [eexists; reflexivity|]. vm_compute. repeat split; auto; intros (x & K); discriminate K. Qed.
Print Assumptions C105_plain_refuted.

(** ** False: no transfer takes longer than http.transfer-timeout.  libcurl refuses a number of more than 2147483 seconds, which is only a message on stderr, and there's no limit then. *)
Theorem C105_timeout_refuted : exists c, valid c /\ transfer_timeout c = 3000000 /\
  let o := get c 0 (rrdp "endless.example") ex_net in o_result o = 0 /\ total ex_net (o_requests o) = 10000000 * 1000.
Proof.
  exists {| user_agent := []; max_redirs := 10; connect_timeout := 30; transfer_timeout := 3000000; low_speed_limit := 0; low_speed_time := 0; max_file_size := 1000; ca_path := None |}.
  split; [unfold valid, uint; cbn; repeat split; try lia; intros p K; discriminate K|]. vm_compute. auto.
Qed.
Print Assumptions C105_timeout_refuted.
