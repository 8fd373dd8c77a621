(** * C108: the receive buffer is a queue, and stays within its memory *)
From Verif Require Import Base BaseLemmas PduStream PduBuffer PduBufferSpec.
Notation length := List.length.
Open Scope list_scope.
Open Scope Z_scope.

(** ** Memory *)
Definition good (m : memory) (held : list Z) : Prop :=
  exists before after, buffer m = before ++ held ++ after /\ start m = Z.of_nat (length before) /\ end_ m = start m + Z.of_nat (length held) /\ length (buffer m) = 1024%nat.
Lemma good_bounds m held : good m held -> 0 <= start m /\ end_ m <= 1024 /\ end_ m - start m = Z.of_nat (length held) /\ Z.of_nat (length held) <= 1024.
Proof. intros (b & a & E & S & N & L). rewrite E, !app_length in L. lia. Qed.
Lemma good_length m held : good m held -> PduBuffer.get_length m = Z.of_nat (length held).
Proof. intros G. apply good_bounds in G. unfold PduBuffer.get_length, wrap64. rewrite Z.mod_small; lia. Qed.
Lemma load_ok b x y z : b = x ++ y ++ z -> load b (Z.of_nat (length x)) (Z.of_nat (length y)) = Ok y.
Proof.
  intros ->. unfold load, inside. rewrite !app_length. replace (_ && _ && _) with true by (symmetry; rewrite !andb_true_iff, !Z.leb_le; lia).
  rewrite !Nat2Z.id. rewrite skipn_app, skipn_all, Nat.sub_diag. cbn [app skipn]. rewrite firstn_app, firstn_all, Nat.sub_diag. cbn [firstn]. now rewrite app_nil_r.
Qed.
Lemma write_ok b x y y' z : b = x ++ y ++ z -> length y = length y' -> write b (Z.of_nat (length x)) y' = Ok (x ++ y' ++ z).
Proof.
  intros -> E. unfold write, inside. rewrite !app_length. replace (_ && _ && _) with true by (symmetry; rewrite !andb_true_iff, !Z.leb_le; lia).
  rewrite !Nat2Z.id. f_equal. rewrite firstn_app, firstn_all, Nat.sub_diag. cbn [firstn]. rewrite app_nil_r. f_equal. f_equal.
  rewrite skipn_app, skipn_all2 by lia. cbn [app]. replace (length x + length y' - length x)%nat with (length y) by lia. rewrite skipn_app, skipn_all, Nat.sub_diag. reflexivity.
Qed.

(** ** Receiving *)
Lemma move m held : good m held -> exists b, (if negb (start m =? 0) then
          bind (if negb (start m =? end_ m) then memmove (buffer m) 0 (start m) (PduBuffer.get_length m) else Ok (buffer m)) (fun b =>
          Ok {| buffer := b; start := 0; end_ := end_ m - start m |}) else Ok m) = Ok {| buffer := b; start := 0; end_ := Z.of_nat (length held) |} /\
  good {| buffer := b; start := 0; end_ := Z.of_nat (length held) |} held.
Proof.
  intros G. pose proof (good_length _ _ G) as GL. pose proof (good_bounds _ _ G) as GB. destruct G as (x & y & E & S & N & L). destruct (start m =? 0) eqn:Z0; cbn [negb].
  - apply Z.eqb_eq in Z0. destruct x; [|cbn in S; lia]. exists (buffer m). split; [destruct m as [bf st en]; cbn in *; f_equal; f_equal; lia|]. exists [], y. cbn. auto.
  - apply Z.eqb_neq in Z0. destruct (start m =? end_ m) eqn:Z1; cbn [negb].
    + apply Z.eqb_eq in Z1. destruct held; [|cbn in N; lia]. cbn [bind]. exists (buffer m). split; [do 2 f_equal; cbn; lia|]. exists [], (buffer m). cbn. auto.
    + unfold memmove. rewrite GL, S, (load_ok _ _ _ _ E). cbn [bind].
      assert (H : exists u v, buffer m = u ++ v /\ length u = length held).
      { exists (firstn (length held) (buffer m)), (skipn (length held) (buffer m)). rewrite firstn_skipn, firstn_length_le by lia. auto. }
      destruct H as (u & v & UV & LU). pose proof (write_ok (buffer m) [] u held v UV LU) as W. change (Z.of_nat (length (@nil Z))) with 0 in W. rewrite W. cbn [bind app]. exists (held ++ v). split; [do 2 f_equal; lia|].
      exists [], v. cbn. repeat split; auto. rewrite UV in L. rewrite !app_length in *. lia.
Qed.
Lemma receive fuel : forall m held evs, good m held -> start m = 0 -> (1024 < fuel + length held)%nat ->
  exists m' more evs1 st, receive_loop fuel m evs = Ok (m', st, evs1) /\ good m' (held ++ more) /\ start m' = 0 /\ bytes_of evs = more ++ bytes_of evs1 /\
    (st = BS_KEEP_READING /\ Z.of_nat (length (held ++ more)) = 1024 \/ stopped evs evs1 more st /\ Z.of_nat (length (held ++ more)) < 1024) /\
    (forall fuel', (1024 <= fuel' + length held)%nat -> update_loop fuel' held evs = (held ++ more, st, evs1)).
Proof.
  induction fuel as [|fuel IH]; intros m held evs G S F.
  { apply good_bounds in G. lia. }
  pose proof (good_bounds _ _ G) as GB. cbn [receive_loop]. unfold RTRPDU_MAX_LEN2. destruct (end_ m <? start m + 1024) eqn:Q.
  2:{ apply Z.ltb_ge in Q. exists m, [], evs, BS_KEEP_READING. rewrite app_nil_r. split; [reflexivity|]. split; [exact G|]. split; [exact S|]. split; [reflexivity|]. split; [left; split; [reflexivity|lia]|].
      intros f _. destruct f; cbn [update_loop]; [reflexivity|]. replace (1024 - length held)%nat with 0%nat by lia. reflexivity. }
  apply Z.ltb_lt in Q. rewrite (good_length _ _ G). assert (W : wrap64 (1024 - Z.of_nat (length held)) = 1024 - Z.of_nat (length held)) by (unfold wrap64; rewrite Z.mod_small; lia). rewrite W.
  destruct G as (x & y & E & S' & N & L). destruct x; [|cbn in S'; lia]. cbn [app] in E.
  assert (LY : length y = (1024 - length held)%nat) by (rewrite E, app_length in L; lia).
  replace (inside (buffer m) (end_ m) (1024 - Z.of_nat (length held))) with true by (symmetry; unfold inside; rewrite !andb_true_iff, !Z.leb_le; lia).
  assert (UL : forall f, (1024 <= f + length held)%nat -> exists f', f = Datatypes.S f' /\ (1024 - length held = Datatypes.S (1023 - length held))%nat) by (intros f Hf; exists (pred f); lia).
  assert (G : good m held) by (exists [], y; auto).
  assert (STOP : forall st evs1, stopped evs evs1 [] st -> bytes_of evs = bytes_of evs1 -> (forall f, (1024 <= f + length held)%nat -> update_loop f held evs = (held, st, evs1)) ->
    exists m' more evs1' st', Ok (m, st, evs1) = Ok (m', st', evs1') /\ good m' (held ++ more) /\ start m' = 0 /\ bytes_of evs = more ++ bytes_of evs1' /\
    (st' = BS_KEEP_READING /\ Z.of_nat (length (held ++ more)) = 1024 \/ stopped evs evs1' more st' /\ Z.of_nat (length (held ++ more)) < 1024) /\
    (forall fuel', (1024 <= fuel' + length held)%nat -> update_loop fuel' held evs = (held ++ more, st', evs1'))).
  { intros st evs1 ST BO U. exists m, [], evs1, st. rewrite app_nil_r. split; [reflexivity|]. split; [exact G|]. split; [exact S|]. split; [exact BO|]. split; [right; split; [exact ST|lia]|exact U]. }
  destruct evs as [|[bs| | |] evs]; cbn [sys_read];
    try (apply STOP; [constructor|reflexivity|]; intros f Hf; destruct (UL f Hf) as (f' & -> & R); cbn [update_loop]; rewrite R; reflexivity).
  remember (1024 - length held)%nat as room eqn:RM in *. replace (Z.to_nat (1024 - Z.of_nat (length held))) with room by lia.
  destruct bs as [|b0 bs].
  { rewrite firstn_nil, skipn_nil. apply STOP; [constructor|reflexivity|]. intros f Hf; destruct (UL f Hf) as (f' & -> & R); cbn [update_loop]; rewrite <- RM; rewrite R; reflexivity. }
  remember (b0 :: bs) as data eqn:ED. assert (ND : data <> []) by (rewrite ED; discriminate).
  destruct (firstn room data) as [|g got] eqn:FG; [destruct room; [lia|subst data; discriminate]|]. rewrite <- FG. clear g got FG.
  set (evs2 := match skipn room data with [] => evs | _ => RData (skipn room data) :: evs end).
  assert (B2 : bytes_of (RData data :: evs) = firstn room data ++ bytes_of evs2).
  { unfold bytes_of. cbn [map concat]. rewrite <- (firstn_skipn room data) at 1. rewrite <- app_assoc. f_equal. unfold evs2. destruct (skipn room data); reflexivity. }
  assert (LF : (length (firstn room data) <= room /\ 0 < length (firstn room data))%nat) by (rewrite firstn_length; subst data; cbn [length]; lia).
  rewrite S in N. cbn [Z.add] in N. rewrite N.
  assert (SPL : exists u v, y = u ++ v /\ length u = length (firstn room data)).
  { exists (firstn (length (firstn room data)) y), (skipn (length (firstn room data)) y). rewrite firstn_skipn, (firstn_length_le y) by lia. auto. }
  destruct SPL as (u & v & UV & LU). rewrite (write_ok (buffer m) held u (firstn room data) v) by (auto; rewrite E, UV; reflexivity). cbn [bind]. rewrite S.
  set (m1 := {| buffer := held ++ firstn room data ++ v; start := 0; end_ := Z.of_nat (length held) + Z.of_nat (length (firstn room data)) |}).
  assert (G1 : good m1 (held ++ firstn room data)).
  { exists [], v. unfold m1. cbn [buffer start end_ app length]. rewrite <- app_assoc. repeat split; [rewrite app_length; lia|]. rewrite E, UV in L. rewrite !app_length in *. lia. }
  destruct (IH m1 (held ++ firstn room data) evs2 G1 eq_refl ltac:(rewrite app_length; lia)) as (m' & more & evs1 & st & R & G' & S1 & B & C & U).
  exists m', (firstn room data ++ more), evs1, st. split; [exact R|]. rewrite (app_assoc held). split; [exact G'|]. split; [exact S1|]. split; [rewrite B2, B, app_assoc; reflexivity|]. split.
  - destruct C as [C|[C Q2]]; [left; exact C|]. right. split; [|exact Q2]. assert (SK : skipn room data = []).
    { destruct (skipn room data) eqn:SK; [reflexivity|]. exfalso. assert (length (firstn room data) = room) by (rewrite firstn_length_le; [reflexivity|]; pose proof (skipn_length room data) as SL; rewrite SK in SL; cbn in SL; lia). rewrite !app_length in Q2. lia. }
    unfold evs2 in C. rewrite SK in C. assert (FD : firstn room data = data) by (rewrite <- (firstn_skipn room data) at 2; rewrite SK, app_nil_r; reflexivity). rewrite FD. apply s_data; auto.
  - intros f Hf. destruct (UL f Hf) as (f' & -> & R'). cbn [update_loop]. rewrite <- RM. assert (X : forall A (p q : A), match room with O => p | S _ => q end = q) by (intros; rewrite R'; reflexivity). rewrite X. clear X.
    rewrite <- (U f') by (rewrite app_length; lia). rewrite ED. rewrite <- ED. unfold evs2. destruct (skipn room data); reflexivity.
Qed.
Lemma receives m held evs : good m held -> exists m' more evs1 st, update_memory m evs = Ok (m', st, evs1) /\ good m' (held ++ more) /\ start m' = 0 /\ bytes_of evs = more ++ bytes_of evs1 /\
    (st = BS_KEEP_READING /\ Z.of_nat (length (held ++ more)) = 1024 \/ stopped evs evs1 more st /\ Z.of_nat (length (held ++ more)) < 1024) /\
    update_loop (1024 - length held) held evs = (held ++ more, st, evs1).
Proof.
  intros G. destruct (move m held G) as (b & E & G'). unfold update_memory. rewrite E. cbn [bind].
  destruct (receive 1026 _ held evs G' eq_refl ltac:(lia)) as (m' & more & evs1 & st & R & A & B & C & D & U). exists m', more, evs1, st. repeat split; auto. apply U. apply good_bounds in G. lia.
Qed.
Lemma consumes m held n : good m held -> 0 <= n <= Z.of_nat (length held) -> exists m', consume m n = Ok (firstn (Z.to_nat n) held, m') /\ good m' (skipn (Z.to_nat n) held).
Proof.
  intros (x & y & E & S & N & L) R. set (k := Z.to_nat n). assert (LK : length (firstn k held) = k) by (rewrite firstn_length_le; lia).
  unfold consume. rewrite S. replace n with (Z.of_nat (length (firstn k held))) by lia.
  rewrite (load_ok (buffer m) x (firstn k held) (skipn k held ++ y)) by (rewrite app_assoc with (m := skipn k held), firstn_skipn; exact E). cbn [bind]. eexists. split; [reflexivity|].
  exists (x ++ firstn k held), y. cbn [buffer start end_]. rewrite E, <- app_assoc, (app_assoc (firstn k held)), firstn_skipn. split; [reflexivity|]. rewrite app_length, skipn_length. rewrite E in L. repeat split; lia.
Qed.

(** ** Histories *)
(** The events on the memory; [None]: more is taken than there is. *)
Fixpoint run (es : list event) (m : memory) (evs : list read_ev) : res (option (list seen * memory * list read_ev)) :=
  match es with
  | [] => Ok (Some ([], m, evs))
  | Receive :: es => bind (update_memory m evs) (fun '(m, st, evs) => bind (run es m evs) (fun r => Ok (option_map (fun '(o, m, evs) => (Says st :: o, m, evs)) r)))
  | Take n :: es => if (0 <=? n) && (n <=? PduBuffer.get_length m) then bind (consume m n) (fun '(bs, m) => bind (run es m evs) (fun r => Ok (option_map (fun '(o, m, evs) => (Bytes bs :: o, m, evs)) r))) else Ok None
  end.
Lemma runs es : forall m held evs, good m held ->
  (exists o m' evs' held', run es m evs = Ok (Some (o, m', evs')) /\ history es held evs o held' evs' /\ good m' held') \/ run es m evs = Ok None.
Proof.
  induction es as [|[|n] es IH]; intros m held evs G; cbn [run].
  - left. exists [], m, evs, held. split; [reflexivity|]. split; [constructor|exact G].
  - destruct (receives m held evs G) as (m1 & more & evs1 & st & E & G1 & _ & B & C & _). rewrite E. cbn [bind].
    destruct (IH m1 _ evs1 G1) as [(o & m' & evs' & held' & R & H & G')|R]; rewrite R; cbn [bind option_map]; [|right; reflexivity].
    left. exists (Says st :: o), m', evs', held'. split; [reflexivity|]. split; [|exact G']. apply h_receive with (more := more) (evs1 := evs1); auto. apply good_bounds in G1. lia.
  - rewrite (good_length _ _ G). destruct ((0 <=? n) && (n <=? Z.of_nat (length held))) eqn:Q; [|right; reflexivity]. apply andb_true_iff in Q. rewrite !Z.leb_le in Q.
    destruct (consumes m held n G Q) as (m1 & E & G1). rewrite E. cbn [bind]. destruct (IH m1 _ evs G1) as [(o & m' & evs' & held' & R & H & G')|R]; rewrite R; cbn [bind option_map]; [|right; reflexivity].
    left. exists (Bytes (firstn (Z.to_nat n) held) :: o), m', evs', held'. split; [reflexivity|]. split; [|exact G']. apply h_take; auto.
Qed.
Lemma no_loss es held evs o held' evs' : history es held evs o held' evs' -> Z.of_nat (length held) <= 1024 -> taken o ++ held' ++ bytes_of evs' = held ++ bytes_of evs /\ Z.of_nat (length held') <= 1024.
Proof.
  induction 1 as [held evs|n es held evs o held' evs' R H IH|es held evs more evs1 st o held' evs' B L C H IH]; intros LH; [auto| |].
  - destruct IH as [IH1 IH2]; [rewrite skipn_length; lia|]. split; [|exact IH2]. unfold taken in *. cbn [map concat]. rewrite <- app_assoc, IH1, app_assoc, firstn_skipn. reflexivity.
  - destruct IH as [IH1 IH2]; [exact L|]. split; [|exact IH2]. unfold taken in *. cbn [map concat app]. rewrite IH1, <- app_assoc, B. reflexivity.
Qed.

(** Whatever the socket gives, in whatever pieces, and whatever is taken in
    between, the buffer's memory is only used where it exists; the bytes held are
    a queue; no byte is lost, duplicated or altered. *)
Theorem C108_queue : forall garbage evs es, length garbage = 1024%nat ->
  (exists o m held evs', run es (create garbage) evs = Ok (Some (o, m, evs')) /\ history es [] evs o held evs' /\
     load (buffer m) (start m) (Z.of_nat (length held)) = Ok held /\ PduBuffer.get_length m = Z.of_nat (length held) /\
     taken o ++ held ++ bytes_of evs' = bytes_of evs /\ Z.of_nat (length held) <= 1024)
  \/ run es (create garbage) evs = Ok None /\ exists es1 n es2 o m held evs', es = es1 ++ Take n :: es2 /\ run es1 (create garbage) evs = Ok (Some (o, m, evs')) /\ history es1 [] evs o held evs' /\ ~ 0 <= n <= Z.of_nat (length held).
Proof.
  intros garbage evs es L. assert (G : good (create garbage) []) by (exists [], garbage; cbn; auto).
  destruct (runs es _ [] evs G) as [(o & m & evs' & held & R & H & G')|R].
  - left. exists o, m, held, evs'. split; [exact R|]. split; [exact H|]. split; [|split; [apply good_length; exact G'|]].
    + destruct G' as (x & y & E & S & _). rewrite S. apply (load_ok _ _ _ _ E).
    + destruct (no_loss _ _ _ _ _ _ H) as [A B]; [cbn; lia|]. auto.
  - right. split; [exact R|]. revert R. generalize (create garbage), G. clear garbage L G. generalize (@nil Z). 
    revert evs. induction es as [|[|n] es IH]; intros evs held m G R; cbn [run] in R; [discriminate| |].
    + destruct (receives m held evs G) as (m1 & more & evs1 & st & E & G1 & _ & B & C & _). rewrite E in R. cbn [bind] in R.
      destruct (run es m1 evs1) as [[[[? ?] ?]|]|?|] eqn:R1; cbn [bind option_map] in R; try discriminate.
      destruct (IH evs1 _ m1 G1 R1) as (es1 & k & es2 & o & m2 & h2 & e2 & -> & RR & HH & NN). exists (Receive :: es1), k, es2, (Says st :: o), m2, h2, e2. split; [reflexivity|].
      split; [cbn [run]; rewrite E; cbn [bind]; rewrite RR; reflexivity|]. split; [|exact NN]. apply h_receive with (more := more) (evs1 := evs1); auto. apply good_bounds in G1. lia.
    + rewrite (good_length _ _ G) in R. destruct ((0 <=? n) && (n <=? Z.of_nat (length held))) eqn:Q.
      * apply andb_true_iff in Q. rewrite !Z.leb_le in Q. destruct (consumes m held n G Q) as (m1 & E & G1). rewrite E in R. cbn [bind] in R.
        destruct (run es m1 evs) as [[[[? ?] ?]|]|?|] eqn:R1; cbn [bind option_map] in R; try discriminate.
        destruct (IH evs _ m1 G1 R1) as (es1 & k & es2 & o & m2 & h2 & e2 & -> & RR & HH & NN). exists (Take n :: es1), k, es2, (Bytes (firstn (Z.to_nat n) held) :: o), m2, h2, e2. split; [reflexivity|].
        split; [cbn [run]; rewrite (good_length _ _ G); replace (_ && _) with true by (symmetry; rewrite andb_true_iff, !Z.leb_le; lia); rewrite E; cbn [bind]; rewrite RR; reflexivity|]. split; [|exact NN]. apply h_take; auto.
      * exists [], n, es, [], m, held, evs. split; [reflexivity|]. split; [reflexivity|]. split; [constructor|]. intros K. apply andb_false_iff in Q. rewrite !Z.leb_gt in Q. lia.
Qed.

(** PduStream.v's update_buffer() (of which C12 to C15 are) is this one, without
    the memory. *)
Theorem C108_same_as_PduStream : forall garbage es evs o m evs', length garbage = 1024%nat -> run es (create garbage) evs = Ok (Some (o, m, evs')) ->
  exists held, load (buffer m) (start m) (PduBuffer.get_length m) = Ok held /\ forall v, exists m' st evs'', update_memory m evs' = Ok (m', st, evs'') /\
    update_buffer {| ps_version := v; ps_off := start m; ps_buf := held |} evs' = ({| ps_version := v; ps_off := start m'; ps_buf := firstn (Z.to_nat (PduBuffer.get_length m')) (skipn (Z.to_nat (start m')) (buffer m')) |}, st, evs'').
Proof.
  intros garbage es evs o m evs' L R. assert (G : good (create garbage) []) by (exists [], garbage; cbn; auto).
  destruct (runs es _ [] evs G) as [(o1 & m1 & evs1 & held & R1 & _ & G1)|R1]; rewrite R1 in R; [|discriminate]. injection R as -> -> ->. exists held. rewrite (good_length _ _ G1).
  split; [destruct G1 as (x & y & E & S & _); rewrite S; apply (load_ok _ _ _ _ E)|]. intros v. destruct (receives m held evs' G1) as (m' & more & evs2 & st & E & G2 & S2 & _ & _ & U).
  exists m', st, evs2. split; [exact E|]. unfold update_buffer. cbn [ps_buf ps_version]. rewrite U, S2, (good_length _ _ G2). do 3 f_equal.
  destruct G2 as (x & y & E2 & S3 & _). destruct x; [|cbn in S3; lia]. rewrite E2. cbn [app skipn Z.to_nat]. rewrite Nat2Z.id, firstn_app, firstn_all, Nat.sub_diag. cbn [firstn]. now rewrite app_nil_r.
Qed.

(** Beyond what's held, nothing is safe: the next reading would be of the memory
    that follows. *)
Example C108_nonvacuous : exists o m held evs', run [Receive; Take 3; Receive; Take 2; Receive] (create (repeat 255 1024)) [RData [1; 2; 3; 4]; RWouldBlock; RData [5; 6]; RData (repeat 7 2000); REos] = Ok (Some (o, m, evs')) /\
  taken o = [1; 2; 3; 4; 5] /\ held = 6 :: repeat 7 1023 /\ load (buffer m) (start m) 1024 = Ok held /\ evs' = [RData (repeat 7 977); REos] /\ In (Says BS_KEEP_READING) o.
Proof. do 4 eexists. split; [vm_compute; reflexivity|]. vm_compute. repeat split; auto. Qed.
Print Assumptions C108_queue. Print Assumptions C108_same_as_PduStream.
