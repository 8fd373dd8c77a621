(** Logging: proofs. *)
From Coq Require Import String ZArith List Bool Lia.
From Verif Require Import Base BaseLemmas CString Log LogSpec.
Import ListNotations.
Open Scope list_scope.
Open Scope Z_scope.

Definition add (a b : block) : block :=
  {| b_out := b_out a ++ b_out b; b_err := b_err a ++ b_err b; b_sys := b_sys a ++ b_sys b |}.
Definition piece (s : step) (m : text) : block :=
  match s with
  | Fprintf Stdout t => {| b_out := t; b_err := []; b_sys := [] |}
  | Fprintf Stderr t | Write t => {| b_out := []; b_err := t; b_sys := [] |}
  | Syslog p b => {| b_out := []; b_err := []; b_sys := [(p, b ++ m)] |}
  | SyslogText p t => {| b_out := []; b_err := []; b_sys := [(p, t)] |}
  | _ => nothing
  end.
Definition next_msg (s : step) (m : text) : text := match s with Vsnprintf t => t | _ => m end.
Fixpoint emit (m : text) (body : list step) : block :=
  match body with [] => nothing | s :: r => add (piece s m) (emit (next_msg s m) r) end.
Fixpoint settled (dirty : bool) (body : list step) : bool :=
  match body with
  | [] => negb dirty
  | Fprintf Stdout _ :: r => settled true r
  | Fflush Stdout :: r => settled false r
  | _ :: r => settled dirty r
  end.
Fixpoint primed (b : bool) (body : list step) : bool :=
  match body with
  | [] => true
  | Vsnprintf _ :: r => primed true r
  | Syslog _ _ :: r => b && primed b r
  | _ :: r => primed b r
  end.
Definition inner (body : list step) : Prop := Forall (fun s => s <> Lock /\ s <> Unlock) body.
Definition wf (body : list step) : Prop := inner body /\ settled false body = true /\ primed false body = true.
Definition enc (bodies : list (list step)) : list step := flat_map (fun b => Lock :: b ++ [Unlock]) bodies.

Lemma enc_head bs s r : enc bs = s :: r -> s = Lock /\ exists b bs', bs = b :: bs' /\ r = b ++ Unlock :: enc bs'.
Proof.
  destruct bs as [|b bs]; [discriminate|]. cbn. intro H. injection H as <- <-. split; [reflexivity|].
  exists b, bs. split; [reflexivity|]. unfold enc. now rewrite <- app_assoc.
Qed.
Lemma settled_mono body : forall d, settled d body = true -> settled false body = true.
Proof.
  induction body as [|s body IH]; intros d H; [reflexivity|].
  destruct s as [| |[]|[]| | | |]; cbn in *; eauto.
Qed.
Lemma emit_primed body : forall m m' b, primed b body = true -> (b = true -> m = m') -> emit m body = emit m' body.
Proof.
  induction body as [|s body IH]; intros m m' b H E; [reflexivity|].
  destruct s as [| |[]|[]| | | |]; cbn in *; try (erewrite IH; eauto; fail); try (now rewrite (IH m m' b H E)).
  apply andb_prop in H as [-> H]. rewrite (E eq_refl). reflexivity.
Qed.
Lemma nth_upd {A} (l : list A) i j x y d : nth_error l i = Some y -> nth j (upd l i x) d = if Nat.eqb j i then x else nth j l d.
Proof.
  intro H. assert (i < List.length l)%nat by (apply nth_error_Some; congruence).
  destruct (Nat.eqb_spec j i) as [->|N].
  - apply nth_error_nth. now apply upd_same.
  - rewrite <- !nth_default_eq. unfold nth_default. now rewrite upd_other by auto.
Qed.
Lemma nth_of_error {A} (l : list A) i x d : nth_error l i = Some x -> nth i l d = x.
Proof. apply nth_error_nth. Qed.
Lemma of_thread_snoc i done h b : of_thread i (done ++ [(h, b)]) = of_thread i done ++ (if Nat.eqb h i then [b] else []).
Proof. unfold of_thread. rewrite filter_app, map_app. cbn. now destruct (Nat.eqb h i). Qed.
Lemma outs_snoc done h b : outs (done ++ [(h, b)]) = outs done ++ b_out b.
Proof. unfold outs. rewrite map_app, concat_app. cbn. now rewrite app_nil_r. Qed.
Lemma errs_snoc done h b : errs (done ++ [(h, b)]) = errs done ++ b_err b.
Proof. unfold errs. rewrite map_app, concat_app. cbn. now rewrite app_nil_r. Qed.
Lemma records_snoc done h b : records (done ++ [(h, b)]) = records done ++ b_sys b.
Proof. unfold records. rewrite map_app, concat_app. cbn. now rewrite app_nil_r. Qed.
Lemma add_nothing b : add b nothing = b.
Proof. destruct b; unfold add; cbn. now rewrite !app_nil_r. Qed.
Lemma add_assoc a b c : add (add a b) c = add a (add b c).
Proof. unfold add; cbn. now rewrite !app_assoc. Qed.

Definition is_nil (t : text) : bool := match t with [] => true | _ => false end.
Section Inv.
  Variable bl : nat -> list block.
  Definition Idle (w : world) (done : list (nat * block)) : Prop :=
    holder w = None /\ exists rb,
      (forall i, Forall wf (rb i)) /\ stdout_buffer w = []
      /\ (forall i, nth i (threads w) [] = enc (rb i))
      /\ (forall i, bl i = of_thread i done ++ map (emit []) (rb i))
      /\ out w = outs done /\ err w = errs done /\ sys w = records done.
  Definition Busy (w : world) (done : list (nat * block)) (h : nat) (cur part : block) : Prop :=
    holder w = Some h /\ exists rb rest,
      (forall i, Forall wf (rb i)) /\ inner rest
      /\ settled (negb (is_nil (stdout_buffer w))) rest = true
      /\ nth h (threads w) [] = rest ++ Unlock :: enc (rb h)
      /\ (forall i, i <> h -> nth i (threads w) [] = enc (rb i))
      /\ (forall i, bl i = of_thread i done ++ (if Nat.eqb i h then [cur] else []) ++ map (emit []) (rb i))
      /\ cur = add part (emit (msg_buffer w) rest)
      /\ out w ++ stdout_buffer w = outs done ++ b_out part
      /\ err w = errs done ++ b_err part /\ sys w = records done ++ b_sys part.

  Lemma step_idle w w' done : Idle w done -> wstep w w' -> Idle w' done \/ exists h cur, Busy w' done h cur nothing.
  Proof.
    intros (Hh & rb & Wf & Ob & Th & Bl & Eo & Ee & Es) S. inversion S; subst; clear S.
    - (* lock *) right. pose proof (Th i) as T. rewrite (nth_of_error _ _ _ _ H) in T. symmetry in T.
      apply enc_head in T as (_ & b & bs & Er & ->).
      exists i, (emit [] b). split; [reflexivity|].
      pose proof (Wf i) as Wi. rewrite Er in Wi. inversion Wi as [|x y (Wb & Ws & Wp) Wr]; subst.
      exists (fun j => if Nat.eqb j i then bs else rb j), b. cbn. rewrite Nat.eqb_refl, Ob. repeat split; auto.
      + intro j. destruct (Nat.eqb_spec j i); auto.
      + rewrite (nth_upd _ _ _ _ _ _ H), Nat.eqb_refl. reflexivity.
      + intros j N. rewrite (nth_upd _ _ _ _ _ _ H). destruct (Nat.eqb_spec j i); [contradiction|apply Th].
      + intro j. destruct (Nat.eqb_spec j i) as [->|N]; rewrite Bl; [rewrite Er|]; reflexivity.
      + rewrite (emit_primed b (msg_buffer w) [] false Wp) by discriminate. unfold add; cbn. now destruct (emit [] b).
      + now rewrite Eo, !app_nil_r.
      + now rewrite Ee, app_nil_r.
      + now rewrite Es, app_nil_r.
    - rewrite H0 in Hh. discriminate.
    - exfalso. pose proof (Th i) as T. rewrite (nth_of_error _ _ _ _ H) in T. symmetry in T.
      apply enc_head in T as (-> & _). contradiction.
    - left. rewrite Ob in H. symmetry in H. apply app_eq_nil in H as [-> ->].
      split; [exact Hh|]. exists rb. cbn. rewrite app_nil_r. repeat split; auto.
  Qed.

  Lemma step_busy w w' done h cur part : Busy w done h cur part -> wstep w w' ->
    Idle w' (done ++ [(h, cur)]) \/ exists part', Busy w' done h cur part'.
  Proof.
    intros (Hh & rb & rest & Wf & In & Se & Th & To & Bl & Ec & Eo & Ee & Es) S. revert Ec. inversion S; subst; clear S; intro Ec.
    - congruence.
    - (* unlock *) rewrite H0 in Hh. injection Hh as <-. rewrite (nth_of_error _ _ _ _ H) in Th.
      destruct rest as [|s rest].
      2:{ cbn in Th. injection Th as E _. inversion In as [|x y (_ & N) _]. now symmetry in E. }
      cbn in Th. injection Th as Th. cbn in Ec. rewrite add_nothing in Ec.
      left. split; [reflexivity|]. exists rb. cbn.
      assert (Ob : stdout_buffer w = []) by (cbn in Se; destruct (stdout_buffer w); [reflexivity|discriminate]).
      rewrite Ob in Eo. rewrite app_nil_r in Eo. rewrite Ec.
      repeat split; auto.
      + intro j. rewrite (nth_upd _ _ _ _ _ _ H). destruct (Nat.eqb_spec j i) as [->|N]; auto.
      + intro j. rewrite of_thread_snoc, Bl. rewrite Nat.eqb_sym. rewrite <- Ec. rewrite <- app_assoc. reflexivity.
      + rewrite outs_snoc. exact Eo.
      + rewrite errs_snoc. exact Ee.
      + rewrite records_snoc. exact Es.
    - (* io *) destruct (Nat.eq_dec i h) as [->|N].
      2:{ exfalso. pose proof (To i N) as T. rewrite (nth_of_error _ _ _ _ H) in T. symmetry in T.
          apply enc_head in T as (-> & _). contradiction. }
      rewrite (nth_of_error _ _ _ _ H) in Th.
      destruct rest as [|s' rest]; [cbn in Th; injection Th as -> _; contradiction|].
      cbn in Th. injection Th as <- ->. inversion In as [|x y _ In']; subst x y.
      right. exists (add part (piece s (msg_buffer w))). split; [destruct s as [| |[]|[]| | | |]; exact Hh|].
      exists rb, rest.
      assert (Ct : forall l, l = upd (threads (io s w)) h (rest ++ Unlock :: enc (rb h)) ->
                nth h l [] = rest ++ Unlock :: enc (rb h) /\ forall i, i <> h -> nth i l [] = enc (rb i)).
      { intros l ->. assert (E : threads (io s w) = threads w) by (destruct s as [| |[]|[]| | | |]; reflexivity). rewrite E.
        split; [rewrite (nth_upd _ _ _ _ _ _ H), Nat.eqb_refl; reflexivity|].
        intros j N. rewrite (nth_upd _ _ _ _ _ _ H). destruct (Nat.eqb_spec j h); [contradiction|now apply To]. }
      cbn zeta. unfold set_threads. cbn [threads msg_buffer stdout_buffer out err sys].
      destruct (Ct _ eq_refl) as (Ct1 & Ct2). clear Ct.
      cbn [emit] in Ec. rewrite <- add_assoc in Ec.
      repeat split; auto; clear Ct1 Ct2.
      + destruct s as [| |[]|[]| | | |]; cbn in Se |- *; auto.
        destruct (stdout_buffer w ++ t) eqn:Et; cbn; auto. eapply settled_mono; eauto.
      + rewrite Ec. f_equal. destruct s as [| |[]|[]| | | |]; reflexivity.
      + destruct s as [| |[]|[]| | | |]; cbn; rewrite ?app_nil_r; auto; try rewrite !app_assoc; now rewrite Eo.
      + destruct s as [| |[]|[]| | | |]; cbn; rewrite ?app_nil_r; auto; try rewrite !app_assoc; now rewrite Ee.
      + destruct s as [| |[]|[]| | | |]; cbn; rewrite ?app_nil_r; auto; try rewrite !app_assoc; now rewrite Es.
    - (* spill *) right. exists part. split; [exact Hh|]. exists rb, rest. cbn. repeat split; auto.
      + rewrite H in Se. destruct b; cbn; [eapply settled_mono; eauto|]. destruct a; exact Se.
      + rewrite <- app_assoc, <- H. exact Eo.
  Qed.

  Lemma runs w0 w done : wsteps w0 w -> Idle w0 done ->
    exists done', Idle w done' \/ exists h cur part, Busy w done' h cur part.
  Proof.
    intros R I. induction R as [w|a b c R IH S]; [exists done; now left|].
    destruct (IH I) as (d & [Hi|(h & cur & part & Hb)]).
    - destruct (step_idle _ _ _ Hi S) as [H|(h & cur & H)]; [exists d; now left|exists d; right; eauto].
    - destruct (step_busy _ _ _ _ _ _ Hb S) as [H|(p & H)]; [eexists; left; exact H|exists d; right; eauto].
  Qed.
End Inv.

(** The steps of the calls *)
Definition gives (steps : list step) (bs : list block) : Prop :=
  exists bodies, steps = enc bodies /\ Forall wf bodies /\ map (emit []) bodies = bs.
Lemma gives_nil : gives [] [].
Proof. exists []. repeat split; constructor. Qed.
Lemma gives_app s1 s2 b1 b2 : gives s1 b1 -> gives s2 b2 -> gives (s1 ++ s2) (b1 ++ b2).
Proof.
  intros (x & -> & W1 & <-) (y & -> & W2 & <-). exists (x ++ y). repeat split.
  - unfold enc. now rewrite flat_map_app.
  - apply Forall_app; auto.
  - now rewrite map_app.
Qed.
Lemma gives_one body : wf body -> gives (Lock :: body ++ [Unlock]) [emit [] body].
Proof. intro W. exists [body]. repeat split; auto. cbn. now rewrite app_nil_r. Qed.

Lemma lor_facility f s : f mod 8 = 0 -> 0 <= f -> Z.lor (number s) f = f + number s.
Proof.
  intros H P. assert (exists k, f = k * 2 ^ 3 /\ 0 <= k) as (k & -> & K).
  { exists (f / 8). split; [|apply Z.div_pos; lia]. pose proof (Z.div_mod f 8). change (2 ^ 3) with 8. lia. }
  rewrite Z.add_comm. assert (L : Z.land (number s) (k * 2 ^ 3) = 0).
  { apply Z.bits_inj'. intros n N. rewrite Z.land_spec, Z.bits_0. destruct (Z.ltb_spec n 3).
    - rewrite (Z.mul_pow2_bits_low k 3 n) by lia. apply andb_false_r.
    - replace (Z.testbit (number s) n) with false; [reflexivity|]. symmetry. apply Z.bits_above_log2; [destruct s; cbn; lia|].
      assert (Z.log2 (number s) < 3) by (destruct s; cbn; lia). lia. }
  rewrite Z.add_nocarry_lxor by exact L. now rewrite Z.lxor_lor.
Qed.

(** The configuration that log_start() leaves. *)
Definition console_on (o : log_options) : bool := o_enabled o && match o_output o with CONSOLE => true | SYSLOG => false end.
Definition syslog_on (o : log_options) : bool := o_enabled o && match o_output o with CONSOLE => false | SYSLOG => true end.
Definition configured (o : log_options) : log_config :=
  {| fprintf_enabled := console_on o; syslog_enabled := syslog_on o; level := o_level o; prefix := o_tag o; color := o_color o; facility := o_facility o |}.
Lemma started o w : config_of (log_start o (log_setup false)) w = configured (options_of o w).
Proof. destruct o as [[[] [] ? ? ? ?] [[] [] ? ? ? ?]], w; reflexivity. Qed.
Lemma closes o : closed (log_start o (log_setup false)) = negb (syslog_on (op_options o) || syslog_on (val_options o)).
Proof. destruct o as [[[] [] ? ? ? ?] [[] [] ? ? ? ?]]; reflexivity. Qed.

Ltac side := split; [unfold inner; cbn; repeat (apply Forall_cons; [split; discriminate|]); apply Forall_nil|split; reflexivity].
Lemma block_eq a b : b_out a = b_out b -> b_err a = b_err b -> b_sys a = b_sys b -> a = b.
Proof. destruct a, b; cbn; congruence. Qed.
Lemma gives_1 steps body b : steps = Lock :: body ++ [Unlock] -> wf body -> emit [] body = b -> gives steps [b].
Proof. intros -> W <-. now apply gives_one. Qed.

Lemma syslog_gives s o file msg : sane o ->
  gives (syslog (number s) (configured o) file msg)
        [{| b_out := []; b_err := []; b_sys := [(o_facility o + number s, record o file msg)] |}].
Proof.
  intros (F & F0). unfold syslog. change (MSG_LEN - 1)%nat with 1023%nat.
  unfold record. generalize (firstn 1023 msg). intro t.
  cbn [facility prefix configured]. rewrite (lor_facility _ s F F0).
  generalize (o_facility o + number s). intro p.
  destruct file as [f|], (o_tag o) as [tg|]; unfold maybe.
  - apply (gives_1 _ [Vsnprintf t; Syslog p (cstr "[" ++ tg ++ cstr "] " ++ f ++ cstr ": ")]); [reflexivity|side|].
    apply block_eq; [reflexivity|reflexivity|]. cbn -[cstr]. rewrite <- !app_assoc. reflexivity.
  - apply (gives_1 _ [Vsnprintf t; Syslog p (f ++ cstr ": ")]); [reflexivity|side|].
    apply block_eq; [reflexivity|reflexivity|]. cbn -[cstr]. rewrite <- !app_assoc. reflexivity.
  - apply (gives_1 _ [Vsnprintf t; Syslog p (cstr "[" ++ tg ++ cstr "] ")]); [reflexivity|side|].
    apply block_eq; [reflexivity|reflexivity|]. cbn -[cstr]. rewrite <- !app_assoc. reflexivity.
  - apply (gives_1 _ [Vsnprintf t; Syslog p []]); [reflexivity|side|].
    apply block_eq; [reflexivity|reflexivity|]. reflexivity.
Qed.

Definition prints (st : stream) (ts : list text) : list step :=
  map (Fprintf st) ts ++ match st with Stdout => [Fflush Stdout] | Stderr => [] end.
Lemma emit_map_out ts r : emit [] (map (Fprintf Stdout) ts ++ r) = add {| b_out := List.concat ts; b_err := []; b_sys := [] |} (emit [] r).
Proof. induction ts as [|t ts IH]; [cbn [map app]; unfold add; now destruct (emit [] r)|]. cbn [map app emit next_msg]. rewrite IH, <- add_assoc. reflexivity. Qed.
Lemma emit_map_err ts r : emit [] (map (Fprintf Stderr) ts ++ r) = add {| b_out := []; b_err := List.concat ts; b_sys := [] |} (emit [] r).
Proof. induction ts as [|t ts IH]; [cbn [map app]; unfold add; now destruct (emit [] r)|]. cbn [map app emit next_msg]. rewrite IH, <- add_assoc. reflexivity. Qed.
Lemma prints_wf st ts : wf (prints st ts).
Proof.
  unfold prints. split; [|split].
  - apply Forall_app. split; [|destruct st; repeat constructor; discriminate].
    apply Forall_forall. intros x H. apply in_map_iff in H as (t & <- & _). split; discriminate.
  - destruct st.
    + assert (forall d, settled d (map (Fprintf Stdout) ts ++ [Fflush Stdout]) = true); auto.
      induction ts as [|t ts IH]; intro d; [reflexivity|]. cbn. apply IH.
    + rewrite app_nil_r. induction ts as [|t ts IH]; [reflexivity|exact IH].
  - induction ts as [|t ts IH]; [now destruct st|]. exact IH.
Qed.
Lemma prints_emit st ts :
  emit [] (prints st ts) = match st with
                           | Stdout => {| b_out := List.concat ts; b_err := []; b_sys := [] |}
                           | Stderr => {| b_out := []; b_err := List.concat ts; b_sys := [] |} end.
Proof. unfold prints. destruct st; [rewrite emit_map_out|rewrite emit_map_err]; cbn; unfold add; cbn; now rewrite !app_nil_r. Qed.

Lemma severity_level s : level2struct (number s) = (cstr (name s), 27 :: cstr (hue s), if serious s then Stderr else Stdout).
Proof. now destruct s. Qed.
Definition parts (s : severity) (o : log_options) (now file : option text) (msg : text) : list text :=
  (if o_color o then [27 :: cstr (hue s)] else [])
  ++ (match now with Some d => [d ++ cstr " "] | None => [] end)
  ++ [cstr (name s)]
  ++ (match o_tag o with Some p => [cstr " [" ++ p ++ cstr "]"] | None => [] end)
  ++ [cstr ": "]
  ++ (match file with Some f => [f ++ cstr ": "] | None => [] end)
  ++ [msg]
  ++ (if o_color o then [COLOR_RESET] else []) ++ [[10]].
Lemma parts_line s o now file msg : List.concat (parts s o now file msg) = line (name s) (hue s) o now file msg.
Proof.
  unfold parts, line, maybe. rewrite !concat_app.
  destruct (o_color o), now, (o_tag o), file; cbn [List.concat]; rewrite ?app_nil_r; try reflexivity.
Qed.
Lemma vfprintf_parts s o now file msg :
  vfprintf (number s) (configured o) now file msg = Lock :: prints (if serious s then Stderr else Stdout) (parts s o now file msg) ++ [Unlock].
Proof.
  unfold vfprintf. rewrite severity_level. unfold prints, parts.
  cbn [prefix color configured].
  destruct (serious s), (o_color o), now, (o_tag o), file; reflexivity.
Qed.
Lemma vfprintf_gives s o now file msg :
  gives (vfprintf (number s) (configured o) now file msg)
        [let l := line (name s) (hue s) o now file msg in
         if serious s then {| b_out := []; b_err := l; b_sys := [] |} else {| b_out := l; b_err := []; b_sys := [] |}].
Proof.
  eapply gives_1; [apply vfprintf_parts|apply prints_wf|]. rewrite prints_emit, parts_line. cbn zeta. now destruct (serious s).
Qed.
Lemma simple_gives s o now file msg : sane o ->
  gives (pr_simple (number s) (configured o) now file msg) (message o s now file msg).
Proof.
  intro Sa. unfold pr_simple, message. cbn [level configured].
  rewrite Z.leb_antisym. destruct (o_level o <? number s); [rewrite andb_false_r; apply gives_nil|].
  rewrite andb_true_r. cbn [negb]. unfold syslog_enabled, fprintf_enabled, configured, console_on, syslog_on. fold (configured o).
  destruct (o_enabled o); [|apply gives_nil]. destruct (o_output o); cbn [andb].
  - rewrite app_nil_r. now apply syslog_gives.
  - apply vfprintf_gives.
Qed.

Lemma trace_gives o trace : sane o ->
  gives ([Lock] ++ print_stack_trace (configured o) trace ++ [Unlock]) [stack_trace o trace].
Proof.
  intros (F & F0). unfold print_stack_trace, stack_trace. destruct trace as [strings|].
  2:{ apply (gives_1 _ []); [reflexivity|side|reflexivity]. }
  unfold syslog_enabled, fprintf_enabled, configured, console_on, syslog_on. cbn [facility].
  destruct (o_enabled o); [|apply (gives_1 _ []); [reflexivity|side|reflexivity]].
  destruct (o_output o); cbn [andb app].
  - change LOG_ERR with (number S_err). rewrite (lor_facility _ S_err F F0). change (number S_err) with 3.
    set (p := o_facility o + 3).
    apply (gives_1 _ (map (SyslogText p) (trace_lines strings))).
    + unfold trace_lines. rewrite !map_app, map_map. cbn [map app]. now rewrite <- !app_assoc.
    + generalize (trace_lines strings). intro ls. split; [|split].
      * apply Forall_forall. intros x H. apply in_map_iff in H as (t & <- & _). split; discriminate.
      * induction ls; auto.
      * induction ls; auto.
    + generalize (trace_lines strings). intro ls. induction ls as [|l ls IH]; [reflexivity|].
      cbn [map emit next_msg]. rewrite IH. reflexivity.
  - rewrite app_nil_r. apply (gives_1 _ (prints Stderr (map (fun l => l ++ [10]) (trace_lines strings)))).
    + unfold prints, trace_lines. rewrite app_nil_r, !map_app, !map_map. cbn [map app]. rewrite <- !app_assoc. cbn [app].
      reflexivity.
    + apply prints_wf.
    + now rewrite prints_emit.
Qed.
Lemma memory_gives o : sane o -> gives (enomem_panic (configured o)) (exhausted o).
Proof.
  intros (F & F0). unfold enomem_panic, exhausted. cbn [level configured]. change LOG_ERR with (number S_err).
  rewrite Z.leb_antisym. change 3 with (number S_err). destruct (o_level o <? number S_err); [rewrite andb_false_r; apply gives_nil|].
  rewrite andb_true_r. cbn [negb]. unfold syslog_enabled, fprintf_enabled, facility, configured, console_on, syslog_on.
  rewrite (lor_facility _ S_err F F0).
  destruct (o_enabled o); [|apply gives_nil]. destruct (o_output o); cbn [andb app].
  - eapply (gives_1 _ [SyslogText _ _]); [reflexivity|side|reflexivity].
  - eapply (gives_1 _ [Write _]); [reflexivity|side|]. apply block_eq; cbn; reflexivity.
Qed.
Lemma flat_map_combine_S {B} (f : nat * text -> list B) k msgs :
  flat_map f (combine (seq (S k) (List.length msgs)) msgs)
  = flat_map (fun m => f (S (fst m), snd m)) (combine (seq k (List.length msgs)) msgs).
Proof. revert k. induction msgs as [|m msgs IH]; intro k; [reflexivity|]. cbn. now rewrite IH. Qed.
Lemma lines_give o when file stack : sane o -> forall k,
  gives (crypto_lines (configured o) when file k stack)
        (flat_map (fun m => message o S_err (when (fst m)) file (snd m))
           (combine (seq k (List.length (map (fun s => cstr "-> " ++ s) stack ++ [cstr "End of libcrypto stack."])))
                    (map (fun s => cstr "-> " ++ s) stack ++ [cstr "End of libcrypto stack."]))).
Proof.
  intro Sa. induction stack as [|s stack IH]; intro k.
  - cbn [map app List.length seq combine flat_map crypto_lines fst snd]. rewrite app_nil_r. now apply (simple_gives S_err).
  - cbn [map app List.length seq combine flat_map crypto_lines fst snd]. apply gives_app; [now apply (simple_gives S_err)|apply IH].
Qed.
Lemma crypto_gives o when file msg stack : sane o ->
  gives (pr_simple LOG_ERR (configured o) (when 0%nat) file msg ++ crypto_err (configured o) when file stack)
        (flat_map (fun m => message o S_err (when (fst m)) file (snd m)) (numbered (msg :: libcrypto_stack stack))).
Proof.
  intro Sa. unfold numbered, libcrypto_stack, crypto_err. cbn [app List.length seq combine flat_map fst snd].
  apply gives_app; [now apply (simple_gives S_err)|].
  apply gives_app; [now apply (simple_gives S_err)|].
  destruct stack as [|s stack].
  - cbn [List.length seq combine flat_map fst snd]. rewrite app_nil_r. now apply (simple_gives S_err).
  - now apply lines_give.
Qed.

Lemma entry_gives o e : sane (op_options o) -> sane (val_options o) -> not_critical e ->
  gives (steps_of (log_start o (log_setup false)) (e_when e) (e_file e) (e_call e)) (expected o e).
Proof.
  intros So Sv Nc. assert (Sw : forall w, sane (options_of o w)) by (intros []; auto).
  pose proof (started o) as St.
  assert (Eo : op_config (log_start o (log_setup false)) = configured (op_options o)) by apply (St Op).
  assert (Ev : val_config (log_start o (log_setup false)) = configured (val_options o)) by apply (St Val).
  unfold steps_of, expected. rewrite Eo, Ev. destruct (e_call e) as [w m|w m|w m|w m|m tr|w m st|[] m| |m tr] eqn:Ec; rewrite ?St.
  - now apply (simple_gives S_dbg).
  - now apply (simple_gives S_inf).
  - now apply (simple_gives S_wrn).
  - now apply (simple_gives S_err).
  - apply gives_app; [now apply (simple_gives S_err)|now apply trace_gives].
  - now apply crypto_gives.
  - apply gives_nil.
  - now apply (simple_gives S_wrn).
  - now apply (simple_gives S_err).
  - now apply memory_gives.
  - now destruct (Nc m tr).
Qed.
Lemma entries_give o es : sane (op_options o) -> sane (val_options o) -> Forall not_critical es ->
  gives (flat_map (fun e => steps_of (log_start o (log_setup false)) (e_when e) (e_file e) (e_call e)) es) (flat_map (expected o) es).
Proof.
  intros So Sv. induction 1 as [|e es H Hs IH]; [apply gives_nil|].
  cbn [flat_map]. apply gives_app; [now apply entry_gives|exact IH].
Qed.

Lemma choice_list {A B} (P : A -> B -> Prop) (d : B) l : Forall (fun a => exists b, P a b) l ->
  exists g : nat -> B, forall i a, nth_error l i = Some a -> P a (g i).
Proof.
  induction 1 as [|a l (b & H) Hs (g & IH)].
  - exists (fun _ => d). now intros [|i] a.
  - exists (fun i => match i with O => b | S i => g i end). intros [|i] x E; cbn in E; [now injection E as <-|auto].
Qed.
Lemma start_idle o garbage program : sane (op_options o) -> sane (val_options o) -> Forall (Forall not_critical) program ->
  Idle (blocks o program) (start o garbage program) [].
Proof.
  intros So Sv Nc. split; [reflexivity|].
  destruct (choice_list (fun es bodies => flat_map (fun e => steps_of (log_start o (log_setup false)) (e_when e) (e_file e) (e_call e)) es = enc bodies
             /\ Forall wf bodies /\ map (emit []) bodies = flat_map (expected o) es) [] program) as (g & Hg).
  { eapply Forall_impl; [|exact Nc]. intros es H. exact (entries_give o es So Sv H). }
  exists (fun i => match nth_error program i with Some _ => g i | None => [] end).
  cbn [stdout_buffer threads out err sys start process].
  split; [|split; [|split; [|split; [|repeat split]]]].
  - intro i. destruct (nth_error program i) eqn:E; [now apply Hg in E as (_ & W & _)|constructor].
  - reflexivity.
  - intro i. destruct (nth_error program i) eqn:E.
    + apply nth_error_nth. rewrite nth_error_map, E. cbn. f_equal. now apply Hg in E as (W & _).
    + apply nth_error_None in E. now rewrite nth_overflow by (rewrite map_length; lia).
  - intro i. unfold blocks. cbn. destruct (nth_error program i) eqn:E.
    + rewrite (nth_error_nth _ _ _ E). now apply Hg in E as (_ & _ & ->).
    + apply nth_error_None in E. now rewrite nth_overflow by lia.
Qed.
