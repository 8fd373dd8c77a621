(** * C87: the process: its exit status, its modules, its server *)
From Verif Require Import Base BaseLemmas Types DArray DbTable Vrps VrpsSpec VrpsProofs2 VrpsProps Main MainSpec MainProofs.
Notation length := List.length.

(** ** The exit status is one a shell understands, 0 if and only if there was no error, and the errno (whatever its sign) if it is one of those. *)
Theorem C87_exit_status : forall e, is_int e ->
  0 <= convert_to_result e <= 125 /\ (convert_to_result e = 0 <-> e = 0) /\ (1 <= Z.abs e <= 125 -> convert_to_result e = Z.abs e).
Proof.
  intros e H. unfold is_int in H. unfold convert_to_result, INT_MIN. destruct (Z.eqb_spec e 0) as [->|N]; [lia|]. destruct (Z.eqb_spec e (-2147483648)) as [->|N2]; [lia|].
  cbv zeta. replace (if e <? 0 then - e else e) with (Z.abs e) by (destruct (Z.ltb_spec e 0); lia). change 127 with (Z.ones 7). rewrite Z.land_ones by lia. change (2 ^ 7) with 128. change (Z.ones 7) with 127.
  pose proof (Z.mod_pos_bound (Z.abs e) 128 ltac:(lia)) as B. assert (1 <= Z.abs e <= 125 -> Z.abs e mod 128 = Z.abs e) as M by (intros; apply Z.mod_small; lia).
  destruct (Z.eqb_spec (Z.abs e mod 128) 126); [lia|]. destruct (Z.eqb_spec (Z.abs e mod 128) 127); [lia|]. destruct (Z.eqb_spec (Z.abs e mod 128) 0); lia.
Qed.
Print Assumptions C87_exit_status.
Example C87_example_exit : convert_to_result (-22) = 22 /\ convert_to_result 256 = 124 /\ convert_to_result (-2147483648) = 125.
Proof. repeat split. Qed.

(** Some facts about the work. *)
Lemma loop_events lifetime : forall cs s p, main_loop lifetime s cs = Ok p ->
  initialised (p_events p) = [] /\ cleaned_up (p_events p) = [] /\ (forall b, rtr_runs b (p_events p) = match p_returned p with Some _ => false | None => b end) /\
  match p_returned p with Some e => e = - EINTR | None => True end.
Proof.
  induction cs as [|c cs IH]; intros s p H; cbn [main_loop] in H.
  { injection H as <-. cbn. auto. }
  destruct (vrps_update lifetime s c) as [o|e|] eqn:U; cbn [bind] in H; [|discriminate|discriminate]. cbv zeta in H. destruct (Z.eqb_spec (result_of o) (- EINTR)) as [E|N].
  { injection H as <-. cbn. auto. }
  destruct (main_loop lifetime (u_state o) cs) as [q|e|] eqn:M; cbn [bind] in H; [|discriminate|discriminate]. injection H as <-. destruct (IH _ _ M) as (A & B & C & D). cbn [p_events p_returned].
  destruct (result_of o =? 0), (u_changed o); cbn; auto.
Qed.
Lemma server_events lifetime s start c cs p : fort_server lifetime s start c cs = Ok p ->
  initialised (p_events p) = [] /\ cleaned_up (p_events p) = [] /\
  (p_returned p = None \/ (exists e, p_returned p = Some e /\ e <> 0 /\
     (rtr_runs false (p_events p) = false \/ (start = 0 /\ exists o, vrps_update lifetime s c = Ok o /\ result_of o = e)))).
Proof.
  unfold fort_server. destruct (Z.eqb_spec start 0) as [->|N]; cbn [negb].
  2:{ intros E. injection E as <-. cbn. split; [reflexivity|]. split; [reflexivity|]. right. exists start. auto. }
  destruct (vrps_update lifetime s c) as [o|e|] eqn:U; cbn [bind]; [|discriminate|discriminate]. cbv zeta. destruct (Z.eqb_spec (result_of o) 0) as [E|N]; cbn [negb].
  2:{ intros H. injection H as <-. cbn. split; [reflexivity|]. split; [reflexivity|]. right. exists (result_of o). split; [reflexivity|]. split; [exact N|]. right. split; [reflexivity|]. exists o. auto. }
  destruct (main_loop lifetime (u_state o) cs) as [q|e|] eqn:M; cbn [bind]; [|discriminate|discriminate]. intros H. injection H as <-. destruct (loop_events _ _ _ _ M) as (A & B & C & D). cbn [p_events p_returned].
  split; [exact A|]. split; [exact B|]. destruct (p_returned q) as [e|]; [right|left; reflexivity]. exists e. subst e. split; [reflexivity|]. split; [discriminate|]. left. cbn. apply C.
Qed.
Lemma standalone_result lifetime now c : exists o, vrps_update lifetime (vrps_init lifetime now) c = Ok o /\ result_of o = code c.
Proof. destruct c; eexists; (split; [reflexivity|]); reflexivity. Qed.

(** ** The exit status is 0 if and only if all the modules started, and the only validation of a standalone run succeeded, or the file was printed.  (A server only ends because of an error.) *)
Definition proper (w : world) : Prop :=
  (forall m, is_int (w_init w m)) /\ is_int (w_print w) /\ is_int (w_rtr w) /\
  Forall (fun c => match c with SlurmFailed e => is_int (errno_of e) /\ errno_of e <> 0 | _ => True end) (w_first w :: w_cycles w).
Lemma exit_zero e : is_int e -> (convert_to_result e = 0 <-> e = 0).
Proof. intros H. apply (C87_exit_status e H). Qed.
Lemma code_int lifetime s c o : vrps_update lifetime s c = Ok o -> match c with SlurmFailed e => is_int (errno_of e) | _ => True end -> is_int (result_of o).
Proof.
  intros H K. destruct c as [|e|t]; cbn in H; [injection H as <-; cbn; unfold is_int; lia|injection H as <-; exact K|].
  unfold result_of. destruct (s_base s); [|injection H as <-; cbn; unfold is_int; lia]. destruct (compute_deltas d t); [|injection H as <-; cbn; unfold is_int; lia].
  destruct (darray_add lifetime (s_deltas s) d0); [injection H as <-; cbn; unfold is_int; lia|discriminate|discriminate].
Qed.
Theorem C87_success : forall w status es, proper w -> main w = Ok (Some status, es) ->
  (status = 0 <-> (forall m, w_init w m = 0) /\
                  match w_mode w with STANDALONE => exists t, w_first w = Validated t | PRINT_FILE => w_print w = 0 | SERVER => False end).
Proof.
  intros w status es (PI & PP & PR & PC) H. inversion PC as [|? ? PF _]; subst. unfold main in H. cbv zeta in H.
  assert (X: forall m, w_init w m <> 0 -> ended (w_init w m) = ended (w_init w m) -> convert_to_result (w_init w m) <> 0) by (intros m N _ K; apply (exit_zero _ (PI m)) in K; contradiction).
  repeat match type of H with (if negb (w_init w ?m =? 0) then _ else _) = _ =>
    destruct (Z.eqb_spec (w_init w m) 0); cbn [negb] in H;
    [|injection H as <- <-; split; [intros K; exfalso; apply (X m); auto|intros (K & _); exfalso; auto]] end.
  assert (ALL: forall m, w_init w m = 0) by (intros []; assumption).
  destruct (work w) as [p|er|] eqn:W; cbn [bind] in H; [|discriminate|discriminate]. destruct (p_returned p) as [err|] eqn:R; [|discriminate]. injection H as <- <-.
  unfold work in W. destruct (w_mode w).
  - unfold fort_standalone in W. destruct (standalone_result (w_lifetime w) (w_now w) (w_first w)) as (o & U & C). rewrite U in W. cbn [bind] in W. injection W as <-. cbn in R. injection R as <-. rewrite C.
    destruct (w_first w) as [|er|t]; cbn [code].
    + split; [discriminate|intros (_ & t & K); discriminate].
    + destruct PF as (I & N). rewrite (exit_zero _ I). split; [contradiction|intros (_ & t & K); discriminate].
    + cbn. split; [intros _; split; [exact ALL|exists t; reflexivity]|reflexivity].
  - split; [|tauto]. intros K. destruct (server_events _ _ _ _ _ _ W) as (_ & _ & [S|(er & S & N & Q)]); [congruence|]. rewrite R in S. injection S as <-. exfalso. apply N. apply exit_zero; [|exact K].
    unfold fort_server in W. destruct (Z.eqb_spec (w_rtr w) 0) as [E0|E0]; cbn [negb] in W; [|injection W as <-; cbn in R; injection R as <-; exact PR].
    destruct (vrps_update (w_lifetime w) (vrps_init (w_lifetime w) (w_now w)) (w_first w)) as [o|x|] eqn:U; cbn [bind] in W; [|discriminate|discriminate]. cbv zeta in W.
    destruct (Z.eqb_spec (result_of o) 0) as [E|E]; cbn [negb] in W.
    + destruct (main_loop (w_lifetime w) (u_state o) (w_cycles w)) as [q|x|] eqn:M; cbn [bind] in W; [|discriminate|discriminate]. injection W as <-. cbn in R. destruct (loop_events _ _ _ _ M) as (_ & _ & _ & D). rewrite R in D. subst err. unfold is_int. cbn. lia.
    + injection W as <-. cbn in R. injection R as <-. eapply code_int; [exact U|]. destruct (w_first w); [exact I|exact (proj1 PF)|exact I].
  - injection W as <-. cbn in R. injection R as <-. rewrite (exit_zero _ PP). split; [intros ->; auto|tauto].
Qed.
Print Assumptions C87_success.

(** ** The modules are initialised in order, up to the first that fails; and when the process ends, those that had something to clean up have been, once, in the opposite order, after everything else. *)
Theorem C87_modules : forall w status es, main w = Ok (status, es) ->
  (exists rest, all_modules = initialised es ++ rest) /\ (forall m, In m (initialised es) -> w_init w m = 0) /\
  match status with
  | Some _ => (exists work, es = work ++ map CleanedUp (cleaned_up es) /\ cleaned_up work = []) /\ cleaned_up es = rev (filter holds_something (initialised es))
  | None => cleaned_up es = [] /\ initialised es = all_modules /\ w_mode w = SERVER
  end.
Proof.
  intros w status es H. unfold main in H. cbv zeta in H.
  repeat match type of H with (if negb (w_init w ?m =? 0) then _ else _) = _ =>
    destruct (Z.eqb_spec (w_init w m) 0); cbn [negb] in H;
    [|injection H as <- <-; cbn; split; [eexists; reflexivity|]; split; [intros []; intuition congruence|]; split; [|reflexivity];
      match goal with |- exists work, ?l = work ++ ?r /\ _ => exists (firstn (length l - length r) l); split; reflexivity end] end.
  assert (ALL: forall m, w_init w m = 0) by (intros []; assumption).
  destruct (work w) as [p|er|] eqn:W; cbn [bind] in H; [|discriminate|discriminate].
  assert (E: initialised (p_events p) = [] /\ cleaned_up (p_events p) = [] /\ (p_returned p = None -> w_mode w = SERVER)).
  { unfold work in W. destruct (w_mode w).
    - unfold fort_standalone in W. destruct (vrps_update _ _ _); cbn [bind] in W; [|discriminate|discriminate]. injection W as <-. cbn. repeat split. discriminate.
    - destruct (server_events _ _ _ _ _ _ W) as (A & B & _). auto.
    - injection W as <-. cbn. repeat split. discriminate. }
  destruct E as (E1 & E2 & E3). unfold initialised in E1. unfold cleaned_up in E2.
  destruct (p_returned p) as [err|]; injection H as <- <-.
  - unfold initialised, cleaned_up. cbn [app flat_map]. rewrite !flat_map_app, E1, E2. cbn. split; [exists []; reflexivity|]. split; [intros m _; apply ALL|]. split; [|reflexivity].
    match goal with |- exists work, ?l = _ /\ _ => match l with context [p_events p ++ ?r] => exists ([Initialised MLog; Initialised MThreadVars; Initialised MIncidences; Initialised MConfig; Initialised MNids; Initialised MExtensions; Initialised MHttp; Initialised MRelaxNg; Initialised MVrps] ++ p_events p) end end.
    split; [reflexivity|]. cbn. exact E2.
  - unfold initialised, cleaned_up. cbn [app flat_map]. rewrite E1, E2. split; [exists []; reflexivity|]. split; [intros m _; apply ALL|]. auto.
Qed.
Print Assumptions C87_modules.

(** ** Once the first validation has succeeded, the server goes on, whatever validations fail; it always serves the data of the last that succeeded;
    and the routers are notified once for each time the data changed, with its serial. *)
Theorem C87_server : forall w t, (forall m, w_init w m = 0) -> w_mode w = SERVER -> w_rtr w = 0 -> 1 <= w_lifetime w < 2147483648 ->
  w_first w = Validated t -> Forall cycle_ok (w_first w :: w_cycles w) -> Forall uninterrupted (w_cycles w) ->
  exists es s h, main w = Ok (None, es) /\ (exists evs, work w = Ok {| p_state := s; p_events := evs; p_returned := None |}) /\
    publishes [] (w_first w :: w_cycles w) h /\ s_base s = nth_error h (length h - 1) /\
    notified es = map (fun i => Ok (Z.of_nat (S i) mod 4294967296)) (seq 0 (length h)) /\
    length (results es) = S (length (w_cycles w)) /\ rtr_runs false es = true.
Proof.
  intros w t AI Mo Rt L Hf F U. inversion F as [|? ? Ff F']; subst.
  destruct (one_cycle (w_lifetime w) (w_now w) [] (w_first w) (vrps_init (w_lifetime w) (w_now w)) [] L (Forall_nil _) Ff eq_refl (pub_end [])) as (o & h1 & Ho & R1 & P1 & S1 & B1 & K).
  rewrite Hf in *. destruct K as [(_ & _ & _ & p & K)|(t' & Et & K1 & K2 & ->)]; [discriminate K|]. injection Et as <-. cbn [app] in *.
  destruct (main_loop_spec (w_lifetime w) (w_now w) L (w_cycles w) [Validated t] (u_state o) [t]) as (p & h & more & M & Rp & Ph & Eh & Rn & N & Rs & I1 & I2 & I3); [apply Forall_cons; [exact Ff|apply Forall_nil]|exact F'|exact U|exact R1|exact P1|].
  cbn [app] in Ph, Rn, Eh.
  assert (W: work w = Ok {| p_state := p_state p; p_events := RtrStarted :: Updated 0 :: Notified (get_last_serial_number (u_state o)) :: p_events p; p_returned := None |}).
  { unfold work. rewrite Mo. unfold fort_server. rewrite Rt, Hf, Ho. cbn [bind negb Z.eqb]. cbv zeta. unfold result_of. rewrite K2. cbn [Z.eqb negb]. rewrite M. cbn [bind]. rewrite Rp. reflexivity. }
  assert (NE: [t] <> []) by discriminate. rewrite (last_serial _ _ S1 B1 NE) in W.
  destruct (C05_incremental_updates_converge (w_lifetime w) (w_now w) (Validated t :: w_cycles w) L F) as (s2 & h2 & R3 & P3 & _ & B3 & _). rewrite Rn in R3. injection R3 as <-. pose proof (C05_history_unique _ _ _ Ph P3) as <-.
  eexists. exists (p_state p), h. split; [unfold main; cbv zeta; rewrite !AI; cbn [Z.eqb negb]; rewrite W; reflexivity|]. split; [eexists; exact W|]. split; [exact Ph|]. split; [exact B3|].
  cbn [app notified flat_map results rtr_runs p_events]. fold (notified (p_events p)). fold (results (p_events p)). rewrite N, Rs, Eh. split; [reflexivity|]. split; [cbn; rewrite map_length; reflexivity|exact I3].
Qed.
Print Assumptions C87_server.
Definition example_world (first : cycle) : world :=
  {| w_init := fun _ => 0; w_mode := SERVER; w_lifetime := 2; w_now := 1000; w_rtr := 0; w_first := first;
     w_cycles := [ValidationFailed; Validated ex_t2; Validated ex_t2; SlurmFailed EINVAL; Validated ex_t3]; w_print := 0 |}.
Example C87_example_server : let w := example_world (Validated ex_t1) in
  Forall cycle_ok (w_first w :: w_cycles w) /\ Forall uninterrupted (w_cycles w) /\
  exists es, main w = Ok (None, es) /\ notified es = [Ok 1; Ok 2; Ok 3] /\ results es = [0; 22; 0; 0; 22; 0].
Proof.
  cbn [w_first w_cycles example_world]. split.
  - destruct ex_ok as (H1 & H2 & H3). repeat (apply Forall_cons; [cbn; auto|]). apply Forall_nil.
  - split; [repeat (apply Forall_cons; [cbn; try split; discriminate || exact I|]); apply Forall_nil|]. eexists. split; [vm_compute; reflexivity|]. split; reflexivity.
Qed.

(** ** The RTR server's threads have been stopped when the database they read is destroyed, except: *)
Theorem C87_threads_partial : forall w status es, main w = Ok (Some status, es) ->
  (w_mode w = SERVER -> w_rtr w = 0 -> exists t, w_first w = Validated t) -> rtr_runs false es = false.
Proof.
  intros w status es H F. unfold main in H. cbv zeta in H.
  repeat match type of H with (if negb (w_init w ?m =? 0) then _ else _) = _ =>
    destruct (Z.eqb_spec (w_init w m) 0); cbn [negb] in H; [|injection H as <- <-; reflexivity] end.
  destruct (work w) as [p|er|] eqn:W; cbn [bind] in H; [|discriminate|discriminate]. destruct (p_returned p) as [err|] eqn:R; [|discriminate]. injection H as <- <-.
  assert (A: forall l l' b, rtr_runs b (l ++ l') = rtr_runs (rtr_runs b l) l') by (induction l as [|ev l IH]; intros l' b; [reflexivity|]; cbn [app rtr_runs]; destruct ev; apply IH).
  assert (K: rtr_runs false (p_events p) = false).
  { unfold work in W. destruct (w_mode w) eqn:Mo.
    - unfold fort_standalone in W. destruct (vrps_update _ _ _); cbn [bind] in W; [|discriminate|discriminate]. injection W as <-. reflexivity.
    - destruct (server_events _ _ _ _ _ _ W) as (_ & _ & [S|(er & _ & N & [Q|(Q & o & U & Z)])]); [congruence|exact Q|]. exfalso. destruct (F eq_refl Q) as (t & Ht). rewrite Ht in U. cbn in U. injection U as <-. apply N. rewrite <- Z. reflexivity.
    - injection W as <-. reflexivity. }
  cbn [app rtr_runs]. rewrite A, K. reflexivity.
Qed.
Print Assumptions C87_threads_partial.
(** when the first validation fails: main() destroys the database (and its lock) while the server's threads go on. *)
Theorem C87_threads_refuted : exists w es before after, main w = Ok (Some 22, es) /\ es = before ++ CleanedUp MVrps :: after /\ rtr_runs false before = true.
Proof.
  exists (example_world ValidationFailed). eexists.
  exists (map Initialised all_modules ++ [RtrStarted; Updated 22]), (map CleanedUp [MRelaxNg; MHttp; MNids; MConfig; MLog]). split; [vm_compute; reflexivity|]. split; reflexivity.
Qed.
Print Assumptions C87_threads_refuted.
