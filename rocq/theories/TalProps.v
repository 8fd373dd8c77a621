(** C43, C44, C58: Trust Anchor Locators. *)
From Coq Require Import String.
From Verif Require Import Base BaseLemmas CString CLib PathBuilder PathProofs PathProofs3 PathProps Types HashSet DbTable VrpsProofs Tal TalSpec TalProofs.
Notation length := List.length.

(** * C58: which files are TALs *)

(** A TAL file is read iff it's made of comments, URIs (one at least), an empty line,
    and the rest; the URIs are exactly those of the file, in order, each of them
    rsync or https. *)
Theorem C58_grammar J repository tal f us body :
  read_uris J repository tal f = Ok (us, body) <->
  exists comments texts, tal_text comments texts body f /\
    Forall2 (fun text u =>
      ((exists t, text = cstr "rsync://" ++ t) /\ uri_create J repository (Some tal) UT_RSYNC None text = Ok u) \/
      ((exists t, text = cstr "https://" ++ t) /\ uri_create J repository (Some tal) UT_HTTPS None text = Ok u)) texts us.
Proof.
  rewrite read_uris_iff.
  assert (A : forall text u, add_uri J repository tal text = Ok u <->
    ((exists t, text = cstr "rsync://" ++ t) /\ uri_create J repository (Some tal) UT_RSYNC None text = Ok u) \/
    ((exists t, text = cstr "https://" ++ t) /\ uri_create J repository (Some tal) UT_HTTPS None text = Ok u)).
  { intros text u. unfold add_uri. destruct (str_starts_with text (cstr "rsync://")) eqn:E1.
    - pose proof E1 as E1'. apply starts_iff in E1. split; [intros H; left; auto|]. intros [[_ H]|[(t&H) _]]; [exact H|].
      destruct E1 as (t'&->). discriminate.
    - assert (N1 : ~ exists t, text = cstr "rsync://" ++ t) by (intros K; apply starts_iff in K; congruence).
      destruct (str_starts_with text (cstr "https://")) eqn:E2.
      + apply starts_iff in E2. split; [intros H; right; auto|]. intros [[K _]|[_ H]]; [contradiction|exact H].
      + assert (N2 : ~ exists t, text = cstr "https://" ++ t) by (intros K; apply starts_iff in K; congruence).
        split; [discriminate|]. intros [[K _]|[K _]]; contradiction. }
  split; intros (c&t&T&F); exists c, t; split; auto; clear T; induction F; constructor; auto; apply A; auto.
Qed.
(** No file breaks the reader. *)
Theorem C58_total J repository tal f : conf_ok repository (Some tal) None -> read_uris J repository tal f <> UB.
Proof.
  intros HC.
  assert (A : forall t, add_uri J repository tal t <> UB).
  { intros t. unfold add_uri. destruct (str_starts_with t _).
    - destruct (C27_total J repository (Some tal) UT_RSYNC None t HC ltac:(discriminate)) as [(u&->)|(e&->)]; discriminate.
    - destruct (str_starts_with t _); [|discriminate].
      destruct (C27_total J repository (Some tal) UT_HTTPS None t HC ltac:(discriminate)) as [(u&->)|(e&->)]; discriminate. }
  assert (R : forall g, lfile_read g <> UB).
  { intros g. unfold lfile_read. destruct g; [discriminate|]. destruct (getline (z :: g)) as [s r]. destruct (has_char 0 s); discriminate. }
  assert (U : forall fuel t g, (length g < fuel)%nat -> uri_loop J repository tal fuel t g <> UB).
  { induction fuel as [|fuel IH]; intros t g L; [lia|]. cbn [uri_loop]. specialize (A t). destruct (add_uri J repository tal t); cbn [bind]; try congruence.
    specialize (R g). destruct (lfile_read g) as [[[[|c s]|] g']| |] eqn:E; cbn [bind]; try congruence.
    apply reads_short in E. specialize (IH (c :: s) g' ltac:(lia)). destruct (uri_loop J repository tal fuel (c :: s) g') as [[]| |]; cbn [bind]; congruence. }
  assert (C : forall fuel g, (length g < fuel)%nat -> comment_loop fuel g <> UB /\ forall u g', comment_loop fuel g = Ok (u, g') -> (length g' < fuel)%nat).
  { induction fuel as [|fuel IH]; intros g L; [lia|]. cbn [comment_loop]. specialize (R g).
    destruct (lfile_read g) as [[[[|c s]|] g']| |] eqn:E; cbn [bind]; try (split; [congruence|intros; congruence]).
    apply reads_short in E. destruct (c =? 35).
    - destruct (IH g' ltac:(lia)) as [I1 I2]. split; auto. intros u g2 K. apply I2 in K. lia.
    - split; [discriminate|]. intros u g2 K. injection K as <- <-. lia. }
  unfold read_uris. specialize (R f). destruct (lfile_read f) as [[[[|c s]|] g]| |] eqn:E; cbn [bind]; try congruence.
  apply reads_short in E. destruct (c =? 35); cbn [bind]; [|apply U; lia].
  destruct (C (S (length f)) g ltac:(lia)) as [C1 C2]. destruct (comment_loop (S (length f)) g) as [[u g']| |]; cbn [bind]; try congruence.
  apply U. eapply C2. reflexivity.
Qed.

Definition ex_lf (s : string) : list Z := cstr s ++ [10].
Definition ex_file : list Z := ex_lf "# A comment" ++ ex_lf "https://a.b/c.cer" ++ cstr "rsync://a.b/m/c.cer" ++ [13; 10] ++ ex_lf "" ++ ex_lf "MIIB" ++ ex_lf "IjAN".
Example C58_nonvacuous :
  match read_uris 7 ex_repo (cstr "x.tal") ex_file with Ok (us, body) => (map u_global us, body) | _ => ([], []) end
    = ([cstr "https://a.b/c.cer"; cstr "rsync://a.b/m/c.cer"], ex_lf "MIIB" ++ ex_lf "IjAN") /\
  read_uris 7 ex_repo (cstr "x.tal") (ex_lf "ftp://a.b/c.cer" ++ ex_lf "" ++ ex_lf "MIIB") = Err EINVAL /\
  read_uris 7 ex_repo (cstr "x.tal") (ex_lf "# only" ++ ex_lf "") = Err EINVAL.
Proof. vm_compute. auto. Qed.
Example C58_conf : conf_ok ex_repo (Some (cstr "x.tal")) None.
Proof. repeat split; cbn; intuition discriminate. Qed.

(** * C43: the key's text *)

(** Whatever follows the empty line, and whatever its announced size: the text is
    reformatted without touching anything outside of its memory; the result is a C
    string that has the same characters, except for line breaks, and whose lines are
    at most 65 characters long. *)
Theorem C43_reflow J size f : exists out, base64_sanitize J size f = Ok (out ++ [0]) /\
  no_newlines out = no_newlines (firstn size f) /\
  (forall a line b, out = a ++ line ++ b -> ~ In 10 line -> (length line <= 65)%nat).
Proof.
  unfold base64_sanitize. set (new_size := (size + size / BUF_SIZE)%nat).
  destruct (sanitize_loop_ok (S (length f)) size f [] (repeat J (new_size + 1))) as (w&tail&E&L&NN&HL); [lia|cbn; lia|exact I| |].
  { rewrite repeat_length. assert (M : (Nat.min size (length f) <= size)%nat) by lia.
    assert (C : (ceil65 (Nat.min size (length f)) <= size / BUF_SIZE + 1)%nat).
    { unfold ceil65, BUF_SIZE. rewrite <- (Nat.div_add size 1 65) by lia. apply Nat.div_le_mono; lia. }
    unfold new_size. lia. }
  cbn [app length] in E. rewrite E. cbn [bind app]. rewrite repeat_length in L.
  assert (R : forall a line b, w = a ++ line ++ b -> ~ In 10 line -> (length line <= 65)%nat).
  { intros a line b EW N. cbn [app] in HL. rewrite EW in HL. eapply lines_ok_infix; eauto. }
  exists w. split; [|auto].
  destruct (Nat.eqb_spec (length w) new_size) as [EQ|NE]; cbn [negb].
  - assert (T : exists x, tail = [x]) by (destruct tail as [|x [|]]; cbn [length] in L; [lia|eauto|lia]). destruct T as (x&->).
    rewrite store_at by (cbn; lia). cbn [length skipn]. rewrite app_nil_r. reflexivity.
  - assert (RZ : exists x, resize J (w ++ tail) (length w + 1) = w ++ [x]).
    { unfold resize. rewrite firstn_app. rewrite firstn_all2 by lia. replace (length w + 1 - length w)%nat with 1%nat by lia. rewrite app_length.
      destruct tail as [|x tail].
      - cbn [firstn]. rewrite app_nil_r. replace (length w + 1 - (length w + length (@nil Z)))%nat with 1%nat by (cbn; lia). exists J. reflexivity.
      - cbn [firstn]. replace (length w + 1 - (length w + length (x :: tail)))%nat with 0%nat by (cbn; lia). exists x. rewrite app_nil_r. reflexivity. }
    destruct RZ as (x&->). rewrite store_at by (cbn; lia). cbn [length skipn]. rewrite app_nil_r. reflexivity.
Qed.
Example C43_nonvacuous :
  base64_sanitize 7 131 (repeat 65 64 ++ repeat 66 67) = Ok (repeat 65 64 ++ [10] ++ repeat 66 65 ++ [10] ++ [66; 10; 66; 0]) /\
  base64_sanitize 7 6 [65; 10; 66; 67; 10; 68] = Ok [65; 10; 66; 67; 10; 68; 10; 0].
Proof. split; reflexivity. Qed.

(** * C44: all the TALs *)
Section C44.
  Variable realpath : list Z -> bool.
  Variable run : list Z -> thread.
  Notation perform := (perform_standalone_validation realpath run).

  Definition talb (e : list Z) : bool := match strrchr 46 e with Some x => list_eqb Z.eqb x (cstr ".tal") | None => false end.
  Lemma talb_iff e : talb e = true <-> tal_name e.
  Proof.
    rewrite <- tal_ext_iff. unfold talb. destruct (strrchr 46 e) as [x|].
    - split; [intros H; exists x; auto|]. intros (y&H&K). injection H as <-. exact K.
    - split; [discriminate|]. intros (y&H&_). discriminate.
  Qed.

  Lemma dir_ok entries : forall rd found threads, (forall e, In e entries -> tal_name e -> realpath e = true /\ run e <> NoThread) ->
    process_dir_files realpath run entries rd found threads =
      (rd && (found || existsb talb entries), map (fun e => Some (run e)) (rev (filter talb entries)) ++ threads).
  Proof.
    induction entries as [|e entries IH]; intros rd found threads H; cbn [process_dir_files existsb filter rev map app].
    - rewrite orb_false_r. reflexivity.
    - unfold process_file. pose proof (talb_iff e) as T. unfold talb at 1 2 3. unfold talb in T.
      assert (K : forall e', In e' entries -> tal_name e' -> realpath e' = true /\ run e' <> NoThread) by (intros; apply H; auto; right; auto).
      destruct (strrchr 46 e) as [x|]; [|rewrite IH by auto; rewrite orb_false_r; reflexivity].
      destruct (list_eqb Z.eqb x (cstr ".tal")) eqn:EX; cbn [negb]; [|rewrite IH by auto; rewrite orb_false_r; reflexivity].
      destruct (H e (or_introl eq_refl) (proj1 T eq_refl)) as [RP NT]. rewrite RP. cbn [negb].
      unfold spawn_tal_thread. destruct (run e) as [|er|d] eqn:ER; [congruence| |]; rewrite IH by auto; rewrite !orb_true_r, orb_true_l;
        cbn [rev]; rewrite map_app, <- app_assoc; cbn [map app]; rewrite ER; reflexivity.
  Qed.

  Lemma wait_failed ts : forall db err, (forall t, In t ts -> t <> NoThread /\ t <> Failed 0) ->
    (err <> 0 \/ exists e, In (Failed e) ts) -> exists db' err', wait_all (map Some ts) db err = Ok (db', err') /\ err' <> 0.
  Proof.
    induction ts as [|t ts IH]; intros db err H K; cbn [map wait_all].
    - destruct K as [K|(e&[])]. eauto.
    - assert (H' : forall t, In t ts -> t <> NoThread /\ t <> Failed 0) by (intros; apply H; right; auto).
      destruct (H t (or_introl eq_refl)) as [N1 N2]. destruct t as [|e|d]; [congruence| |].
      + apply IH; auto. left. congruence.
      + destruct (Z.eqb_spec err 0) as [->|NE]; [|apply IH; auto].
        assert (K' : exists e, In (Failed e) ts) by (destruct K as [K|(e&[K|K])]; [congruence|discriminate|eauto]).
        destruct db; apply IH; auto.
  Qed.
  Definition opt_db (db : option db_table) : db_table := match db with Some d => d | None => db_table_create end.
  Lemma wait_done ds : forall db, exists db', wait_all (map Some (map Done ds)) db 0 = Ok (db', 0) /\
    (ds <> [] \/ db <> None -> db' <> None) /\
    (forall v, In v (t_roas (opt_db db')) <-> In v (t_roas (opt_db db)) \/ exists d, In d ds /\ In v (t_roas d)) /\
    (forall v, In v (t_rks (opt_db db')) <-> In v (t_rks (opt_db db)) \/ exists d, In d ds /\ In v (t_rks d)).
  Proof.
    induction ds as [|d ds IH]; intros db; cbn [map wait_all Z.eqb].
    - exists db. split; auto. split; [tauto|]. split; intros v; (split; [auto|intros [K|(d&[]&_)]; exact K]).
    - destruct db as [d0|].
      + destruct (IH (Some (db_table_join d0 d))) as (db'&E&N&R1&R2). exists db'. split; auto. split; [intros; apply N; right; discriminate|].
        split; intros v; [rewrite R1|rewrite R2]; cbn [opt_db]; [rewrite join_roas|rewrite join_rks];
          (split; [intros [[K|K]|(x&I&K)]; [left; auto|right; exists d; split; [left; auto|auto]|right; exists x; split; [right; auto|auto]]
                  |intros [K|(x&[<-|I]&K)]; [left; left; auto|left; right; auto|right; eauto]]).
      + destruct (IH (Some d)) as (db'&E&N&R1&R2). exists db'. split; auto. split; [intros; apply N; right; discriminate|].
        split; intros v; [rewrite R1|rewrite R2]; cbn [opt_db db_table_create t_roas t_rks In];
          (split; [intros [K|(x&I&K)]; [right; exists d; split; [left; auto|auto]|right; exists x; split; [right; auto|auto]]
                  |intros [[]|(x&[<-|I]&K)]; [left; auto|right; eauto]]).
  Qed.

  (** Whenever every TAL of the directory gets its thread: if all of them end well,
      the result is the union of theirs; if one of them fails, there's no result. *)
  Theorem C44_union_partial entries :
    (forall e, In e entries -> tal_name e -> realpath e = true /\ run e <> NoThread /\ run e <> Failed 0) ->
    (exists e, In e entries /\ tal_name e) ->
    (forall e, In e entries -> tal_name e -> exists db, run e = Done db) /\
      (exists db, perform (Dir entries true) = Ok (Some db) /\
        (forall v, In v (t_roas db) <-> exists e d, In e entries /\ tal_name e /\ run e = Done d /\ In v (t_roas d)) /\
        (forall k, In k (t_rks db) <-> exists e d, In e entries /\ tal_name e /\ run e = Done d /\ In k (t_rks d)))
    \/ (exists e err, In e entries /\ tal_name e /\ run e = Failed err) /\ perform (Dir entries true) = Ok None.
  Proof.
    intros H (e0&I0&T0). unfold perform_standalone_validation, foreach_file. rewrite dir_ok by (intros e I T; destruct (H e I T) as (?&?&?); auto).
    assert (EX : existsb talb entries = true) by (apply existsb_exists; exists e0; rewrite talb_iff; auto). rewrite EX. cbn [orb andb negb]. rewrite app_nil_r.
    assert (FI : forall e, In e (rev (filter talb entries)) <-> In e entries /\ tal_name e) by (intros e; rewrite <- in_rev, filter_In, talb_iff; tauto).
    assert (ALL : forall l, (forall e, In e l -> In e entries /\ tal_name e) -> (exists ds, map run l = map Done ds) \/ exists e err, In e l /\ run e = Failed err).
    { induction l as [|e l IH]; intros HL; [left; exists []; auto|]. destruct (HL e (or_introl eq_refl)) as [I T]. destruct (H e I T) as (_&N&_).
      destruct (run e) as [|er|d] eqn:ER; [congruence|right; exists e, er; split; [left|]; auto|].
      destruct IH as [(ds&E)|(e'&er&I'&E)]; [intros; apply HL; right; auto|left; exists (d :: ds); cbn; congruence|right; exists e', er; split; [right|]; auto]. }
    rewrite <- (map_map run Some). destruct (ALL (rev (filter talb entries))) as [(ds&E)|(e&er&I&E)]; [intros; apply FI; auto| |].
    - left. assert (DI : forall e, In e entries -> tal_name e -> exists db, run e = Done db /\ In db ds).
      { intros e I T. assert (K : In (run e) (map run (rev (filter talb entries)))) by (apply in_map, FI; auto). rewrite E in K. apply in_map_iff in K. destruct K as (d&K&J). eauto. }
      assert (ID : forall d, In d ds -> exists e, In e entries /\ tal_name e /\ run e = Done d).
      { intros d J. apply (in_map Done) in J. rewrite <- E in J. apply in_map_iff in J. destruct J as (e&K&J). apply FI in J. exists e. tauto. }
      split. { intros e I T. destruct (DI e I T) as (d&K&_). eauto. }
      rewrite E. destruct (wait_done ds None) as (db'&EW&N&R1&R2). rewrite EW. cbn [bind Z.eqb].
      destruct db' as [db|]. 2:{ exfalso. apply N; auto. left. destruct (DI e0 I0 T0) as (d&_&J). destruct ds; [destruct J|discriminate]. }
      exists db. split; auto. cbn [opt_db db_table_create t_roas t_rks In] in R1, R2.
      split; intros v; [rewrite R1|rewrite R2]; (split; [intros [[]|(d&J&K)]; destruct (ID d J) as (e&I&T&ER); exists e, d; auto|]);
        intros (e&d&I&T&ER&K); right; exists d; destruct (DI e I T) as (d'&ER'&J); split; auto; congruence.
    - right. apply FI in I. destruct I as [I T]. split; [exists e, er; auto|].
      destruct (wait_failed (map run (rev (filter talb entries))) None 0) as (db'&err'&EW&NE).
      + intros t J. apply in_map_iff in J. destruct J as (e'&<-&J). apply FI in J. destruct J as [J T']. destruct (H e' J T') as (_&?&?). auto.
      + right. exists er. rewrite <- E. apply in_map, FI. auto.
      + rewrite EW. cbn [bind]. destruct (Z.eqb_spec err' 0); [congruence|reflexivity].
  Qed.
  (** A single file. *)
  Theorem C44_file path : run path <> NoThread -> run path <> Failed 0 ->
    perform (File path) = Ok (match run path with Done db => Some db | _ => None end).
  Proof.
    intros N1 N2. unfold perform_standalone_validation, foreach_file, spawn_tal_thread. destruct (run path) as [|e|d]; [congruence| |reflexivity].
    cbn [negb wait_all bind]. destruct (Z.eqb_spec e 0); [congruence|reflexivity].
  Qed.
  (** Without TALs there's no result; nor if the directory can't be read and no TAL
      was started. *)
  Theorem C44_none entries rd : (forall e, In e entries -> ~ tal_name e) -> perform (Dir entries rd) = Ok None.
  Proof.
    intros H. unfold perform_standalone_validation, foreach_file. rewrite dir_ok by (intros e I T; destruct (H e I T)).
    assert (FN : filter talb entries = []).
    { destruct (filter talb entries) as [|e l] eqn:E; auto. exfalso. assert (I : In e (filter talb entries)) by (rewrite E; left; auto).
      apply filter_In in I. rewrite talb_iff in I. destruct I as [I T]. exact (H e I T). }
    assert (EX : existsb talb entries = false).
    { destruct (existsb talb entries) eqn:E; auto. apply existsb_exists in E. destruct E as (e&I&T). apply talb_iff in T. destruct (H e I T). }
    rewrite EX, FN. cbn [orb rev map app]. rewrite andb_false_r. reflexivity.
  Qed.

  (** When a TAL's thread can't be created, or a TAL's path resolved, or the directory
      be read to its end, the TALs already started are freed while they run; a thread
      that can't be created is freed twice.  "Nothing" is not what one gets. *)
  Theorem C44_spawn_refuted before e after rd :
    (forall e, In e before -> tal_name e -> realpath e = true /\ run e <> NoThread) -> tal_name e -> realpath e = true -> run e = NoThread ->
    perform (Dir (before ++ e :: after) rd) = UB.
  Proof.
    intros H T RP NT. unfold perform_standalone_validation, foreach_file.
    assert (G : forall found threads, exists threads', process_dir_files realpath run (before ++ e :: after) rd found threads = (false, None :: threads')).
    { induction before as [|b l IH]; intros found threads; cbn [app process_dir_files].
      - unfold process_file. apply talb_iff in T. unfold talb in T. destruct (strrchr 46 e) as [x|]; [|discriminate]. rewrite T. cbn [negb]. rewrite RP. cbn [negb].
        unfold spawn_tal_thread. rewrite NT. cbn [negb]. eauto.
      - assert (IH' : forall found threads, exists threads', process_dir_files realpath run (l ++ e :: after) rd found threads = (false, None :: threads'))
          by (apply IH; intros; apply H; auto; right; auto).
        unfold process_file. pose proof (talb_iff b) as TB. unfold talb in TB. destruct (strrchr 46 b) as [x|]; [|apply IH'].
        destruct (list_eqb Z.eqb x (cstr ".tal")); cbn [negb]; [|apply IH'].
        destruct (H b (or_introl eq_refl) (proj1 TB eq_refl)) as [RB NB]. rewrite RB. cbn [negb]. unfold spawn_tal_thread.
        destruct (run b); [congruence| |]; cbn [negb]; apply IH'. }
    destruct (G false []) as (th&->). reflexivity.
  Qed.
  Theorem C44_readdir_refuted e entries : (forall e, In e entries -> tal_name e -> realpath e = true /\ run e <> NoThread) ->
    In e entries -> tal_name e -> perform (Dir entries false) = UB.
  Proof.
    intros H I T. unfold perform_standalone_validation, foreach_file. rewrite dir_ok by auto. cbn [andb negb]. rewrite app_nil_r.
    destruct (rev (filter talb entries)) as [|x l] eqn:E; [|reflexivity].
    exfalso. assert (K : In e (rev (filter talb entries))) by (rewrite <- in_rev, filter_In, talb_iff; auto). rewrite E in K. destruct K.
  Qed.
End C44.

Definition ex_v (a : Z) : vrp := {| v_asn := a; v_addr := 0; v_len := 8; v_max := 8; v_fam := AF_INET |}.
Definition ex_d (a : Z) : db_table := {| t_roas := [ex_v a; ex_v 7]; t_rks := [] |}.
Definition ex_run (bad : bool) (e : list Z) : thread := if list_eqb Z.eqb e (cstr "a.tal") then Done (ex_d 1) else if bad then Failed 5 else Done (ex_d 2).
Definition ex_entries : list (list Z) := [cstr "a.tal"; cstr "README"; cstr "b.x.tal"; cstr "c.tal.bak"].
Example C44_nonvacuous :
  perform_standalone_validation (fun _ => true) (ex_run false) (Dir ex_entries true) = Ok (Some {| t_roas := [ex_v 2; ex_v 1; ex_v 7]; t_rks := [] |}) /\
  perform_standalone_validation (fun _ => true) (ex_run true) (Dir ex_entries true) = Ok None /\
  (forall b e, ex_run b e <> NoThread /\ ex_run b e <> Failed 0) /\
  (tal_name (cstr "b.x.tal") /\ ~ tal_name (cstr "c.tal.bak")).
Proof.
  split; [vm_compute; reflexivity|]. split; [vm_compute; reflexivity|]. split.
  - intros b e. unfold ex_run. destruct (list_eqb _ _ _), b; split; discriminate.
  - split; [apply talb_iff; reflexivity|]. rewrite <- talb_iff. discriminate.
Qed.
