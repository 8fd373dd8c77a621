(** * C84: downloading a file over HTTP *)
From Verif Require Import Base BaseLemmas Http HttpSpec HttpProofs.
Notation length := List.length.

(** An answer with this document (in one piece) and response code. *)
Definition answer (code : Z) (b : list Z) : attempt :=
  {| at_init := true; at_chunks := [b]; at_open := 0; at_fwrite := fun _ => Z.of_nat (length b); at_flush := length b; at_res := 0; at_getinfo := true; at_code := code |}.
Definition no_answer (res code : Z) : attempt :=
  {| at_init := true; at_chunks := []; at_open := 0; at_fwrite := fun _ => 0; at_flush := 0; at_res := res; at_getinfo := true; at_code := code |}.
Definition fine (srv : Z -> nat -> attempt) : world :=
  {| w_tmpfile := 0; w_stat := 0; w_mtime := 1000; w_mkdir := 0; w_rename := 0; w_server := srv |}.
Lemma answer_sane code b : code <> 304 -> sane (answer code b).
Proof. intros H. split; [|split; [cbn; lia|intros K; contradiction]]. intros [|i] c K; [injection K as <-; cbn; lia|destruct i; discriminate K]. Qed.
Lemma no_answer_sane res code : sane (no_answer res code).
Proof. split; [|split; [cbn; lia|reflexivity]]. intros [|i] c K; discriminate K. Qed.

(** ** For every server, any number of retries, any failures of the file system and wherever the process dies: the file is what it was, or the complete
    document of the first answer that had one; nothing else is touched; no temporary file stays behind; the file changes if and only if the download says so;
    and when it says the file hasn't changed, the server said so.
    (Missing: [flushed].  Without it, this is false: see below.) *)
Theorem C84_download_partial : forall max retries tmp final w f,
  tmp <> final -> f tmp = None -> 0 <= max -> (forall d i, sane (w_server w d i)) -> (forall d i, flushed (w_server w d i)) ->
  let s := http_download max retries tmp final w f in let srv := w_server w (since w f final) in
  (forall g n, In g (st_fs s :: st_trace s) -> n <> tmp -> n <> final -> g n = f n) /\
  (forall g, In g (st_fs s :: st_trace s) -> g final = f final \/ exists k, taken max retries srv k /\ g final = Some (body (srv k))) /\
  st_fs s tmp = None /\
  (st_error s <> 0 -> st_fs s final = f final) /\
  (st_error s = 0 -> st_changed s = true -> exists k, taken max retries srv k /\ st_fs s final = Some (body (srv k))) /\
  (st_error s = 0 -> st_changed s = false -> st_fs s final = f final /\ exists k, (k <= retries)%nat /\ unchanged (srv k) /\ forall i, (i < k)%nat -> ~ fresh max (srv i)).
Proof.
  intros max retries tmp final w f H1 H2 H3 H4 H5 s srv. destruct (download_spec max retries tmp final w f H1 H2 H3 H4) as (A & B & C & D & E & F). fold s in A, B, C, D, E, F. fold srv in B, E, F.
  assert (G : forall k, firstn (at_flush (srv k)) (body (srv k)) = body (srv k)) by (intros k; apply firstn_all2; apply H5).
  split; [exact A|]. split; [intros g Hg; destruct (B g Hg) as [K|(k & K1 & K2)]; [left; exact K|right; exists k; rewrite G in K2; auto]|]. split; [exact C|]. split; [exact D|].
  split; [|exact F]. intros X Y. destruct (E X Y) as (k & K1 & K2). exists k. rewrite G in K2. auto.
Qed.
Print Assumptions C84_download_partial.

Definition ex_srv (d : Z) (i : nat) : attempt := match i with O => no_answer 28 0 | S O => no_answer 22 503 | _ => answer 200 [60; 114; 62] end.
Example C84_example : (forall d i, sane (ex_srv d i)) /\ (forall d i, flushed (ex_srv d i)) /\
  let f := put (fun _ => None) [1] (Some [9]) in
  let s := http_download 100 2 [7] [1] (fine ex_srv) f in
  st_error s = 0 /\ st_changed s = true /\ st_fs s [1] = Some [60; 114; 62] /\ st_fs s [7] = None /\ length (st_trace s) = 10%nat /\
  (let s := http_download 100 1 [7] [1] (fine ex_srv) f in st_error s = 5 /\ st_fs s [1] = Some [9]) /\
  (let s := http_download 2 2 [7] [1] (fine ex_srv) f in st_error s = -27 /\ st_fs s [1] = Some [9]).
Proof.
  split; [intros d [|[|i]]; [apply no_answer_sane|apply no_answer_sane|apply answer_sane; discriminate]|].
  split; [intros d [|[|i]]; unfold flushed; cbn; lia|]. vm_compute. repeat split.
Qed.

(** ** Temporary trouble is retried: if at most http.retry.count attempts meet temporary trouble, and the next answer has a document, it is downloaded. *)
Theorem C84_retries : forall max retries tmp final w f k,
  tmp <> final -> f tmp = None -> 0 <= max -> (forall d i, sane (w_server w d i)) -> (forall d i, flushed (w_server w d i)) ->
  w_tmpfile w = 0 -> w_stat w = 0 -> w_mkdir w = 0 -> w_rename w = 0 ->
  let srv := w_server w (since w f final) in
  (k <= retries)%nat -> (forall i, (i < k)%nat -> temporary max (srv i)) -> fresh max (srv k) -> at_chunks (srv k) <> [] ->
  let s := http_download max retries tmp final w f in
  st_error s = 0 /\ st_changed s = true /\ st_fs s final = Some (body (srv k)).
Proof.
  intros max retries tmp final w f k H1 H2 H3 H4 H5 W1 W2 W3 W4 srv Hk Ht Hf Hc s. unfold s, http_download, get_ims. rewrite W1, W2. cbn [Z.eqb negb].
  assert (X : match f final with Some _ => (0, w_mtime w) | None => (0, 0) end = (0, since w f final)) by (unfold since; destruct (f final); reflexivity). rewrite X. cbn [Z.eqb negb]. fold srv.
  destruct (retries_live max tmp srv H3 (H4 _) retries 0%nat f k H2 ltac:(lia) ltac:(intros i Hi; apply Ht; lia) Hf) as (E1 & E2 & E3). rewrite E1, E2, W3, (E3 Hc), W4. cbn [Z.eqb negb orb st_error st_changed st_fs].
  split; [reflexivity|]. split; [reflexivity|]. rewrite put_other by congruence. rewrite put_same. f_equal. apply firstn_all2. apply H5.
Qed.
Print Assumptions C84_retries.
Example C84_example_retries : (forall i, (i < 2)%nat -> temporary 100 (ex_srv 1000 i)) /\ fresh 100 (ex_srv 1000 2).
Proof.
  split.
  - intros [|[|i]] Hi; [| |lia]; unfold temporary; cbn; repeat split; auto; try lia; try (intros [|j] c K; discriminate K).
  - unfold fresh, transferred. cbn. repeat split; auto; try lia. intros [|j] c K; [injection K as <-; reflexivity|destruct j; discriminate K].
Qed.

(** ** No more than http.retry.count + 1 attempts are made: what the server would have answered later makes no difference. *)
Theorem C84_attempts : forall max retries tmp final w w' f,
  w_tmpfile w' = w_tmpfile w -> w_stat w' = w_stat w -> w_mtime w' = w_mtime w -> w_mkdir w' = w_mkdir w -> w_rename w' = w_rename w ->
  (forall d i, (i <= retries)%nat -> w_server w' d i = w_server w d i) ->
  http_download max retries tmp final w' f = http_download max retries tmp final w f.
Proof.
  intros max retries tmp final w w' f E1 E2 E3 E4 E5 E6. unfold http_download, get_ims. rewrite E1, E2, E3, E4, E5.
  assert (G : forall d more r ch g, (r + more <= retries)%nat -> do_retries max tmp (w_server w' d) more r ch g = do_retries max tmp (w_server w d) more r ch g).
  { intros d. induction more as [|more IH]; intros r ch g Hr; cbn [do_retries]; rewrite E6 by lia; [reflexivity|]. rewrite IH by lia. reflexivity. }
  destruct (f final); destruct (w_stat w =? 0); rewrite !G by lia; reflexivity.
Qed.
Print Assumptions C84_attempts.

(** ** False: if the last bytes can't be written (the disk is full when fclose() flushes them), the truncated document is taken: fclose()'s result is ignored. *)
Theorem C84_flush_refuted : exists w, (forall d i, sane (w_server w d i)) /\
  let s := http_download 100 0 [7] [1] w (put (fun _ => None) [1] (Some [9])) in
  st_error s = 0 /\ st_changed s = true /\ st_fs s [1] = Some [60] /\ body (w_server w 1000 0) = [60; 114; 62].
Proof.
  exists (fine (fun _ _ => {| at_init := true; at_chunks := [[60; 114; 62]]; at_open := 0; at_fwrite := fun _ => 3; at_flush := 1; at_res := 0; at_getinfo := true; at_code := 200 |})).
  split; [|vm_compute; auto]. intros d i. split; [|split; [cbn; lia|intros K; discriminate K]]. intros [|j] c K; [injection K as <-; cbn; lia|destruct j; discriminate K].
Qed.
Print Assumptions C84_flush_refuted.

(** ** False: what an answer that is neither a success nor "not modified" has for a body (say, "301 Moved Permanently" without a Location) is taken for
    the document. *)
Theorem C84_redirect_refuted : exists w, (forall d i, sane (w_server w d i)) /\ (forall d i, flushed (w_server w d i)) /\ (forall d i, at_code (w_server w d i) = 301) /\
  let s := http_download 100 0 [7] [1] w (put (fun _ => None) [1] (Some [9])) in
  st_error s = 0 /\ st_changed s = true /\ st_fs s [1] = Some (body (w_server w 1000 0)).
Proof.
  exists (fine (fun _ _ => answer 301 [60; 114; 62])). split; [intros d i; apply answer_sane; discriminate|]. split; [intros d i; unfold flushed; cbn; lia|]. split; [reflexivity|]. vm_compute. auto.
Qed.
Print Assumptions C84_redirect_refuted.

(** ** False: when the download succeeds, there is a file.  A server may say "not modified" when it wasn't asked. *)
Theorem C84_unsolicited_refuted : exists w, (forall d i, sane (w_server w d i)) /\ (forall d i, flushed (w_server w d i)) /\
  let s := http_download 100 0 [7] [1] w (fun _ => None) in st_error s = 0 /\ st_fs s [1] = None.
Proof.
  exists (fine (fun _ _ => no_answer 0 304)). split; [intros d i; apply no_answer_sane|]. split; [intros d i; unfold flushed; cbn; lia|]. vm_compute. auto.
Qed.
Print Assumptions C84_unsolicited_refuted.

(** ** http_direct_download() (--init-tals) is not like that: a download that fails deletes the file there was. *)
Theorem C84_direct_refuted : exists a, sane a /\ flushed a /\
  let s := http_direct_download 100 [1] a (put (fun _ => None) [1] (Some [9])) in st_error s <> 0 /\ st_fs s [1] = None.
Proof. exists (no_answer 6 0). split; [apply no_answer_sane|]. split; [unfold flushed; cbn; lia|]. vm_compute. split; [discriminate|reflexivity]. Qed.
Print Assumptions C84_direct_refuted.
